(* one line of Process *)
From Verif Require Import Base LexSpec Lexer Expr Linter Fields Strconv Literals LiteralsProofs Codec OpTable Process ProcessSpec ProcessProofs ProcessRun.
From Coq Require Import ZifyBool ZifyNat ZifyN.

Definition ext (l : list token) (a b : list token) : Prop := exists x, b = a ++ x /\ incl x l.

(* what processing the line l does to the context *)
Record line_post (en : env) (l : list token) (c c' : pctx) : Prop := {
  lp_mode : p_mode c' = mode_after (p_mode c) l;
  lp_version : p_version c' = version_after (p_version c) l;
  lp_ops : p_ops c' = p_ops c ++ entries en (p_version c) l;
  lp_lts : p_lts c' = p_lts c ++ [l];
  lp_comments : p_comments c' = comments_after (p_comments c) l;
  lp_refs : p_refs c' = p_refs c ++ names_labels l;
  lp_refc : p_refc c' = p_refc c ++ flat_map uses (entries en (p_version c) l);
  lp_syms : p_syms c' = p_syms c ++ map (define_symbol (p_comments c)) (defines l);
  lp_diag : exists ds, p_diag c' = p_diag c ++ gate (p_mode c) (p_version c) l ++ ds /\
                       line_errors en (p_version c) l ds;
  lp_optoks : p_optoks c' = p_optoks c ++ op_token l;
  lp_vers : p_vers c' = p_vers c ++ needs (p_mode c) (p_version c) l;
  lp_sig : (p_label c', p_protos c') = fold_left sig_step (entries en (p_version c) l) (p_label c, p_protos c);
  lp_nums : ext l (p_nums c) (p_nums c');
  lp_strs : ext l (p_strs c) (p_strs c');
  lp_keys : ext l (p_keys c) (p_keys c');
  lp_mcrs : ext l (p_mcrs c) (p_mcrs c');
  lp_vtok : p_vtok c' = token_after (p_vtok c) l
}.

Lemma ext_refl l a : ext l a a.
Proof. exists []. rewrite app_nil_r. split; [reflexivity|intros y []]. Qed.

Lemma ops_kind n p : ops_get n = Some p ->
  if one_of branch_names n then labelled false p
  else if one_of table_names n then labelled true p else plain p.
Proof.
  unfold ops_get. destruct (find (fun x => seqb (bs (fst x)) n) (rev ops_list)) as [[m q]|] eqn:E; [|discriminate].
  intros Eq. injection Eq as <-. apply find_some in E. destruct E as [I E]. cbn [fst] in E.
  apply seqb_eq in E. subst n. apply in_rev in I.
  exact (proj1 (Forall_forall _ _) ops_label_kinds _ I).
Qed.

Lemma emit_sig e c : (p_label (emit_op e c), p_protos (emit_op e c)) = sig_step (p_label c, p_protos c) e.
Proof. destruct e; try reflexivity. cbn. destruct (p_label c); reflexivity. Qed.

Lemma has_suffix_colon a : a <> [] ->
  match label_name a with
  | Some n => has_suffix ":" a = true /\ n = firstn (length a - 1) a
  | None => has_suffix ":" a = false
  end.
Proof.
  intros H. destruct (exists_last H) as [n [c ->]]. unfold label_name. rewrite rev_app_distr. cbn [rev app].
  unfold has_suffix. change (length (bs ":")) with 1. rewrite app_length. cbn [length].
  replace (1 <=? length n + 1) with true by lia. cbn [andb].
  replace (length n + 1 - 1) with (length n) by lia. rewrite skipn_app, skipn_all, Nat.sub_diag. cbn [skipn app].
  rewrite firstn_app, firstn_all, Nat.sub_diag, rev_involutive. cbn [firstn]. rewrite app_nil_r.
  assert (E : seqb [c] (bs ":") = Ascii.eqb c ":") by (cbn; destruct (Ascii.eqb c ":"); reflexivity).
  rewrite E. destruct (Ascii.eqb c ":"); auto.
Qed.

Lemma nth_skip {A} (l : list A) : forall i a r, skipn i l = a :: r -> nth_error l i = Some a /\ length l = i + S (length r).
Proof.
  induction l as [|x l IH]; intros [|i] a r E; try discriminate.
  - injection E as -> ->. split; [reflexivity|cbn; lia].
  - cbn [skipn] in E. destruct (IH _ _ _ E) as [E1 E2]. split; [exact E1|cbn; lia].
Qed.

(* the opcode's own program *)
Lemma prog_run en n p c rs : ops_get n = Some p -> in_args c -> full c -> 
  rs = (if one_of branch_names n then firstn 1 (rest c) else if one_of table_names n then rest c else []) ->
  match assemble en (p_version c) p (left c) with
  | Some (e, r) =>
      uses e = texts rs /\ label_def e = None /\
      exists c1, run_prog en p c = OK tt (emit_op e c1) /\ reads rs c c1 /\ in_args c1 /\ left c1 = r
  | None => rs = [] /\ fails (prog_fault en (p_version c) p (left c)) c (run_prog en p c)
  end.
Proof.
  intros E H F Hr. apply ops_kind in E.
  destruct (one_of branch_names n).
  - apply (labelled_run en false p E c rs H Hr).
  - destruct (one_of table_names n).
    + apply (labelled_run en true p E c rs H Hr).
    + subst rs. pose proof (plain_run en p E c H F) as Q.
      destruct (assemble en (p_version c) p (left c)) as [[e r]|]; [exact Q|split; [reflexivity|exact Q]].
Qed.

Definition gated (t : token) (p : prog) (c : pctx) : pctx :=
  let min := min_version (p_mode c) p in
  let c1 := add_optok t c in
  let c2 := if (min =? 0)%N then add_diag (Diag (tok_l t) (tok_b t) (tok_e t) (KMode (p_mode c))) c1 else c1 in
  if (p_version c <? min)%N then
    add_ver (Required (tok_l t) (line_begin (p_ts c)) (line_end (p_ts c)) min)
      (add_diag (Diag (tok_l t) (tok_b t) (tok_e t) (KVersion min (p_version c))) c2)
  else c2.

Definition surplus_check : P unit :=
  c' <~ get ;
  if p_i c' <? length (p_ts c') then
    ok <~ arg_scan ; if ok then fail_curr RTooMany else pret tt
  else pret tt.

Lemma run_op_gated en p c : at_tok c -> run_op en p c = (run_prog en p ;~ surplus_check) (gated (now c) p c).
Proof.
  intros H. unfold run_op. rewrite (bind_ok curr _ _ _ _ (curr_spec c H)).
  unfold gated, min_version. unfold pbind at 1 2. cbn [pmod get]. cbn [p_mode p_version p_ts add_optok].
  set (min := match p_mode c with ModeNone => 0%N | ModeApp => _ | ModeSig => _ end).
  unfold pbind at 1. destruct (min =? 0)%N; cbn [pmod pret]; unfold pbind at 1;
    destruct (p_version c <? min)%N; cbn [pmod pret]; reflexivity.
Qed.

Lemma gated_same t p c : p_ts (gated t p c) = p_ts c /\ p_i (gated t p c) = p_i c /\ p_mode (gated t p c) = p_mode c /\
  p_version (gated t p c) = p_version c /\ p_ops (gated t p c) = p_ops c /\ p_nums (gated t p c) = p_nums c /\
  p_strs (gated t p c) = p_strs c /\ p_keys (gated t p c) = p_keys c /\ p_mcrs (gated t p c) = p_mcrs c /\
  p_refs (gated t p c) = p_refs c /\ p_vtok (gated t p c) = p_vtok c /\ p_protos (gated t p c) = p_protos c /\
  p_refc (gated t p c) = p_refc c /\ p_label (gated t p c) = p_label c /\ p_comments (gated t p c) = p_comments c /\
  p_syms (gated t p c) = p_syms c /\ p_lts (gated t p c) = p_lts c /\ p_optoks (gated t p c) = p_optoks c ++ [t].
Proof. unfold gated. destruct (_ =? 0)%N, (_ <? _)%N; repeat split; reflexivity. Qed.

Lemma gated_diag t p c r l : l = t :: r -> kind_of l = LOp p (texts r) -> p_ts c = l ->
  p_diag (gated t p c) = p_diag c ++ gate (p_mode c) (p_version c) l /\
  p_vers (gated t p c) = p_vers c ++ needs (p_mode c) (p_version c) l.
Proof.
  intros -> K El. unfold gate, needs. rewrite K. unfold gated. rewrite El.
  destruct (_ =? 0)%N, (_ <? _)%N; cbn; rewrite ?app_nil_r, <- ?app_assoc; split; reflexivity.
Qed.

Lemma surplus_spec c : in_args c ->
  match rest c with
  | [] => surplus_check c = OK tt c
  | t :: _ => surplus_check c = Recover (add_diag (at_diag t RTooMany) (set_i (S (p_i c)) c))
  end.
Proof.
  intros H. unfold surplus_check. rewrite !(bind_ok get _ c c c eq_refl).
  destruct (Nat.ltb_spec (p_i c) (length (p_ts c))) as [L|L].
  - rewrite rest_cons by exact L. set (c1 := set_i (S (p_i c)) c).
    assert (E : arg_scan c = OK true c1).
    { unfold arg_scan, c1. replace (p_i c <=? length (p_ts c)) with true by lia.
      replace (S (p_i c) <=? length (p_ts c)) with true by lia. reflexivity. }
    rewrite (bind_ok _ _ _ _ _ E). unfold fail_curr.
    assert (T : at_tok c1) by (unfold at_tok, c1; cbn; lia).
    rewrite (bind_ok curr _ _ _ _ (curr_spec c1 T)). reflexivity.
  - unfold rest. rewrite skipn_all2 by exact L. reflexivity.
Qed.

Lemma kind_op t r p : tok_t t <> TokComment -> label_name (tok_v t) = None ->
  seqb (tok_v t) (bs "#pragma") = false -> ops_get (tok_v t) = Some p -> kind_of (t :: r) = LOp p (texts r).
Proof.
  intros T N Q E. unfold kind_of. rewrite N, Q, E. destruct (tok_t t); congruence.
Qed.

Lemma sig_emit_recover a : sig_step a EmptyExpr = a.
Proof. destruct a as [[n|] ps]; reflexivity. Qed.

Ltac proj_simpl :=
  cbn [p_mode p_version p_ops p_ts p_i p_diag p_nums p_strs p_keys p_mcrs p_refs p_vtok p_protos p_refc p_label
       p_comments p_optoks p_syms p_vers p_lts add_lts set_args set_i emit_op add_diag].

Lemma token_after_kind o l k : kind_of l = k -> match k with LPragma _ => False | _ => True end -> token_after o l = o.
Proof.
  intros K H. unfold token_after, version_token. destruct l as [|t [|a [|b l]]]; try reflexivity; rewrite K; destruct k; try reflexivity; destruct H.
Qed.

Ltac line_fields :=
  unfold entries, mode_after, version_after, comments_after, defines, op_token, line_errors, ext;
  repeat match goal with
         | K : kind_of _ = _ |- _ => rewrite K
         | A : assemble _ _ _ _ = _ |- _ => rewrite A
         | N : names_labels _ = _ |- _ => rewrite N
         end; proj_simpl; cbn [flat_map map app]; change (uses EmptyExpr) with (@nil str);
  rewrite ?app_nil_r, <- ?app_assoc; cbn [app];
  match goal with
  | |- (_, _) = _ => idtac
  | |- exists ds, p_diag _ = _ /\ _ => idtac
  | |- exists ds, p_diag _ ++ _ = _ /\ _ => idtac
  | |- exists x, ?a = _ ++ x /\ _ =>
      first [ solve [exists []; rewrite app_nil_r; split; [congruence|intros ? []]]
            | match goal with H : exists x, a = _ ++ x /\ _ |- _ =>
                destruct H as [?y [? ?]]; exists y; split; [congruence|];
                match goal with Hi : incl y ?u |- incl y ?v => replace v with u by congruence; exact Hi end end ]
  | K : kind_of _ = _ |- _ = token_after _ _ => rewrite (token_after_kind _ _ _ K I); congruence
  | _ => first [congruence | solve [repeat match goal with
                                    | H : p_ops _ = _ |- _ => rewrite H; clear H
                                    | H : p_refc _ = _ |- _ => rewrite H; clear H
                                    | H : p_lts _ = _ |- _ => rewrite H; clear H
                                    end; congruence] | idtac]
  end.

Lemma op_line en t r p c : tok_t t <> TokComment -> label_name (tok_v t) = None ->
  seqb (tok_v t) (bs "#pragma") = false -> ops_get (tok_v t) = Some p -> Forall (fun t => tok_v t <> []) r ->
  exists c', match run_op en p (set_i 1 (set_args (t :: r) c)) with
             | OK _ c' => Ret (add_lts (p_ts c') c')
             | Recover c' => let c'' := emit_op EmptyExpr c' in Ret (add_lts (p_ts c'') c'')
             | Crash => Panic
             | Fuel => OutOfFuel
             end = Ret c' /\ line_post en (t :: r) c c'.
Proof.
  intros T N Q E F. pose proof (kind_op t r p T N Q E) as K.
  set (c0 := set_i 1 (set_args (t :: r) c)).
  assert (T0 : at_tok c0) by (unfold at_tok, c0; cbn; lia).
  assert (N0 : now c0 = t) by reflexivity.
  rewrite (run_op_gated en p c0 T0), N0.
  destruct (gated_same t p c0) as [Gts [Gi [Gm [Gv [Go [Gn [Gs [Gk [Gmc [Gr [Gvt [Gpr [Grc [Gl [Gcm [Gsy [Glt Gop]]]]]]]]]]]]]]]]].
  destruct (gated_diag t p c0 r (t :: r) eq_refl K eq_refl) as [Gd Gvs].
  set (g := gated t p c0) in *. clearbody g.
  assert (Ig : in_args g) by (unfold in_args; rewrite Gts, Gi; unfold c0; cbn; lia).
  assert (Fg : full g) by (unfold full; rewrite Gts; exact F).
  assert (Rg : rest g = r) by (unfold rest; rewrite Gts, Gi; reflexivity).
  assert (Lg : left g = texts r) by (unfold left; rewrite Gts, Gi; reflexivity).
  pose proof (prog_run en (tok_v t) p g _ E Ig Fg eq_refl) as Run.
  rewrite Rg, Lg, Gv in Run. change (p_version c0) with (p_version c) in *. change (p_mode c0) with (p_mode c) in *.
  change (p_ops c0) with (p_ops c) in *.
  change (p_nums c0) with (p_nums c) in *.
  change (p_strs c0) with (p_strs c) in *.
  change (p_keys c0) with (p_keys c) in *.
  change (p_mcrs c0) with (p_mcrs c) in *.
  change (p_refs c0) with (p_refs c) in *.
  change (p_vtok c0) with (p_vtok c) in *.
  change (p_protos c0) with (p_protos c) in *.
  change (p_refc c0) with (p_refc c) in *.
  change (p_label c0) with (p_label c) in *.
  change (p_comments c0) with (p_comments c) in *.
  change (p_syms c0) with (p_syms c) in *.
  change (p_lts c0) with (p_lts c) in *.
  change (p_optoks c0) with (p_optoks c) in *.
  change (p_diag c0) with (p_diag c) in *.
  change (p_vers c0) with (p_vers c) in *.
  change (p_ts c0) with (t :: r) in *.
  set (rs := if one_of branch_names (tok_v t) then _ else _) in Run.
  assert (Nl : names_labels (t :: r) = rs) by (unfold names_labels; rewrite K; reflexivity).
  destruct (assemble en (p_version c) p (texts r)) as [[e s]|] eqn:A.
  - destruct Run as [U [D [c1 [E1 [R [H1 L1]]]]]].
    unfold pbind. rewrite E1.
    pose proof (surplus_spec (emit_op e c1) H1) as Sp. change (rest (emit_op e c1)) with (rest c1) in Sp.
    assert (Sg : (p_label (emit_op e c1), p_protos (emit_op e c1)) = fold_left sig_step [e] (p_label c, p_protos c)).
    { rewrite emit_sig. cbn [fold_left]. rewrite (rd_label _ _ _ R), (rd_protos _ _ _ R), Gl, Gpr. reflexivity. }
    destruct R. change (left c1) with (texts (rest c1)) in L1.
    destruct (rest c1) as [|x xs] eqn:Rc.
    + cbn in L1. subst s. rewrite Sp. eexists. split; [reflexivity|].
      constructor; line_fields.
      * exists []. rewrite app_nil_r. split; [|reflexivity]. rewrite rd_diag. exact Gd.
      * exact Sg.
    + cbn in L1. subst s. rewrite Sp. eexists. split; [reflexivity|].
      pose proof (nth_skip _ _ _ _ Rc) as [Nx Lx].
      constructor; line_fields.
      * eexists. split; [rewrite rd_diag, app_assoc; f_equal; exact Gd|].
        exists x. split; [reflexivity|]. rewrite rd_ts, Gts in Nx, Lx. cbn [fst]. unfold texts. rewrite map_length.
        replace (length (t :: r) - S (length xs)) with (p_i c1) by lia. exact Nx.
      * cbn [fold_left] in *. rewrite sig_emit_recover, <- Sg. reflexivity.
  - destruct Run as [Rn [c1 [x [E1 [R Ix]]]]]. unfold pbind. rewrite E1. destruct R.
    eexists. split; [reflexivity|]. rewrite app_nil_r in rd_refs. rewrite Rn in Nl.
    constructor; line_fields.
    + eexists. split; [rewrite rd_diag, app_assoc; f_equal; exact Gd|].
      exists x. split; [reflexivity|]. rewrite Gts in Ix. exact Ix.
    + cbn [fold_left]. rewrite sig_emit_recover. rewrite rd_label, rd_protos, Gl, Gpr. reflexivity.
Qed.

Lemma kind_pragma t r : tok_t t <> TokComment -> label_name (tok_v t) = None ->
  seqb (tok_v t) (bs "#pragma") = true -> kind_of (t :: r) = LPragma (texts r).
Proof.
  intros T N Q. unfold kind_of. rewrite N, Q. destruct (tok_t t); congruence.
Qed.

Ltac line_easy := first [ reflexivity
   | match goal with K : kind_of _ = _ |- _ = token_after _ _ => rewrite (token_after_kind _ _ _ K I); reflexivity end | apply ext_refl | left; reflexivity
   | exists []; rewrite !app_nil_r; split; reflexivity
   | rewrite ?app_nil_r; reflexivity ].

(* the outcome of opPragma, by the tokens after the macro *)
Definition pragma_out (t : token) (r : list token) (c : pctx) : out unit :=
  let c1 := add_mcr t (set_i 1 (set_args (t :: r) c)) in
  match r with
  | [] => Recover (add_diag (error_at t (RMissing "name")) (set_i 2 c1))
  | a :: r' =>
      if seqb (tok_v a) (bs "version") then
        let c2 := add_mcr a (set_i 2 c1) in
        match r' with
        | [] => Recover (add_diag (error_at a (RMissing "version value")) (set_i 3 c2))
        | b :: _ =>
            match parse_uint (tok_v b) 0 64 with
            | None => Recover (add_diag (error_at b RValue) (set_i 3 c2))
            | Some v =>
                let c3 := set_vtok b (add_num b (set_i 3 c2)) in
                if (v <? 1)%N then Recover (add_diag (error_at b RPragmaValue) c3)
                else OK tt (emit_op (PragmaExpr (u8 v)) (set_version v c3))
            end
        end
      else Recover (add_diag (error_at a (RPragmaName (tok_v a))) (set_i 2 c1))
  end.

Lemma bind_rec {A B} (m : P A) (f : A -> P B) c c' : m c = Recover c' -> pbind m f c = Recover c'.
Proof. unfold pbind. intros ->. reflexivity. Qed.

Lemma op_pragma_out t r c : op_pragma (set_i 1 (set_args (t :: r) c)) = pragma_out t r c.
Proof.
  unfold op_pragma, pragma_out. set (c0 := set_i 1 (set_args (t :: r) c)).
  rewrite (bind_ok mcr_curr _ tt c0 (add_mcr t c0)) by reflexivity.
  destruct r as [|a r].
  { rewrite (bind_rec (must_read_arg "name") _ _ (add_diag (error_at t (RMissing "name")) (set_i 2 (add_mcr t c0)))) by reflexivity.
    reflexivity. }
  rewrite (bind_ok (must_read_arg "name") _ tt _ (set_i 2 (add_mcr t c0))) by reflexivity.
  rewrite (bind_ok text _ (tok_v a) _ (set_i 2 (add_mcr t c0))) by reflexivity.
  destruct (seqb (tok_v a) (bs "version")).
  2:{ reflexivity. }
  cbv zeta. set (c1 := set_i 2 (add_mcr t c0)).
  rewrite (bind_ok mcr_curr _ tt _ (add_mcr a c1)) by reflexivity.
  destruct r as [|b r].
  { rewrite (bind_rec (must_read_arg "version value") _ _ (add_diag (error_at a (RMissing "version value")) (set_i 3 (add_mcr a c1)))) by reflexivity.
    reflexivity. }
  rewrite (bind_ok (must_read_arg "version value") _ tt _ (set_i 3 (add_mcr a c1))) by reflexivity.
  set (c2 := set_i 3 (add_mcr a c1)).
  assert (T2 : text c2 = OK (tok_v b) c2) by reflexivity.
  assert (Cu : curr c2 = OK b c2) by reflexivity.
  assert (E : parse_num (fun s => parse_uint s 0 64) c2 =
              match parse_uint (tok_v b) 0 64 with
              | Some v => OK v (add_num b c2)
              | None => Recover (add_diag (error_at b RValue) c2)
              end).
  { unfold parse_num. rewrite (bind_ok _ _ _ _ _ T2). destruct (parse_uint (tok_v b) 0 64) as [v|].
    - unfold or_fail. rewrite (bind_ok (pret v) _ v c2 c2) by reflexivity.
      unfold num_curr, pbind. rewrite Cu. reflexivity.
    - unfold or_fail. apply bind_rec. unfold fail_curr. rewrite (bind_ok _ _ _ _ _ Cu). reflexivity. }
  destruct (parse_uint (tok_v b) 0 64) as [v|].
  2:{ rewrite (bind_rec _ _ _ _ E). reflexivity. }
  rewrite (bind_ok _ _ _ _ _ E).
  assert (Cu2 : curr (add_num b c2) = OK b (add_num b c2)) by reflexivity.
  rewrite (bind_ok _ _ _ _ _ Cu2).
  set (c3 := set_vtok b (add_num b c2)).
  rewrite (bind_ok (pmod (set_vtok b)) _ tt (add_num b c2) c3) by reflexivity.
  destruct (v <? 1)%N.
  - apply bind_rec. reflexivity.
  - reflexivity.
Qed.

Lemma pragma_line en t r c : tok_t t <> TokComment -> label_name (tok_v t) = None ->
  seqb (tok_v t) (bs "#pragma") = true -> 
  exists c', match op_pragma (set_i 1 (set_args (t :: r) c)) with
             | OK _ c' => Ret (add_lts (p_ts c') c')
             | Recover c' => let c'' := emit_op EmptyExpr c' in Ret (add_lts (p_ts c'') c'')
             | Crash => Panic
             | Fuel => OutOfFuel
             end = Ret c' /\ line_post en (t :: r) c c'.
Proof.
  intros T N Q. pose proof (kind_pragma t r T N Q) as K.
  rewrite op_pragma_out. unfold pragma_out. cbv zeta.
  assert (E : pragma_version (texts r) =
    match r with
    | a :: b :: _ => if seqb (tok_v a) (bs "version") then
        match parse_uint (tok_v b) 0 64 with Some v => if (v =? 0)%N then None else Some v | None => None end else None
    | _ => None
    end) by (destruct r as [|a [|b r]]; reflexivity).
  destruct r as [|a r].
  { eexists. split; [reflexivity|].
    constructor; unfold gate, needs, entries, mode_after, version_after, comments_after, defines, op_token, line_errors, names_labels;
      rewrite ?K, ?E; try line_easy.
    - eexists. split; [reflexivity|]. exists t. split; reflexivity.
    - exists [t]. split; [reflexivity|]. intros ? [<-|[]]. left. reflexivity. }
  destruct (seqb (tok_v a) (bs "version")) eqn:Ev.
  2:{ assert (E' : pragma_version (texts (a :: r)) = None) by (rewrite E; destruct r; reflexivity). clear E.
      eexists. split; [reflexivity|].
      constructor; unfold gate, needs, entries, mode_after, version_after, comments_after, defines, op_token, line_errors, names_labels;
        rewrite ?K, ?E'; try line_easy.
      - eexists. split; [reflexivity|]. exists a. unfold texts. cbn [map pragma_fault]. rewrite Ev.
        cbn [fst snd]. rewrite map_length. split; [reflexivity|].
        replace (length (t :: a :: r) - S (length r)) with 1 by (cbn [length]; lia). reflexivity.
      - exists [t]. split; [reflexivity|]. intros ? [<-|[]]. left. reflexivity.
      - unfold token_after, version_token. destruct r; [reflexivity|]. rewrite K, Ev. reflexivity. }
  destruct r as [|b r].
  { eexists. split; [reflexivity|].
    constructor; unfold gate, needs, entries, mode_after, version_after, comments_after, defines, op_token, line_errors, names_labels;
      rewrite ?K, ?E; try line_easy.
    - eexists. split; [reflexivity|]. exists a. unfold texts. cbn [map pragma_fault]. rewrite Ev. split; reflexivity.
    - exists [t; a]. split; [cbn; rewrite <- app_assoc; reflexivity|]. intros ? [<-|[<-|[]]]; [left|right; left]; reflexivity. }
  destruct (parse_uint (tok_v b) 0 64) as [v|] eqn:Eu.
  2:{ eexists. split; [reflexivity|].
      constructor; unfold gate, needs, entries, mode_after, version_after, comments_after, defines, op_token, line_errors, names_labels;
        rewrite ?K, ?E; try line_easy.
      - eexists. split; [reflexivity|]. exists b. unfold texts. cbn [map pragma_fault]. rewrite Ev, Eu.
        cbn [fst snd]. rewrite map_length. split; [reflexivity|].
        replace (length (t :: a :: b :: r) - S (length r)) with 2 by (cbn [length]; lia). reflexivity.
      - exists [t; a]. split; [cbn; rewrite <- app_assoc; reflexivity|]. intros ? [<-|[<-|[]]]; [left|right; left]; reflexivity.
      - unfold token_after, version_token. rewrite K, Ev, Eu. reflexivity. }
  destruct (v =? 0)%N eqn:V0.
  { replace (v <? 1)%N with true by lia. eexists. split; [reflexivity|].
    constructor; unfold gate, needs, entries, mode_after, version_after, comments_after, defines, op_token, line_errors, names_labels;
      rewrite ?K, ?E; try line_easy.
    - eexists. split; [reflexivity|]. exists b. unfold texts. cbn [map pragma_fault]. rewrite Ev, Eu.
        cbn [fst snd]. rewrite map_length. split; [reflexivity|].
        replace (length (t :: a :: b :: r) - S (length r)) with 2 by (cbn [length]; lia). reflexivity.
    - exists [b]. split; [reflexivity|]. intros ? [<-|[]]. right. right. left. reflexivity.
    - exists [t; a]. split; [cbn; rewrite <- app_assoc; reflexivity|]. intros ? [<-|[<-|[]]]; [left|right; left]; reflexivity.
    - unfold token_after, version_token. rewrite K, Ev, Eu. reflexivity. }
  { replace (v <? 1)%N with false by lia. eexists. split; [reflexivity|].
    constructor; unfold gate, needs, entries, mode_after, version_after, comments_after, defines, op_token, line_errors, names_labels;
      rewrite ?K, ?E; try line_easy.
    - exists [b]. split; [reflexivity|]. intros ? [<-|[]]. right. right. left. reflexivity.
    - exists [t; a]. split; [cbn; rewrite <- app_assoc; reflexivity|]. intros ? [<-|[<-|[]]]; [left|right; left]; reflexivity.
    - unfold token_after, version_token. rewrite K, Ev, Eu. reflexivity. }
Qed.

Theorem line_spec en l c : line_ok l -> exists c', process_line en l c = Ret c' /\ line_post en l c c'.
Proof.
  intros W. unfold process_line, line_body.
  destruct l as [|t r].
  { eexists. split; [reflexivity|].
    constructor; try line_easy. }
  destruct W as [Wt Wr].
  set (c0 := set_i 1 (set_args (t :: r) c)).
  assert (E0 : arg_scan (set_args (t :: r) c) = OK true c0) by reflexivity.
  rewrite (bind_ok _ _ _ _ _ E0). cbn [negb].
  assert (E1 : curr c0 = OK t c0) by reflexivity.
  rewrite (bind_ok _ _ _ _ _ E1).
  assert (T : tok_t t = TokComment \/ tok_t t <> TokComment) by (destruct (tok_t t); [right|right|left]; congruence).
  destruct T as [T|T].
  { rewrite T. assert (K : kind_of (t :: r) = LComment (tok_v t)) by (unfold kind_of; rewrite T; reflexivity).
    destruct (seqb (trim_space (tok_v t)) (bs "#pragma mode logicsig")) eqn:M.
    - eexists. split; [reflexivity|].
      constructor; unfold gate, needs, entries, mode_after, version_after, comments_after, defines, op_token, line_errors, names_labels;
        rewrite ?K, ?M; try line_easy.
    - eexists. split; [reflexivity|].
      constructor; unfold gate, needs, entries, mode_after, version_after, comments_after, defines, op_token, line_errors, names_labels;
        rewrite ?K, ?M; try line_easy. }
  assert (Ne : tok_v t <> []) by (destruct Wt; [congruence|assumption]).
  match goal with
  | |- context[match tok_t t with TokEol => ?b | TokValue => _ | TokComment => ?x end] =>
      replace (match tok_t t with TokEol => b | TokValue => b | TokComment => x end) with b
        by (destruct (tok_t t); congruence)
  end.
  pose proof (has_suffix_colon _ Ne) as L. destruct (label_name (tok_v t)) as [n|] eqn:N.
  { destruct L as [-> L].
    assert (K : kind_of (t :: r) = LLabel n) by (unfold kind_of; rewrite N; destruct (tok_t t); congruence).
    rewrite <- L. destruct n as [|x n].
    - eexists. split; [reflexivity|].
      constructor; unfold gate, needs, entries, mode_after, version_after, comments_after, defines, op_token, line_errors, names_labels;
        rewrite ?K; try line_easy.
      + eexists. split; reflexivity.
    - eexists. split; [reflexivity|].
      constructor; unfold gate, needs, entries, mode_after, version_after, comments_after, defines, op_token, line_errors, names_labels;
        rewrite ?K; try line_easy. }
  rewrite L. assert (Q0 : seqb (tok_v t) [] = false) by (destruct (seqb_spec (tok_v t) []); congruence).
  rewrite Q0. destruct (seqb (tok_v t) (bs "#pragma")) eqn:Q.
  { apply pragma_line; assumption. }
  destruct (ops_get (tok_v t)) as [p|] eqn:O.
  { apply op_line; assumption. }
  assert (K : kind_of (t :: r) = LUnknown) by (unfold kind_of; rewrite N, Q, O; destruct (tok_t t); congruence).
  eexists. split; [reflexivity|].
  constructor; unfold gate, needs, entries, mode_after, version_after, comments_after, defines, op_token, line_errors, names_labels;
    rewrite ?K; try line_easy.
  - eexists. split; reflexivity.
Qed.
