(* Replacing one operand: proofs. *)
From Verif Require Import Base LexSpec Lexer LexerProofs LexerThms LexStatements DocLines DocProofs DocTokens Fields Expr Linter Literals LiteralsProofs Strconv Codec OpTable Process ProcessSpec ProcessProofs ProcessRun ProcessLine ProcessDoc ProcessThms FieldProofs Semantics Query Lsp Edit RoundTripSpec RoundTripLex QueryProofs EditProofs RenameProofs HintSpec.
From Coq Require Import Lia ZifyBool ZifyNat ZifyN Sorted.

(* ------------------------------------------------------------------------------------------ *)
(* one operand of one line *)
Definition same_asm (a b : option (expr * list str)) : Prop :=
  match a, b with
  | Some (e, r), Some (e', r') => e = e' /\ (r = [] <-> r' = [])
  | None, None => True
  | _, _ => False
  end.
Lemma same_asm_refl a : same_asm a a.
Proof. destruct a as [[e r]|]; cbn; tauto. Qed.

Record same_line_result (en : env) (v : N) (l l' : list token) : Prop := {
  sl_entries : entries en v l' = entries en v l;
  sl_version : forall v, version_after v l' = version_after v l;
  sl_surplus : surplus en v l' = surplus en v l }.

Lemma same_lines en ls ls' : length ls = length ls' -> forall v,
  (forall j l l', nth_error ls j = Some l -> nth_error ls' j = Some l' -> same_line_result en (last_version v (firstn j ls)) l l') ->
  all_entries en v ls' = all_entries en v ls /\ all_surplus en v ls' = all_surplus en v ls.
Proof.
  revert ls'. induction ls as [|l ls IH]; intros [|l' ls'] L v H; try discriminate L; [auto|]. cbn [all_entries all_surplus].
  destruct (H 0 l l' eq_refl eq_refl) as [A B C]. cbn [firstn last_version] in A, C. rewrite A, B, C.
  destruct (IH ls' ltac:(cbn in L; lia) (version_after v l)) as [-> ->]; [|auto].
  intros j x x' N N'. exact (H (S j) x x' N N').
Qed.

Lemma texts_edited es l l' : Forall2 (edited_tok es) l l' -> texts l' = map (new_text es) l.
Proof. induction 1 as [|t t' l l' [_ [_ H]] F IH]; [reflexivity|]. unfold texts in *. cbn [map]. congruence. Qed.

Section one.
Variable en : env.
Variable src : str.
Variable ps : list piece.
Variable r : presult.
Hypothesis HL : Lexes src ps.
Hypothesis HO : strings_on_one_line ps.
Hypothesis HP : process en src = Ret r.
Variables (op t : token) (w1 w2 : list token) (k : nat) (n : str).
Hypothesis HN : nth_error (r_lines r) k = Some (op :: w1 ++ t :: w2).
Hypothesis HQ : starts_quote (tok_v t) = false.
Hypothesis HR : raw_ok n.
Let es := replace_token t n.
Let n' := piece_tok (retext n).
Let l := op :: w1 ++ t :: w2.

Lemma o_in : In l (r_lines r). Proof. exact (nth_error_In _ _ HN). Qed.
Lemma o_tl : In t (tl l). Proof. cbn. apply in_or_app. right. left. reflexivity. Qed.
Lemma o_value : tok_t t = TokValue.
Proof.
  pose proof (no_eol _ _ _ HP t l (or_intror o_tl) o_in) as X.
  destruct (lines_of_result _ _ _ HP) as [_ _ _ C]. rewrite Forall_forall in C. specialize (C l o_in). rewrite Forall_forall in C. specialize (C t o_tl).
  destruct (tok_t t); congruence.
Qed.
Lemma o_fact : tok_e t = tok_b t + length (tok_v t) /\ tok_b t < tok_e t.
Proof.
  destruct (fact_of _ _ _ HP t (in_line _ t l (or_intror o_tl) o_in)) as [A B]. destruct (B o_value) as [C _]. split; [apply C; exact HQ|exact A].
Qed.
Lemma o_width : width (TextEdit (tok_range t) n) = length (tok_v t).
Proof. unfold width, tok_range. cbn [te_range r_sc r_ec]. destruct o_fact. lia. Qed.
Lemma o_tokens : Forall (on_token (r_tokens r)) es.
Proof.
  constructor; [|constructor]. exists t. destruct (lines_tokens _ _ _ HP) as [Inc _]. destruct o_fact as [F1 F2].
  split; [apply Inc; exact (in_line _ t l (or_intror o_tl) o_in)|]. split; [exact o_value|]. split; [exact HQ|].
  split; [unfold starts_at, tok_range; cbn [te_range r_sl r_sc]; lia|]. split; [reflexivity|].
  split; [unfold tok_range; cbn [te_range r_sc r_ec]; lia|]. rewrite o_width. split; [lia|]. cbn [te_text]. rewrite skipn_all, app_nil_r. exact HR.
Qed.
Lemma o_nodup : NoDup (map e_start es). Proof. constructor; [intros []|constructor]. Qed.
Lemma o_self : new_text es t = n'.
Proof.
  unfold new_text, es, replace_token. cbn [filter]. replace (starts_at (tok_l t) (tok_b t) (TextEdit (tok_range t) n)) with true by (unfold starts_at, tok_range; cbn [te_range r_sl r_sc]; lia).
  rewrite o_width, skipn_all, app_nil_r. reflexivity.
Qed.
Lemma o_other u m : In m (r_lines r) -> In u m -> u <> t -> new_text es u = tok_v u.
Proof.
  intros Im Iu N. unfold new_text, es, replace_token. cbn [filter].
  destruct (starts_at (tok_l u) (tok_b u) (TextEdit (tok_range t) n)) eqn:S; [|reflexivity].
  unfold starts_at, tok_range in S. cbn [te_range r_sl r_sc] in S. exfalso. apply N.
  apply (before_inj _ u t (rn_order _ _ _ HP)); [exact (in_line _ u m Iu Im)|exact (in_line _ t l (or_intror o_tl) o_in)|lia|lia].
Qed.
Lemma o_line m m' : In m (r_lines r) -> ~ In t m -> Forall2 (edited_tok es) m m' -> same_texts m m'.
Proof.
  intros Im N F. assert (G : forall u, In u m -> new_text es u = tok_v u) by (intros u Iu; apply (o_other u m Im Iu); congruence). clear N Im.
  unfold same_texts. induction F as [|u u' m m' [A [_ B]] F IH]; [reflexivity|]. cbn [map]. rewrite IH by (intros x X; apply G; right; exact X).
  rewrite (G u (or_introl eq_refl)) in B. unfold is_comment. rewrite A, B. reflexivity.
Qed.
Lemma o_sorted : ~ In t (op :: w1) /\ ~ In t w2.
Proof.
  pose proof (line_order _ _ _ HP [] [] l o_in) as S. change l with ((op :: w1) ++ t :: w2) in S. revert S. generalize (op :: w1). induction l0 as [|x a IH]; intros S; cbn [app] in S; inversion S as [|? ? S1 S2]; subst.
  - split; [intros []|]. intros I. rewrite Forall_forall in S2. specialize (S2 t I). unfold before in S2. lia.
  - destruct (IH S1) as [A B]. split; [|exact B]. intros [->|I]; [|exact (A I)]. rewrite Forall_forall in S2. specialize (S2 t ltac:(apply in_or_app; right; left; reflexivity)). unfold before in S2. lia.
Qed.
Lemma o_texts w w' : incl w l -> ~ In t w -> Forall2 (edited_tok es) w w' -> texts w' = texts w.
Proof.
  intros I N F. rewrite (texts_edited es _ _ F). apply map_ext_in. intros u Iu. apply (o_other u l o_in (I u Iu)). congruence.
Qed.
Lemma o_this l' : Forall2 (edited_tok es) l l' -> exists op' w', l' = op' :: w' /\ tok_t op' = tok_t op /\ tok_v op' = tok_v op /\
  texts w' = texts w1 ++ n' :: texts w2.
Proof.
  intros F. inversion F as [|? op' ? w' [A [_ B]] F']; subst. exists op', w'. destruct o_sorted as [N1 N2].
  split; [reflexivity|]. split; [exact A|]. split; [rewrite B; apply (o_other op l o_in (or_introl eq_refl)); intros ->; apply N1; left; reflexivity|].
  apply Forall2_app_inv_l in F'. destruct F' as [a [b [Fa [Fb ->]]]]. inversion Fb as [|? t' ? c [C [_ D]] Fc]; subst.
  unfold texts. rewrite map_app. cbn [map]. fold (texts a). fold (texts c). rewrite D, o_self.
  rewrite (o_texts w1 a), (o_texts w2 c); auto.
  - intros x X. right. apply in_or_app. right. right. exact X.
  - intros x X. right. apply in_or_app. left. exact X.
  - intros X. apply N1. right. exact X.
Qed.

Hypothesis HK : tok_v op <> bs "#pragma".
Hypothesis HA : forall p, ops_get (tok_v op) = Some p ->
  same_asm (assemble en (version_on r k) p (texts w1 ++ n' :: texts w2)) (assemble en (version_on r k) p (texts w1 ++ tok_v t :: texts w2)).

Lemma o_kind l' : Forall2 (edited_tok es) l l' -> same_line_result en (version_on r k) l l'.
Proof.
  intros F. destruct (o_this l' F) as [op' [w' [-> [T [V W]]]]].
  assert (P : seqb (tok_v op) (bs "#pragma") = false) by (destruct (seqb_spec (tok_v op) (bs "#pragma")); congruence).
  assert (Wl : texts (w1 ++ t :: w2) = texts w1 ++ tok_v t :: texts w2) by (unfold texts; rewrite map_app; reflexivity).
  assert (K : (kind_of (op' :: w') = kind_of l /\ (forall p a, kind_of l <> LOp p a) /\ forall a, kind_of l <> LPragma a) \/
    exists p, ops_get (tok_v op) = Some p /\ kind_of l = LOp p (texts w1 ++ tok_v t :: texts w2) /\ kind_of (op' :: w') = LOp p (texts w1 ++ n' :: texts w2)).
  { unfold kind_of, l. rewrite T, V, W, Wl, P. destruct (tok_t op); [| |left; repeat split; intros; discriminate];
    (destruct (label_name (tok_v op)); [left; repeat split; intros; discriminate|]; destruct (ops_get (tok_v op)) as [p|]; [right; exists p; auto|left; repeat split; intros; discriminate]). }
  destruct K as [[K [N1 N2]]|[p [G [K K']]]].
  - constructor; intros; unfold entries, version_after, surplus; rewrite K; reflexivity.
  - specialize (HA p G). constructor; intros; unfold entries, version_after, surplus; rewrite ?K, ?K'; try reflexivity.
    + unfold same_asm in HA. destruct (assemble en _ p (texts w1 ++ n' :: texts w2)) as [[e [|x y]]|], (assemble en _ p (texts w1 ++ tok_v t :: texts w2)) as [[e2 [|x2 y2]]|];
        try tauto; destruct HA as [-> [X Y]]; try reflexivity; [discriminate (X eq_refl)|discriminate (Y eq_refl)].
    + unfold same_asm in HA. destruct (assemble en _ p (texts w1 ++ n' :: texts w2)) as [[e [|x y]]|], (assemble en _ p (texts w1 ++ tok_v t :: texts w2)) as [[e2 [|x2 y2]]|];
        try tauto; destruct HA as [-> [X Y]]; try reflexivity; [discriminate (X eq_refl)|discriminate (Y eq_refl)].
Qed.

Lemma o_lines ls' : Forall2 (Forall2 (edited_tok es)) (r_lines r) ls' ->
  all_entries en 1 ls' = all_entries en 1 (r_lines r) /\ all_surplus en 1 ls' = all_surplus en 1 (r_lines r).
Proof.
  intros F. apply same_lines.
  - clear - F. induction F; cbn; congruence.
  - intros j m m' Nj Nj'.
    assert (Fm : Forall2 (edited_tok es) m m').
    { clear - F Nj Nj'. revert j Nj Nj'. induction F; intros [|j] A B; try discriminate A; cbn in A, B; [congruence|eauto]. }
    destruct (Nat.eq_dec j k) as [->|Ne].
    + rewrite HN in Nj. injection Nj as <-. exact (o_kind m' Fm).
    + assert (S : same_texts m m').
      { apply o_line; [exact (nth_error_In _ _ Nj)| |exact Fm]. intros I. apply Ne.
        rewrite <- (line_index _ _ _ HP j m Nj t I). exact (line_index _ _ _ HP k l HN t (or_intror o_tl)). }
      pose proof (same_kind _ _ S) as K. constructor; intros; unfold entries, version_after, surplus; rewrite K; reflexivity.
Qed.

Theorem one_listing r' : process en (apply_edits es src) = Ret r' -> r_listing r' = r_listing r.
Proof.
  intros P'. pose proof (edit_result en src ps r es r' HL HO HP o_nodup o_tokens P') as F. destruct (o_lines _ F) as [A _].
  destruct (process_result en _ r HP) as [ts1 [errs1 [raw1 [lds1 [_ [_ [_ R1]]]]]]].
  destruct (process_result en _ r' P') as [ts2 [errs2 [raw2 [lds2 [_ [_ [_ R2]]]]]]].
  rewrite (ro_listing _ _ _ _ _ _ _ R1), (ro_listing _ _ _ _ _ _ _ R2). exact A.
Qed.
Theorem one_returns : filter is_surplus_diag (r_diag r) = [] -> exists r', process en (apply_edits es src) = Ret r'.
Proof.
  intros Z. destruct (edit_lines en src ps r es HL HO HP o_nodup o_tokens) as [ts' [errs' [raw' [T [L F]]]]].
  destruct (o_lines _ F) as [_ B].
  apply (process_returns en _ _ _ _ T L). rewrite B. pose proof (result_surplus en src r HP) as Q. rewrite Z in Q. cbn in Q. lia.
Qed.
End one.

(* ------------------------------------------------------------------------------------------ *)
(* C46: fields by name *)
Definition is_field (k : imm) : bool := match field_table k with Some _ => true | None => false end.
Definition no_fields (ks : list imm) : Prop := Forall (fun k => is_field k = false) ks.
Fixpoint fields_at (p : prog) (ks : list imm) : Prop :=
  match p with
  | MinVersion _ p | ModeMinVersion _ _ p => fields_at p ks
  | Read k _ f =>
      match k, ks with
      | IBytes, _ => no_fields ks
      | k, k' :: ks => k' = k /\ forall x, fields_at (f x) ks
      | _, [] => True
      end
  | _ => no_fields ks
  end.
Definition arg_kinds (p : prog) : list imm := map oa_type (dc_args (doc_of p)).

Lemma ops_fields : Forall (fun x => fields_at (snd x) (arg_kinds (snd x))) ops_list.
Proof.
  unfold ops_list.
  repeat (constructor; [cbn [snd];
    match goal with |- fields_at ?p (arg_kinds ?p) => let b := eval vm_compute in (arg_kinds p) in change (arg_kinds p) with b; try unfold p end;
    cbn [fields_at];
    repeat (first [ split; [reflexivity|] | intros ?x; cbn [fields_at] | exact I
                  | match goal with |- no_fields _ => repeat (constructor; [reflexivity|]); constructor end
                  | match goal with |- fields_at (match ?x with _ => _ end) _ => destruct x end; cbn [fields_at]
                  | match goal with |- fields_at (if ?x then _ else _) _ => destruct x end; cbn [fields_at] ])|]).
  constructor.
Qed.
Lemma get_in n p : ops_get n = Some p -> exists s, In (s, p) ops_list /\ n = bs s.
Proof.
  unfold ops_get. destruct (find (fun x => seqb (bs (fst x)) n) (rev ops_list)) as [[m q]|] eqn:E; [|discriminate].
  intros Eq. injection Eq as <-. apply find_some in E. destruct E as [I E]. cbn [fst] in E. apply seqb_eq in E. apply in_rev in I. exists m. auto.
Qed.
Lemma get_fields n p : ops_get n = Some p -> fields_at p (arg_kinds p).
Proof. intros E. destruct (get_in _ _ E) as [s [I _]]. exact (proj1 (Forall_forall _ _) ops_fields _ I). Qed.

Lemma no_field_at ks i k : no_fields ks -> nth_error ks i = Some k -> is_field k = true -> False.
Proof. intros N E F. unfold no_fields in N. rewrite Forall_forall in N. rewrite (N k (nth_error_In _ _ E)) in F. discriminate F. Qed.

Lemma operand_one en v k a r : k <> IBytes -> operand en v k a r = obind (operand_value en v k a) (fun x => Some (x, r)).
Proof. destruct k; try reflexivity. congruence. Qed.

Lemma assemble_swap en v k a b w2 : is_field k = true -> operand_value en v k a = operand_value en v k b ->
  forall p ks w1, fields_at p ks -> nth_error ks (length w1) = Some k ->
  same_asm (assemble en v p (w1 ++ a :: w2)) (assemble en v p (w1 ++ b :: w2)).
Proof.
  intros Fk E. induction p as [e0|n p IH|m n p IH|k0 n g IH|n g IH|n g IH|n g IH|n g IH]; intros ks w1 F N; cbn [fields_at] in F;
    try (exfalso; exact (no_field_at _ _ _ F N Fk)).
  - cbn [assemble]. exact (IH _ _ F N).
  - cbn [assemble]. exact (IH _ _ F N).
  - assert (D : k0 = IBytes \/ (k0 <> IBytes /\ exists ks', ks = k0 :: ks' /\ forall x, fields_at (g x) ks')).
    { destruct ks as [|k' ks']; [destruct (length w1); discriminate N|]. destruct k0; try (left; reflexivity); right; (split; [discriminate|]); destruct F as [-> F]; exists ks'; auto. }
    destruct D as [->|[Nb [ks' [-> F']]]]; [exfalso; exact (no_field_at _ _ _ F N Fk)|].
    destruct w1 as [|x w1]; cbn [app assemble].
    + cbn in N. injection N as <-. rewrite !operand_one by exact Nb. rewrite E. apply same_asm_refl.
    + rewrite !operand_one by exact Nb. destruct (operand_value en v k0 x) as [y|]; cbn [obind fst snd]; [|exact I]. apply (IH y ks'); [apply F'|exact N].
Qed.

(* the tables *)
Definition tables : list imm := [ITxnField; IItxnField; ITxnaField; IJsonRef; IEcdsaCurve; IGlobal; IAssetHolding; IAssetParams; IAppParams; IAcctParams; IVrf; IBlock; IEcGroup; IBase64].
Definition table_ok (k : imm) : bool :=
  match field_table k with
  | None => true
  | Some sp => distinct (map f_name sp) && forallb (fun s => seqb (f_name s) [] || (match read_uint8 (f_name s) with None => true | Some _ => false end && is_word (f_name s))) sp
  end.
Lemma tables_ok k : table_ok k = true.
Proof. destruct k; vm_compute; reflexivity. Qed.

Lemma table_facts k sp : field_table k = Some sp -> NoDup (map f_name sp) /\
  forall s, In s sp -> f_name s <> [] -> read_uint8 (f_name s) = None /\ is_word (f_name s) = true.
Proof.
  intros E. pose proof (tables_ok k) as H. unfold table_ok in H. rewrite E in H. apply andb_true_iff in H. destruct H as [A B]. split; [exact (distinct_nodup _ A)|].
  intros s I N. rewrite forallb_forall in B. specialize (B s I). apply orb_true_iff in B. destruct B as [B|B]; [apply seqb_eq in B; contradiction|].
  apply andb_true_iff in B. destruct B as [B C]. split; [|exact C]. destruct (read_uint8 (f_name s)); [discriminate B|reflexivity].
Qed.
Lemma by_name_from sp : NoDup (map f_name sp) -> forall i j s, nth_error sp j = Some s -> spec_by_name_from i sp (f_name s) None = Some ((i + N.of_nat j)%N, s).
Proof.
  intros D i j s N. pose proof (spec_by_name_table sp D i (f_name s)) as H.
  assert (U : forall a b x y, nth_error sp a = Some x -> nth_error sp b = Some y -> f_name x = f_name y -> a = b).
  { intros a b x y Na Nb Q. apply (proj1 (NoDup_nth_error (map f_name sp)) D).
    - apply nth_error_Some. rewrite nth_error_map, Na. discriminate.
    - rewrite !nth_error_map, Na, Nb. cbn. congruence. }
  destruct (spec_by_name_from i sp (f_name s) None) as [[g y]|] eqn:S.
  - destruct H as [_ [Hi [Hn Hf]]]. pose proof (U _ _ _ _ Hn N Hf) as Q. subst j. rewrite N in Hn. injection Hn as <-. f_equal. f_equal. lia.
  - exfalso. clear H. revert i j N S. clear U. induction sp as [|a sp IH]; intros i j N S; [destruct j; discriminate N|]. cbn [spec_by_name_from] in S.
    cbn [map] in D. inversion D as [|? ? Na Nd]; subst. destruct (seqb_spec (f_name a) (f_name s)) as [Q|Q].
    + rewrite spec_by_name_acc in S. destruct (spec_by_name_from (i + 1) sp (f_name s) None); discriminate S.
    + destruct j as [|j]; [cbn in N; congruence|]. exact (IH Nd _ _ N S).
Qed.
Lemma by_name_none sp a : (forall s, In s sp -> f_name s <> a) -> spec_by_name sp a = None.
Proof.
  intros H. unfold spec_by_name. apply spec_by_name_out. rewrite in_map_iff. intros [s [E I]]. exact (H s I E).
Qed.
Lemma atoi_uint8 a z m : atoi a = Some z -> read_uint8 a = Some m -> z = Z.of_N m.
Proof.
  intros A R. pose proof R as R0. apply read_uint8_spec in R0. destruct R0 as [Nu Lt]. destruct a as [|c a]; [discriminate A|].
  pose proof (numeral_head _ _ _ Nu) as [d [D1 D2]].
  unfold atoi, parse_int in A. unfold read_uint8, parse_uint in R.
  assert (C1 : Ascii.eqb c "-" = false) by (destruct (Ascii.eqb_spec c "-"); [subst c; change (byte "-") with 45%N in D2; lia|reflexivity]).
  assert (C2 : Ascii.eqb c "+" = false) by (destruct (Ascii.eqb_spec c "+"); [subst c; change (byte "+") with 43%N in D2; lia|reflexivity]).
  rewrite C1, C2 in A. cbn [orb] in A. unfold parse_uint in A.
  change (10 =? 0)%N with false in A, R. cbv iota in A, R. destruct (digits_val false 10 0 (c :: a)) as [q|]; [|discriminate R].
  destruct (2 ^ 8 <=? q)%N; [discriminate R|]. cbn [andb] in R. injection R as ->.
  destruct (2 ^ 64 <=? m)%N; [discriminate A|]. cbn [andb] in A.
  destruct (_ <=? _)%N in A; [discriminate A|]. injection A as <-. reflexivity.
Qed.
Lemma name_find sp j s : NoDup (map f_name sp) -> nth_error sp j = Some s -> find (fun x => seqb (f_name x) (f_name s)) sp = Some s.
Proof.
  intros D N. revert j N. induction sp as [|a sp IH]; intros j N; [destruct j; discriminate N|]. cbn [map] in D. inversion D as [|? ? Na Nd]; subst. cbn [find].
  destruct (seqb_spec (f_name a) (f_name s)) as [Q|Q].
  - destruct j as [|j]; [cbn in N; congruence|]. exfalso. apply Na. rewrite Q. apply in_map. exact (nth_error_In sp j N).
  - destruct j as [|j]; [cbn in N; congruence|]. exact (IH Nd _ N).
Qed.

Lemma field_same en v k a z n : arg_field_name k z = Some n -> atoi a = Some z -> read_uint8 a <> None -> (field_since k n <= v)%N ->
  operand_value en v k n = operand_value en v k a /\ is_word n = true /\ is_field k = true.
Proof.
  unfold arg_field_name, field_since, is_field. destruct (field_table k) as [sp|] eqn:T; [|discriminate]. destruct (z <? 0)%Z eqn:Zn; [discriminate|].
  destruct (nth_error sp (Z.to_nat z)) as [s|] eqn:Nz; [|discriminate]. destruct (offered k s && negb (seqb (f_name s) [])) eqn:O; [|discriminate].
  intros H A R V. injection H as <-. apply andb_true_iff in O. destruct O as [Of On]. apply negb_true_iff in On.
  assert (Ne : f_name s <> []) by (intros Q; rewrite (proj2 (seqb_eq _ _) Q) in On; discriminate On).
  destruct (table_facts k sp T) as [D F]. pose proof (nth_error_In _ _ Nz) as Is. destruct (F s Is Ne) as [F1 F2]. split; [|auto].
  rewrite (name_find _ _ _ D Nz) in V.
  destruct (read_uint8 a) as [m|] eqn:Ra; [clear R|congruence]. pose proof (atoi_uint8 _ _ _ A Ra) as Zm.
  assert (B1 : spec_by_name sp (f_name s) = Some (m, s)).
  { unfold spec_by_name. rewrite (by_name_from sp D 0 _ _ Nz). f_equal. f_equal. lia. }
  assert (B2 : spec_by_name sp a = None).
  { apply by_name_none. intros x Ix Q. subst a. destruct (f_name x) as [|c w] eqn:Ex; [discriminate A|]. rewrite <- Ex in Ra. destruct (F x Ix ltac:(rewrite Ex; discriminate)) as [G _]. rewrite G in Ra. discriminate Ra. }
  destruct k; try discriminate T; cbn [field_table] in T; injection T as <-; cbn [operand_value]; unfold read_field, read_txn_field; rewrite B1, B2, Ra; cbn [offered] in Of;
    try (destruct (N.ltb_spec v (f_version s)); [lia|reflexivity]).
  - destruct (N.eqb_spec (f_itx s) 0) as [Q|Q]; [discriminate Of|]. destruct (N.ltb_spec v (f_itx s)); [lia|reflexivity].
  - rewrite Of. reflexivity.
Qed.

(* where a hint comes from *)
Lemma named_where args rg l : forall i x, In x (fst (line_hints args rg i l)) -> exists j t, nth_error l j = Some t /\ In x (named_hint args (i + j) t).
Proof.
  induction l as [|t l IH]; intros i x H; [destruct H|]. cbn [line_hints] in H. destruct (line_hints args rg (S i) l) as [n d] eqn:E.
  specialize (IH (S i) x). rewrite E in IH. cbn [fst] in IH.
  assert (G : In x (named_hint args i t) \/ In x n).
  { destruct (overlaps (tok_range t) rg); cbn [fst] in H; [apply in_app_or in H; exact H|right; exact H]. }
  destruct G as [G|G].
  - exists 0, t. rewrite Nat.add_0_r. auto.
  - destruct (IH G) as [j [u [N I]]]. exists (S j), u. rewrite Nat.add_succ_r. auto.
Qed.
Lemma decoded_where args rg l : forall i x, In x (snd (line_hints args rg i l)) -> exists t, In t l /\ In x (decoded_hint t).
Proof.
  induction l as [|t l IH]; intros i x H; [destruct H|]. cbn [line_hints] in H. destruct (line_hints args rg (S i) l) as [n d] eqn:E.
  specialize (IH (S i) x). rewrite E in IH. cbn [snd] in IH.
  assert (G : In x (decoded_hint t) \/ In x d).
  { destruct (overlaps (tok_range t) rg); cbn [snd] in H; [apply in_app_or in H; exact H|right; exact H]. }
  destruct G as [G|G]; [exists t; split; [left; reflexivity|exact G]|]. destruct (IH G) as [u [N I]]. exists u. split; [right; exact N|exact I].
Qed.
Lemma hints_where rg ls : forall i x,
  (In x (fst (hints_from rg i ls)) -> exists l, In l ls /\ In x (fst (hints_of_line rg l))) /\
  (In x (snd (hints_from rg i ls)) -> exists l, In l ls /\ In x (snd (hints_of_line rg l))).
Proof.
  induction ls as [|l ls IH]; intros i x; [split; intros []|]. cbn [hints_from]. destruct (IH (S i) x) as [A B]. destruct (hints_from rg (S i) ls) as [n d].
  cbn [fst snd] in A, B. split; intros H.
  - destruct (_ && _); [destruct (hints_of_line rg l) as [n' d'] eqn:E; cbn [fst] in H; apply in_app_or in H; destruct H as [H|H]; [exists l; rewrite E; split; [left; reflexivity|exact H]|]|cbn [fst] in H];
      destruct (A H) as [m [Im Hm]]; exists m; split; auto; right; exact Im.
  - destruct (_ && _); [destruct (hints_of_line rg l) as [n' d'] eqn:E; cbn [snd] in H; apply in_app_or in H; destruct H as [H|H]; [exists l; rewrite E; split; [left; reflexivity|exact H]|]|cbn [snd] in H];
      destruct (B H) as [m [Im Hm]]; exists m; split; auto; right; exact Im.
Qed.

Lemma line_number en src r l t : process en src = Ret r -> In l (r_lines r) -> In t l -> nth_error (r_lines r) (tok_l t) = Some l.
Proof.
  intros E Il It. apply In_nth_error in Il. destruct Il as [k N]. rewrite (line_index _ _ _ E k l N t It). exact N.
Qed.

Theorem named_hint_same en src ps r rg hs t n :
  Lexes src ps -> strings_on_one_line ps -> process en src = Ret r -> inlay_hints r rg = Ret hs -> In (t, n) (fst hs) ->
  read_uint8 (tok_v t) <> None -> (forall k, operand_kind r t k -> (field_since k n <= version_on r (tok_l t))%N) ->
  (filter is_surplus_diag (r_diag r) = [] -> exists r', process en (apply_edits (replace_token t n) src) = Ret r') /\
  (forall r', process en (apply_edits (replace_token t n) src) = Ret r' -> r_listing r' = r_listing r).
Proof.
  intros L O E H I R V. unfold inlay_hints in H. destruct (_ && _) in H; [discriminate H|]. injection H as <-.
  destruct (proj1 (hints_where _ _ _ _) I) as [l [Il Ix]]. unfold hints_of_line in Ix. apply named_where in Ix. destruct Ix as [j [u [Nj Ix]]].
  unfold named_hint in Ix. destruct l as [|op w]; [destruct j; discriminate Nj|]. destruct (op_args (tok_v op)) as [args|] eqn:Oa; [|destruct Ix].
  destruct j as [|j]; [destruct Ix|]. cbn [Nat.add] in Ix. destruct (nth_error args j) as [a|] eqn:Na; [|destruct Ix]. destruct (atoi (tok_v u)) as [z|] eqn:At; [|destruct Ix].
  destruct (arg_field_name (oa_type a) z) as [n0|] eqn:Af; [|destruct Ix]. destruct Ix as [Ix|[]]. injection Ix as -> ->.
  cbn [nth_error] in Nj. apply nth_error_split in Nj. destruct Nj as [w1 [w2 [-> Lw]]].
  assert (Itl : In t (op :: w1 ++ t :: w2)) by (right; apply in_or_app; right; left; reflexivity).
  pose proof (line_number _ _ _ _ _ E Il Itl) as Nl.
  assert (K : operand_kind r t (oa_type a)) by (exists op, w1, w2, args, a; rewrite Lw; auto).
  destruct (field_same en _ _ _ _ _ Af At R (V _ K)) as [Ov [W Fk]].
  assert (Q : starts_quote (tok_v t) = false).
  { destruct (read_uint8 (tok_v t)) as [m|] eqn:Rm; [|congruence]. apply read_uint8_spec in Rm. destruct Rm as [Nu _]. destruct (tok_v t) as [|c s]; [reflexivity|].
    destruct (numeral_head _ _ _ Nu) as [d [D1 D2]]. cbn [starts_quote]. destruct (Ascii.eqb_spec c c_quote); [subst c; change (byte c_quote) with 34%N in D2; lia|reflexivity]. }
  assert (Np : tok_v op <> bs "#pragma"). { intros Q'. rewrite Q' in Oa. vm_compute in Oa. discriminate Oa. }
  assert (HA : forall p, ops_get (tok_v op) = Some p ->
    same_asm (assemble en (version_on r (tok_l t)) p (texts w1 ++ piece_tok (retext n) :: texts w2)) (assemble en (version_on r (tok_l t)) p (texts w1 ++ tok_v t :: texts w2))).
  { intros p G. rewrite (retext_word _ W). cbn [piece_tok]. unfold op_args in Oa. rewrite G in Oa. injection Oa as <-.
    apply (assemble_swap en _ (oa_type a) _ _ _ Fk Ov p (arg_kinds p)); [exact (get_fields _ _ G)|].
    unfold arg_kinds, texts. rewrite map_length, Lw, nth_error_map, Na. reflexivity. }
  split.
  - exact (one_returns en src ps r L O E op t w1 w2 (tok_l t) n Nl Q (or_introl W) Np HA).
  - exact (one_listing en src ps r L O E op t w1 w2 (tok_l t) n Nl Q (or_introl W) Np HA).
Qed.

(* ------------------------------------------------------------------------------------------ *)
(* C47: byte constants as literals *)
Definition takes_bytes (k : imm) : bool := match k with IBytes => true | _ => false end.
Inductive byte_op (p : prog) : Prop :=
| one_bytes K : (forall en v args, assemble en v p args = match args with [] => None | a :: r => obind (byte_operand en a r) (fun x => Some (K (fst x), snd x)) end) -> byte_op p
| all_bytes_op K : (forall en v args, assemble en v p args = obind (all_bytes en (length args) args) (fun xs => Some (K xs, []))) -> byte_op p.
Lemma ops_bytes : Forall (fun x => existsb takes_bytes (arg_kinds (snd x)) = true -> byte_op (snd x)) ops_list.
Proof.
  unfold ops_list.
  repeat (constructor; [cbn [snd]; intros H;
    first [ discriminate H
          | apply one_bytes with (K := fun x => ByteExpr x 0%N); reflexivity
          | apply one_bytes with (K := fun x => PushBytesExpr x 0%N); reflexivity
          | apply all_bytes_op with (K := BytecBlockExpr); reflexivity
          | apply all_bytes_op with (K := PushBytessExpr); reflexivity ]|]).
  constructor.
Qed.
Lemma get_bytes n p args : ops_get n = Some p -> op_args n = Some args -> (exists a, In a args /\ oa_type a = IBytes) -> byte_op p.
Proof.
  intros G A [a [I T]]. destruct (get_in _ _ G) as [s [Is _]]. apply (proj1 (Forall_forall _ _) ops_bytes _ Is). cbn [snd]. unfold op_args in A. rewrite G in A. injection A as <-.
  apply existsb_exists. exists IBytes. split; [|reflexivity]. unfold arg_kinds. rewrite <- T. apply in_map. exact I.
Qed.

Definition no_encoding (w : list str) : Prop := forall x u, w = u ++ [x] -> encoding x = false.
Lemma no_encoding_tail x w : no_encoding (x :: w) -> no_encoding w.
Proof. intros H y u ->. exact (H y (x :: u) eq_refl). Qed.

Definition same_rest (a b : str) (w2 : list str) (x y : option (str * list str)) : Prop :=
  match x, y with
  | Some (v, r), Some (v', r') => v = v' /\ exists w, r = w ++ a :: w2 /\ r' = w ++ b :: w2 /\ no_encoding w
  | None, None => True
  | _, _ => False
  end.
Lemma byte_operand_rest en x w1 a b w2 : no_encoding (x :: w1) ->
  same_rest a b w2 (byte_operand en x (w1 ++ a :: w2)) (byte_operand en x (w1 ++ b :: w2)).
Proof.
  intros N. unfold byte_operand.
  assert (D : forall o : option str, same_rest a b w2 (obind o (fun v => Some (v, w1 ++ a :: w2))) (obind o (fun v => Some (v, w1 ++ b :: w2)))).
  { intros [v|]; cbn; [|exact I]. split; [reflexivity|]. exists w1. split; [reflexivity|]. split; [reflexivity|]. exact (no_encoding_tail _ _ N). }
  assert (Q : forall o : str -> option str, encoding x = true ->
    same_rest a b w2 (match w1 ++ a :: w2 with l :: r' => obind (o l) (fun v => Some (v, r')) | [] => None end)
                     (match w1 ++ b :: w2 with l :: r' => obind (o l) (fun v => Some (v, r')) | [] => None end)).
  { intros o En. destruct w1 as [|y w1]; [rewrite (N x [] eq_refl) in En; discriminate En|]. cbn [app].
    destruct (o y) as [v|]; cbn; [|exact I]. split; [reflexivity|]. exists w1. split; [reflexivity|]. split; [reflexivity|]. exact (no_encoding_tail _ _ (no_encoding_tail _ _ N)). }
  destruct (has_prefix "base32(" x || has_prefix "b32(" x).
  { destruct (between_parens x) as [y|]; cbn [obind]; [apply D|exact I]. }
  destruct (has_prefix "base64(" x || has_prefix "b64(" x).
  { destruct (between_parens x) as [y|]; cbn [obind]; [apply D|exact I]. }
  destruct (has_prefix "0x" x); [apply D|].
  destruct (seqb x (bs "base32") || seqb x (bs "b32")) eqn:E1.
  { apply Q. unfold encoding, mem. cbn [existsb]. apply orb_true_iff in E1. destruct E1 as [E|E]; rewrite E, ?orb_true_r; reflexivity. }
  destruct (seqb x (bs "base64") || seqb x (bs "b64")) eqn:E2.
  { apply Q. unfold encoding, mem. cbn [existsb]. apply orb_true_iff in E2. destruct E2 as [E|E]; rewrite E, ?orb_true_r; reflexivity. }
  destruct (parse_string_literal x) as [[v|]| |]; try exact I. destruct (1 <? length x); [exact (D (Some v))|exact I].
Qed.
Lemma all_bytes_rest en a b w2 : (forall r, byte_operand en a r = byte_operand en b r) -> forall fuel w1, no_encoding w1 ->
  all_bytes en fuel (w1 ++ a :: w2) = all_bytes en fuel (w1 ++ b :: w2).
Proof.
  intros E. induction fuel as [|fuel IH]; intros w1 N; [destruct w1; reflexivity|].
  destruct w1 as [|x w1]; cbn [app all_bytes].
  - rewrite E. reflexivity.
  - pose proof (byte_operand_rest en x w1 a b w2 N) as H. unfold same_rest in H.
    destruct (byte_operand en x (w1 ++ a :: w2)) as [[v r]|], (byte_operand en x (w1 ++ b :: w2)) as [[v' r']|]; try contradiction; [|reflexivity].
    destruct H as [-> [w [-> [-> Nw]]]]. cbn [obind fst snd]. rewrite (IH w Nw). reflexivity.
Qed.
Lemma bytes_swap en v p a b w1 w2 : byte_op p -> (forall r, byte_operand en a r = byte_operand en b r) -> no_encoding w1 ->
  same_asm (assemble en v p (w1 ++ a :: w2)) (assemble en v p (w1 ++ b :: w2)).
Proof.
  intros [K H|K H] E N; rewrite !H.
  - destruct w1 as [|x w1]; cbn [app]; [rewrite E; apply same_asm_refl|].
    pose proof (byte_operand_rest en x w1 a b w2 N) as Q. unfold same_rest in Q.
    destruct (byte_operand en x (w1 ++ a :: w2)) as [[u r]|], (byte_operand en x (w1 ++ b :: w2)) as [[u' r']|]; try contradiction; [|exact I].
    destruct Q as [-> [w [-> [-> _]]]]. cbn. split; [reflexivity|]. split; intros Q; destruct w; discriminate Q.
  - rewrite (all_bytes_rest en a b w2 E _ w1 N).
    replace (length (w1 ++ a :: w2)) with (length (w1 ++ b :: w2)) by (rewrite !app_length; reflexivity). apply same_asm_refl.
Qed.

(* the literal *)
Lemma escape_unescape v : unescape_quotes (escape_quotes v) = v.
Proof.
  induction v as [|c v IH]; [reflexivity|]. cbn [escape_quotes]. destruct (Ascii.eqb_spec c c_quote) as [->|N].
  - rewrite unescape_cons2. cbn [byte]. change (byte c_bslash =? r_bslash)%N with true. change (byte c_quote =? r_quote)%N with true. cbn [andb]. rewrite IH. reflexivity.
  - destruct (escape_quotes v) as [|d w] eqn:E.
    + assert (v = []) as ->. { destruct v as [|x v]; [reflexivity|]. cbn in E. destruct (Ascii.eqb x c_quote); discriminate E. } reflexivity.
    + rewrite unescape_cons2, IH. destruct ((byte c =? r_bslash)%N && (byte d =? r_quote)%N) eqn:Q; [|reflexivity]. exfalso.
      apply andb_true_iff in Q. destruct Q as [_ Q]. destruct v as [|x v]; [discriminate E|]. cbn [escape_quotes] in E. destruct (Ascii.eqb_spec x c_quote) as [->|Nx].
      * injection E as <- _. discriminate Q.
      * injection E as <- _. apply Nx. change r_quote with (byte c_quote) in Q. rewrite byte_eqb in Q. apply Ascii.eqb_eq in Q. exact Q.
Qed.
Lemma escape_quoted v : ~ In c_bslash v -> quotes_escaped (escape_quotes v).
Proof.
  induction v as [|c v IH]; intros N i H; [destruct i; discriminate H|]. cbn [escape_quotes] in H.
  assert (Nv : ~ In c_bslash v) by (intros X; apply N; right; exact X). destruct (Ascii.eqb_spec c c_quote) as [->|Nc].
  - destruct i as [|[|i]]; [discriminate H|exists 0; split; [reflexivity|]; cbn [escape_quotes]; rewrite Ascii.eqb_refl; reflexivity|].
    cbn [nth_error] in H. destruct (IH Nv i H) as [j [-> J]]. exists (S (S j)). split; [reflexivity|]. cbn [escape_quotes]. rewrite Ascii.eqb_refl. exact J.
  - destruct i as [|i]; [cbn in H; congruence|]. cbn [nth_error] in H. destruct (IH Nv i H) as [j [-> J]]. exists (S j). split; [reflexivity|].
    cbn [escape_quotes]. destruct (Ascii.eqb_spec c c_quote); [congruence|exact J].
Qed.
Lemma escape_in v x : In x (escape_quotes v) -> In x v \/ x = c_bslash.
Proof.
  induction v as [|c v IH]; [intros []|]. cbn [escape_quotes]. destruct (Ascii.eqb_spec c c_quote) as [->|N]; cbn [In].
  - intros [<-|[<-|H]]; auto. destruct (IH H); auto.
  - intros [<-|H]; auto. destruct (IH H); auto.
Qed.
Lemma escape_last v : ~ In c_bslash v -> ~ last_is c_bslash (escape_quotes v).
Proof.
  induction v as [|c v IH]; intros N [w E]; [destruct w; discriminate E|].
  assert (Nv : ~ In c_bslash v) by (intros X; apply N; right; exact X). cbn [escape_quotes] in E. destruct (Ascii.eqb_spec c c_quote) as [->|Nc].
  - destruct w as [|x w]; [discriminate E|]. cbn [app] in E. injection E as _ E. destruct w as [|y w]; [discriminate E|]. cbn [app] in E. injection E as _ E. exact (IH Nv (ex_intro _ w E)).
  - destruct w as [|x w]; cbn [app] in E.
    + injection E as -> _. apply N. left. reflexivity.
    + injection E as _ E. exact (IH Nv (ex_intro _ w E)).
Qed.
Lemma literal_ok v : ~ In c_bslash v -> forallb printable v = true -> literal (literal_of v).
Proof.
  intros N P. exists (escape_quotes v). split; [reflexivity|]. split; [exact (escape_quoted v N)|]. split; [exact (escape_last v N)|].
  rewrite forallb_forall in P. split; intros I; apply escape_in in I; destruct I as [I|I]; try discriminate I; specialize (P _ I); vm_compute in P; discriminate P.
Qed.
Lemma literal_token v : piece_tok (retext (literal_of v)) = c_quote :: v ++ [c_quote].
Proof.
  unfold literal_of, retext. cbn [starts_quote]. rewrite Ascii.eqb_refl. cbn [tl]. rewrite removelast_last. cbn [piece_tok]. rewrite escape_unescape. reflexivity.
Qed.
Lemma denotes_self v : ~ In c_bslash v -> denotes v v.
Proof.
  induction v as [|c v IH]; intros N; [constructor|]. constructor; [intros ->; apply N; left; reflexivity|]. apply IH. intros X. apply N. right. exact X.
Qed.
Lemma literal_operand en v r : ~ In c_bslash v -> byte_operand en (c_quote :: v ++ [c_quote]) r = Some (v, r).
Proof.
  intros N. unfold byte_operand.
  replace (has_prefix "base32(" (c_quote :: v ++ [c_quote])) with false by reflexivity.
  replace (has_prefix "b32(" (c_quote :: v ++ [c_quote])) with false by reflexivity.
  replace (has_prefix "base64(" (c_quote :: v ++ [c_quote])) with false by reflexivity.
  replace (has_prefix "b64(" (c_quote :: v ++ [c_quote])) with false by reflexivity.
  replace (has_prefix "0x" (c_quote :: v ++ [c_quote])) with false by reflexivity.
  replace (seqb (c_quote :: v ++ [c_quote]) (bs "base32")) with false by reflexivity.
  replace (seqb (c_quote :: v ++ [c_quote]) (bs "b32")) with false by reflexivity.
  replace (seqb (c_quote :: v ++ [c_quote]) (bs "base64")) with false by reflexivity.
  replace (seqb (c_quote :: v ++ [c_quote]) (bs "b64")) with false by reflexivity. cbn [orb].
  rewrite (proj2 (literal_accepts v v) (denotes_self v N)). cbn [length]. rewrite app_length. cbn [length].
  replace (1 <? S (length v + 1)) with true by lia. reflexivity.
Qed.
Lemma prefix_0x a : has_prefix "0x" a = true -> exists w, a = "0"%char :: "x"%char :: w.
Proof.
  unfold has_prefix. intros H. destruct a as [|x [|y w]]; [discriminate H|cbn in H; destruct (Ascii.eqb x "0"); discriminate H|].
  cbn in H. destruct (Ascii.eqb_spec x "0") as [->|]; [|discriminate H]. destruct (Ascii.eqb_spec y "x") as [->|]; [|discriminate H]. eauto.
Qed.
Lemma hex_operand en a v r : has_prefix "0x" a = true -> hex_decode (skipn 2 a) = Some v -> byte_operand en a r = Some (v, r).
Proof.
  intros P H. destruct (prefix_0x a P) as [w ->]. unfold byte_operand.
  replace (has_prefix "base32(" ("0"%char :: "x"%char :: w)) with false by reflexivity.
  replace (has_prefix "b32(" ("0"%char :: "x"%char :: w)) with false by reflexivity.
  replace (has_prefix "base64(" ("0"%char :: "x"%char :: w)) with false by reflexivity.
  replace (has_prefix "b64(" ("0"%char :: "x"%char :: w)) with false by reflexivity. cbn [orb]. rewrite P, H. reflexivity.
Qed.

Theorem decoded_hint_same en src ps r rg hs t v :
  Lexes src ps -> strings_on_one_line ps -> process en src = Ret r -> inlay_hints r rg = Ret hs -> In (t, v) (snd hs) ->
  ~ In c_bslash v -> byte_constant r t ->
  (filter is_surplus_diag (r_diag r) = [] -> exists r', process en (apply_edits (replace_token t (literal_of v)) src) = Ret r') /\
  (forall r', process en (apply_edits (replace_token t (literal_of v)) src) = Ret r' -> r_listing r' = r_listing r).
Proof.
  intros L O E H I N [op [w1 [w2 [args [Nl [Oa [B We]]]]]]]. unfold inlay_hints in H. destruct (_ && _) in H; [discriminate H|]. injection H as <-.
  destruct (proj2 (hints_where _ _ _ _) I) as [l [Il Ix]]. unfold hints_of_line in Ix. apply decoded_where in Ix. destruct Ix as [u [Iu Ix]].
  unfold decoded_hint in Ix. destruct (tok_t u); [destruct Ix| |destruct Ix]. destruct (has_prefix "0x" (tok_v u)) eqn:P; [|destruct Ix].
  destruct (hex_decode (skipn 2 (tok_v u))) as [v0|] eqn:D; [|destruct Ix]. destruct (forallb printable v0) eqn:Pr; [|destruct Ix]. destruct Ix as [Ix|[]]. injection Ix as -> ->.
  assert (Q : starts_quote (tok_v t) = false) by (destruct (prefix_0x _ P) as [w ->]; reflexivity).
  assert (Np : tok_v op <> bs "#pragma"). { intros Q'. rewrite Q' in Oa. vm_compute in Oa. discriminate Oa. }
  assert (HA : forall p, ops_get (tok_v op) = Some p ->
    same_asm (assemble en (version_on r (tok_l t)) p (texts w1 ++ piece_tok (retext (literal_of v)) :: texts w2)) (assemble en (version_on r (tok_l t)) p (texts w1 ++ tok_v t :: texts w2))).
  { intros p G. rewrite literal_token. apply bytes_swap.
    - exact (get_bytes _ _ _ G Oa B).
    - intros rest. rewrite (literal_operand en v rest N), (hex_operand en _ _ rest P D). reflexivity.
    - intros x y Q'. unfold texts in Q'. destruct w1 as [|z w1 _] using rev_ind; [destruct y; discriminate Q'|].
      rewrite map_app in Q'. cbn [map] in Q'. apply app_inj_tail in Q'. destruct Q' as [_ <-]. exact (We z w1 eq_refl). }
  pose proof (literal_ok v N Pr) as Li. split.
  - exact (one_returns en src ps r L O E op t w1 w2 (tok_l t) _ Nl Q (or_intror Li) Np HA).
  - exact (one_listing en src ps r L O E op t w1 w2 (tok_l t) _ Nl Q (or_intror Li) Np HA).
Qed.
