(* the roles of the tokens of a document, and the semantic tokens *)
From Verif Require Import Base LexSpec Lexer LexerProofs LexerThms Expr Linter Fields Strconv Literals LiteralsProofs Codec OpTable Process ProcessSpec ProcessProofs ProcessRun ProcessLine ProcessDoc ProcessThms Semantics SemanticsProofs Query Lsp RenameSpec RenameProofs HintSpec PaintSpec PaintProofs.
From Coq Require Import ZifyBool ZifyNat ZifyN Permutation Sorted.

Lemma pick_other k ms a t : role_eqb k a = false -> pick a ((k, t) :: ms) = pick a ms.
Proof. intros E. unfold pick. cbn [filter fst]. rewrite E. reflexivity. Qed.
Lemma adds_skip k t ms c c' : match k with Opcode | LabelDef | Remark => True | _ => False end -> adds ms c c' -> adds ((k, t) :: ms) c c'.
Proof. intros K []. destruct k; try destruct K; constructor; rewrite pick_other by reflexivity; assumption. Qed.

Lemma adds_chain ms a b c : adds ms a b -> adds [] b c -> adds ms a c.
Proof. intros H G. rewrite <- (app_nil_r ms). eapply adds_trans; eassumption. Qed.
Lemma adds_chain0 ms a b c : adds [] a b -> adds ms b c -> adds ms a c.
Proof. intros H G. exact (adds_trans [] ms a b c H G). Qed.

Definition line_done (o : out unit) : res pctx :=
  match o with
  | OK _ c' => Ret (add_lts (p_ts c') c')
  | Recover c' => let c'' := emit_op EmptyExpr c' in Ret (add_lts (p_ts c'') c'')
  | Crash => Panic
  | Fuel => OutOfFuel
  end.
Lemma done_adds c ms o c' : files c ms o -> line_done o = Ret c' -> adds ms c c'.
Proof.
  destruct o as [u c1|c1| |]; cbn [line_done]; try discriminate; intros F E; injection E as <-.
  - eapply adds_chain; [exact F|]. adds0.
  - eapply adds_chain; [exact F|]. adds0.
Qed.

Lemma surplus_files c : in_args c -> files c [] (surplus_check c).
Proof. intros H. pose proof (surplus_spec c H) as Q. destruct (rest c); rewrite Q; cbn; adds0. Qed.

(* the opcode's program leaves the cursor within the line *)
Lemma run_in_args en n p c u c1 : ops_get n = Some p -> in_args c -> full c -> run_prog en p c = OK u c1 -> in_args c1.
Proof.
  intros E H F R. pose proof (prog_run en n p c _ E H F eq_refl) as Q.
  destruct (assemble en (p_version c) p (left c)) as [[e r]|].
  - destruct Q as [_ [_ [c2 [E2 [_ [H2 _]]]]]]. rewrite E2 in R. injection R as _ <-. exact H2.
  - destruct Q as [_ [c2 [t [E2 _]]]]. rewrite E2 in R. discriminate R.
Qed.

Lemma op_files en t r p c : ops_get (tok_v t) = Some p -> Forall (fun t => tok_v t <> []) r ->
  files (set_i 1 (set_args (t :: r) c)) (prog_roles en 2 (p_version c) p r) (run_op en p (set_i 1 (set_args (t :: r) c))).
Proof.
  intros E F. set (c0 := set_i 1 (set_args (t :: r) c)).
  assert (T0 : at_tok c0) by (unfold at_tok, c0; cbn; lia).
  rewrite (run_op_gated en p c0 T0). change (now c0) with t.
  destruct (gated_same t p c0) as [Gts [Gi [Gm [Gv [Go [Gn [Gs [Gk [Gmc [Gr _]]]]]]]]]]. set (g := gated t p c0) in *. clearbody g.
  assert (Ag : adds [] c0 g) by (constructor; cbn; rewrite app_nil_r; assumption).
  assert (Ig : in_args g) by (unfold in_args; rewrite Gts, Gi; unfold c0; cbn; lia).
  assert (Fg : full g) by (unfold full; rewrite Gts; exact F).
  assert (Rg : rest g = r) by (unfold rest; rewrite Gts, Gi; reflexivity).
  pose proof (run_files en p g Ig Fg) as Q. rewrite Rg, Gv in Q. change (p_version c0) with (p_version c) in Q.
  eapply files_pre0; [exact Ag|]. unfold pbind. destruct (run_prog en p g) as [u c1|c1| |] eqn:Er; try exact I; [|exact Q].
  rewrite <- (app_nil_r (prog_roles en 2 (p_version c) p r)). eapply files_pre; [exact Q|]. apply surplus_files.
  exact (run_in_args en (tok_v t) p g u c1 E Ig Fg Er).
Qed.

Lemma pragma_files t r c : files (set_i 1 (set_args (t :: r) c)) ((Macro, t) :: pragma_roles r) (op_pragma (set_i 1 (set_args (t :: r) c))).
Proof.
  rewrite op_pragma_out. unfold pragma_out, pragma_roles. cbv zeta. destruct r as [|a r]; [cbn; adds0|].
  destruct (seqb (tok_v a) (bs "version")); [|cbn; adds0]. destruct r as [|b r]; [cbn; adds0|].
  destruct (parse_uint (tok_v b) 0 64) as [v|]; [|cbn; adds0]. destruct (v <? 1)%N; cbn; adds0.
Qed.

Theorem line_adds en l c c' : line_ok l -> process_line en l c = Ret c' -> adds (line_roles en 2 (p_version c) l) c c'.
Proof.
  intros W E. destruct l as [|t r].
  { vm_compute in E. injection E as <-. adds0. }
  destruct W as [Wt Wr]. set (c0 := set_i 1 (set_args (t :: r) c)).
  assert (A0 : adds [] c c0) by adds0.
  apply (adds_chain0 _ c c0 c' A0). change (process_line en (t :: r) c) with (line_done (line_body en (set_args (t :: r) c))) in E.
  eapply done_adds; [|exact E]. clear E c'. unfold line_body.
  assert (E0 : arg_scan (set_args (t :: r) c) = OK true c0) by reflexivity.
  rewrite (bind_ok _ _ _ _ _ E0). cbn [negb].
  assert (E1 : curr c0 = OK t c0) by reflexivity.
  rewrite (bind_ok _ _ _ _ _ E1).
  assert (T : tok_t t = TokComment \/ tok_t t <> TokComment) by (destruct (tok_t t); [right|right|left]; congruence).
  destruct T as [T|T].
  { rewrite T. assert (K : kind_of (t :: r) = LComment (tok_v t)) by (unfold kind_of; rewrite T; reflexivity).
    unfold line_roles. rewrite K. destruct (seqb (trim_space (tok_v t)) (bs "#pragma mode logicsig")); cbn; adds0. }
  assert (Ne : tok_v t <> []) by (destruct Wt; [congruence|assumption]).
  match goal with
  | |- context[match tok_t t with TokEol => ?b | TokValue => _ | TokComment => ?x end] =>
      replace (match tok_t t with TokEol => b | TokValue => b | TokComment => x end) with b
        by (destruct (tok_t t); congruence)
  end.
  pose proof (has_suffix_colon _ Ne) as L. destruct (label_name (tok_v t)) as [n|] eqn:N.
  { destruct L as [-> L].
    assert (K : kind_of (t :: r) = LLabel n) by (unfold kind_of; rewrite N; destruct (tok_t t); congruence).
    unfold line_roles. rewrite K. rewrite <- L. destruct n as [|x n]; [cbn; adds0|].
    change (files c0 [(LabelDef, t)] (OK tt (set_comments [] (emit_op (LabelExpr (x :: n)) (add_sym (Symbol (x :: n) (tok_l t) (tok_b t) (tok_e t) (join_lines (p_comments c0)) None) c0))))).
    cbn. apply adds_skip; [exact I|]. adds0. }
  rewrite L. assert (Q0 : seqb (tok_v t) [] = false) by (destruct (seqb_spec (tok_v t) []); congruence).
  rewrite Q0. destruct (seqb (tok_v t) (bs "#pragma")) eqn:Q.
  { unfold line_roles. rewrite (kind_pragma t r T N Q). apply pragma_files. }
  destruct (ops_get (tok_v t)) as [p|] eqn:O.
  { unfold line_roles. rewrite (kind_op t r p T N Q O). pose proof (op_files en t r p c O Wr) as G. fold c0 in G.
    destruct (run_op en p c0); cbn in G |- *; try exact I; apply adds_skip; assumption || exact I. }
  assert (K : kind_of (t :: r) = LUnknown) by (unfold kind_of; rewrite N, Q, O; destruct (tok_t t); congruence).
  unfold line_roles. rewrite K. cbn. adds0.
Qed.

Theorem lines_adds en ls : Forall line_ok ls -> forall c c', process_lines en ls c = Ret c' -> adds (all_roles en 2 (p_version c) ls) c c'.
Proof.
  induction 1 as [|l ls W _ IH]; intros c c' E; cbn [process_lines all_roles] in *.
  - injection E as <-. adds0.
  - destruct (line_spec en l c W) as [c1 [E1 P1]]. rewrite E1 in E. cbn [bindr] in E.
    pose proof (line_adds en l c c1 W E1) as A1. pose proof (IH c1 c' E) as A2. rewrite (lp_version _ _ _ _ P1) in A2.
    eapply adds_trans; eassumption.
Qed.

Record painted (en : env) (r : presult) : Prop := {
  pa_nums : r_nums r = pick Number (all_roles en 2 1 (r_lines r)); pa_strs : r_strs r = pick Literal (all_roles en 2 1 (r_lines r));
  pa_keys : r_keys r = pick Encoding (all_roles en 2 1 (r_lines r)); pa_mcrs : r_mcrs r = pick Macro (all_roles en 2 1 (r_lines r));
  pa_refs : r_refs r = pick LabelRef (all_roles en 2 1 (r_lines r))
}.
Theorem process_painted en src r : process en src = Ret r -> painted en r.
Proof.
  intros E. unfold process in E. destruct (tokenize src) as [[ts errs]| |] eqn:T; try discriminate E. cbn [bindr] in E.
  destruct (process_lines_of src ts errs T) as [raw [L [Em [W A]]]]. rewrite Em in E.
  destruct (process_lines_spec en (map code_of raw) W (ctx0 (map lex_diag errs))) as [c [Ec Pc]]. rewrite Ec in E. cbn [bindr] in E.
  pose proof (lines_adds en _ W _ _ Ec) as Q. pose proof (dp_lts _ _ _ _ Pc) as Lt. cbn [p_lts ctx0 app] in Lt.
  unfold finish in E. destruct (lint_diags (p_lts c) (lint (p_ops c))) as [ds| |]; try discriminate E. cbn [bindr] in E. injection E as <-.
  destruct Q. constructor; cbn [r_nums r_strs r_keys r_mcrs r_refs r_lines]; rewrite Lt; assumption.
Qed.

(* opcodes and labels *)
Lemma roles_ops_in en n v : forall p a k t, In (k, t) (prog_roles en n v p a) -> match k with Opcode | LabelDef | Remark | Macro => False | _ => True end.
Proof.
  assert (O : forall v k a r x t, In (x, t) (operand_roles en v k a r) -> match x with Opcode | LabelDef | Remark | Macro => False | _ => True end).
  { intros v' k a r x t.
    assert (K : match kind_role k (tok_v a) with Opcode | LabelDef | Remark | Macro => False | _ => True end).
    { destruct k; cbn [kind_role field_table]; try exact I; match goal with |- context[if ?b then _ else _] => destruct b end; exact I. }
    intros H. destruct (operand en v' k (tok_v a) (texts r)) as [[y r']|] eqn:Eo.
    - rewrite (operand_roles_ok _ _ _ _ _ _ _ Eo) in H. destruct k; try (destruct H as [H|[]]; injection H as <- _; exact K).
      cbn [ok_roles] in H. destruct (encoding (tok_v a)).
      + destruct H as [H|H]; [injection H as <- _; exact I|]. apply in_map_iff in H. destruct H as [u [H _]]. injection H as <- _. exact I.
      + destruct H as [H|[]]. injection H as <- _. exact I.
    - rewrite (operand_roles_ko _ _ _ _ _ Eo) in H. destruct k; try (exfalso; exact H). cbn [ko_roles] in H. destruct (encoding (tok_v a)); [|destruct H]. destruct H as [H|[]]. injection H as <- _. exact I. }
  assert (B : forall f l x t, In (x, t) (byte_roles en f l) -> match x with Opcode | LabelDef | Remark | Macro => False | _ => True end).
  { induction f as [|f IH]; intros l x t H; [destruct H|]. destruct l as [|a l]; [destruct H|]. cbn [byte_roles] in H. apply in_app_iff in H.
    destruct H as [H|H]; [exact (O _ _ _ _ _ _ H)|]. destruct (byte_operand en (tok_v a) (texts l)) as [[y r']|]; [exact (IH _ _ _ H)|destruct H]. }
  induction p as [e|w p IH|m w p IH|k' n' f IH|n' f IH|n' f IH|n' f IH|n' f IH]; intros a k t H; cbn [prog_roles] in H; try (eapply IH; exact H).
  - destruct H.
  - destruct a as [|a r]; [destruct H|]. apply in_app_iff in H. destruct H as [H|H]; [exact (O _ _ _ _ _ _ H)|].
    destruct (operand en v k' (tok_v a) (texts r)) as [[x r']|]; [eapply IH; exact H|destruct H].
  - destruct a as [|a r]; [destruct H|]. destruct (read_uint8 (tok_v a)); [|destruct H]. destruct H as [H|H]; [injection H as <- _; exact I|eapply IH; exact H].
  - clear IH. induction a as [|a r IH]; [destruct H|]. cbn [int_roles] in H. destruct (parse_uint (tok_v a) 0 64); [|destruct H].
    apply in_app_iff in H. destruct H as [H|H]; [apply repeat_spec in H; injection H as -> _; exact I|exact (IH H)].
  - exact (B _ _ _ _ H).
  - apply in_map_iff in H. destruct H as [u [H _]]. injection H as <- _. exact I.
Qed.
Lemma pick_none k ms : (forall t, ~ In (k, t) ms) -> pick k ms = [].
Proof.
  intros H. unfold pick. induction ms as [|[a t] ms IH]; [reflexivity|]. cbn [filter fst].
  destruct (role_eqb a k) eqn:E; [|apply IH; intros u I; exact (H u (or_intror I))].
  exfalso. apply (H t). left. destruct a, k; try discriminate E; reflexivity.
Qed.
Lemma line_ops en n v l : pick Opcode (line_roles en n v l) = op_token l /\ pick LabelDef (line_roles en n v l) = map fst (defines l) /\ pick Remark (line_roles en n v l) = [].
Proof.
  unfold line_roles, op_token, defines. destruct l as [|t r]; [repeat split|].
  destruct (kind_of (t :: r)) as [|w|[|x w]|a|p a|]; try (repeat split; reflexivity).
  - assert (P : forall k, match k with Opcode | LabelDef | Remark => True | _ => False end -> pick k (pragma_roles r) = []).
    { intros k K. unfold pragma_roles. destruct r as [|b r]; [reflexivity|]. destruct (seqb _ _); [|reflexivity].
      destruct r as [|d r]; [destruct k; destruct K; reflexivity|]. destruct (parse_uint _ _ _); destruct k; destruct K; reflexivity. }
    rewrite !pick_other by reflexivity. rewrite !P by exact I. repeat split.
  - rewrite (pick_other Opcode _ LabelDef), (pick_other Opcode _ Remark) by reflexivity.
    assert (P : forall k, match k with Opcode | LabelDef | Remark => True | _ => False end -> pick k (prog_roles en n v p r) = []).
    { intros k K. apply pick_none. intros u H. apply roles_ops_in in H. destruct k; try destruct K; exact H. }
    unfold pick at 1. cbn [filter fst role_eqb map snd]. fold (pick Opcode (prog_roles en n v p r)). rewrite !P by exact I. repeat split.
Qed.
Lemma all_ops en n ls : forall v, pick Opcode (all_roles en n v ls) = flat_map op_token ls /\
  pick LabelDef (all_roles en n v ls) = map fst (flat_map defines ls) /\ pick Remark (all_roles en n v ls) = [].
Proof.
  induction ls as [|l ls IH]; intros v; [repeat split|]. cbn [all_roles flat_map]. rewrite !pick_app, map_app.
  destruct (IH (version_after v l)) as [-> [-> ->]]. destruct (line_ops en n v l) as [-> [-> ->]]. repeat split.
Qed.
