(* Hover, signature help, highlights and code lenses. *)
From Verif Require Import Base LexSpec Lexer Expr Linter Fields Strconv Literals Codec OpTable Process ProcessSpec
  ProcessProofs ProcessRun ProcessLine ProcessDoc ProcessThms Semantics Query Lsp QueryProofs RenameSpec EditProofs RenameProofs
  AvmVersions ProcessAvm FieldProofs AnswerSpec.
From Coq Require Import Lia ZifyBool ZifyNat ZifyN Sorted.

(* ------------------------------------------------------------------------------------------ *)
(* tokens at a column *)
Lemma around_out ch t : ((ch <? Z.of_nat (tok_b t))%Z || (Z.of_nat (tok_e t) <? ch)%Z) = negb (around ch t).
Proof. unfold around. lia. Qed.

Lemma imm_at_token l ch : forall j,
  imm_at_from (S j) l ch = match token_at ch l with Some (k, t) => Some (t, j + k) | None => None end.
Proof.
  induction l as [|t l IH]; intros j; [reflexivity|]. cbn [imm_at_from token_at].
  replace ((0 <? S j) && (Z.of_nat (tok_b t) <=? ch)%Z && (ch <=? Z.of_nat (tok_e t))%Z) with (around ch t) by (unfold around; cbn; lia).
  destruct (around ch t); [f_equal; f_equal; lia|]. rewrite IH. destruct (token_at ch l) as [[k u]|]; [|reflexivity].
  f_equal; f_equal; lia.
Qed.
Lemma token_at_nth ch l : forall k t, token_at ch l = Some (k, t) -> nth_error l k = Some t /\ around ch t = true /\
  forall j u, j < k -> nth_error l j = Some u -> around ch u = false.
Proof.
  induction l as [|x l IH]; intros k t H; [discriminate H|]. cbn [token_at] in H. destruct (around ch x) eqn:A.
  - injection H as <- <-. split; [reflexivity|]. split; [exact A|]. intros j u J. lia.
  - destruct (token_at ch l) as [[k' u]|] eqn:T; [|discriminate H]. injection H as <- <-.
    destruct (IH _ _ eq_refl) as [N [B C]]. split; [exact N|]. split; [exact B|]. intros [|j] v J V; [injection V as <-; exact A|].
    apply (C j v); [lia|exact V].
Qed.

Lemma argument_eq args k :
  nth_error args (if (0 <? length args) && (length args <=? k) && match nth_error args (length args - 1) with Some a => oa_array a | None => false end
                  then length args - 1 else k) = argument args k.
Proof.
  unfold argument. destruct (nth_error args k) as [a|] eqn:E.
  - assert (k < length args) by (apply nth_error_Some; congruence).
    replace (length args <=? k) with false by lia. rewrite andb_false_r. exact E.
  - apply nth_error_None in E. replace (length args <=? k) with true by lia. rewrite andb_true_r.
    destruct args as [|x args] using rev_ind; [destruct k; reflexivity|]. clear IHargs.
    rewrite rev_app_distr. cbn [rev app]. rewrite app_length in *. cbn [length] in *.
    replace (length args + 1 - 1) with (length args) by lia.
    assert (L : nth_error (args ++ [x]) (length args) = Some x) by (rewrite nth_error_app2, Nat.sub_diag by lia; reflexivity).
    rewrite L.
    replace (0 <? length args + 1) with true by lia. cbn [andb]. destruct (oa_array x).
    + exact L.
    + apply nth_error_None. rewrite app_length. cbn. lia.
Qed.

(* ------------------------------------------------------------------------------------------ *)
(* hover *)
Definition hover_line (ln : list token) (ch : Z) : res shown :=
  match token_at ch ln with
  | None => Ret NoDoc
  | Some (0, t) => Ret (match ops_get (tok_v t) with Some _ => OpDoc (tok_v t) | None => NoDoc end)
  | Some (S k, t) =>
      match ln with
      | [] => Ret NoDoc
      | op :: _ =>
          match op_args (tok_v op) with
          | Some args => match argument args k with Some a => field_doc (oa_type a) (tok_v t) | None => Ret NoDoc end
          | None => Ret NoDoc
          end
      end
  end.

Lemma doc_tok_spec op rest ch : forall l i, (exists pre, rest = pre ++ l /\ i = S (length pre) /\ token_at ch pre = None) ->
  around ch op = false ->
  doc_tok (op :: rest) i l ch = hover_line (op :: rest) ch.
Proof.
  induction l as [|t l IH]; intros i [pre [E [I N]]] A.
  - cbn [doc_tok]. unfold hover_line. cbn [token_at]. rewrite A. rewrite app_nil_r in E. subst rest. rewrite N. reflexivity.
  - cbn [doc_tok]. rewrite around_out. destruct (around ch t) eqn:B; cbn [negb].
    + subst i. unfold imm_at. cbn [imm_at_from].
      replace ((0 <? 0) && (Z.of_nat (tok_b op) <=? ch)%Z && (ch <=? Z.of_nat (tok_e op))%Z) with false by reflexivity.
      rewrite imm_at_token. unfold hover_line. cbn [token_at]. rewrite A.
      assert (T : token_at ch rest = Some (length pre, t)).
      { subst rest. clear IH. induction pre as [|x pre IHp]; [cbn; rewrite B; reflexivity|]. cbn [app token_at length] in *.
        destruct (around ch x); [discriminate N|]. destruct (token_at ch pre) as [[? ?]|]; [discriminate N|]. rewrite IHp by reflexivity. reflexivity. }
      rewrite T. cbn [plus]. change (index (op :: rest) 0) with (@Ret token op). cbn [bindr].
      destruct (op_args (tok_v op)) as [args|]; [|reflexivity]. cbv zeta. rewrite argument_eq. reflexivity.
    + apply IH; [|exact A]. exists (pre ++ [t]). rewrite <- app_assoc. split; [exact E|]. rewrite app_length. cbn [length].
      split; [lia|]. clear -N B. induction pre as [|x pre IHp]; [cbn; rewrite B; reflexivity|]. cbn [app token_at] in *.
      destruct (around ch x); [discriminate N|]. destruct (token_at ch pre) as [[? ?]|]; [discriminate N|]. rewrite IHp by reflexivity. reflexivity.
Qed.
Lemma doc_line_spec ln ch : doc_tok ln 0 ln ch = hover_line ln ch.
Proof.
  destruct ln as [|op rest]; [reflexivity|]. cbn [doc_tok]. rewrite around_out. destruct (around ch op) eqn:A; cbn [negb].
  - unfold hover_line. cbn [token_at]. rewrite A. reflexivity.
  - apply doc_tok_spec; [|exact A]. exists []. repeat split.
Qed.
Lemma doc_at_spec r p : (0 <= ps_line p)%Z ->
  doc_at r (ps_line p) (ps_char p) = match line_at_pos r p with Some ln => hover_line ln (ps_char p) | None => Ret NoDoc end.
Proof.
  intros H. unfold doc_at, line_at_pos. destruct (past_end r (ps_line p)) eqn:P.
  - destruct (nth_error (r_lines r) (Z.to_nat (ps_line p))) eqn:E; [|reflexivity].
    assert (Z.to_nat (ps_line p) < length (r_lines r)) by (apply nth_error_Some; congruence). unfold past_end in P. lia.
  - destruct (line_of_ok r _ H P) as [ln [-> ->]]. cbn [bindr]. apply doc_line_spec.
Qed.

Lemma imm_dec (a b : imm) : {a = b} + {a <> b}.
Proof. decide equality. Qed.

Lemma field_doc_some k sp s : documented k sp -> field_doc k s =
  match spec_by_name sp s with
  | Some (f, _) => Ret (FieldDoc k f)
  | None =>
      match atoi s with
      | Some v => letr o := spec_by_field sp v in Ret (match o with Some f => FieldDoc k f | None => NoDoc end)
      | None => Ret NoDoc
      end
  end.
Proof. intros [T N]. destruct k; try discriminate T; try congruence; injection T as <-; reflexivity. Qed.
Lemma field_doc_none k s : (forall sp, ~ documented k sp) -> field_doc k s = Ret NoDoc.
Proof.
  intros H. unfold documented in H. destruct k; try reflexivity; exfalso; eapply H; (split; [reflexivity|discriminate]).
Qed.

(* names are never negative numerals, and are distinct *)
Definition tables_ok : Prop := forall k sp, field_table k = Some sp ->
  distinct (map f_name sp) = true /\ forallb (fun x => match atoi (f_name x) with Some v => (0 <=? v)%Z | None => true end) sp = true.
Lemma tables_are_ok : tables_ok.
Proof. intros k sp H. destruct k; try discriminate H; injection H as <-; split; vm_compute; reflexivity. Qed.

Lemma spec_by_name_in sp s : match spec_by_name sp s with
  | Some (f, x) => nth_error sp (N.to_nat f) = Some x /\ f_name x = s
  | None => forall x, In x sp -> f_name x <> s end.
Proof.
  unfold spec_by_name.
  assert (G : forall sp i acc, match spec_by_name_from i sp s acc with
    | Some (f, x) => (acc = Some (f, x) /\ forall x, In x sp -> f_name x <> s) \/ ((i <= f)%N /\ nth_error sp (N.to_nat (f - i)) = Some x /\ f_name x = s)
    | None => acc = None /\ forall x, In x sp -> f_name x <> s end).
  { clear sp. induction sp as [|a sp IH]; intros i acc; cbn [spec_by_name_from].
    - destruct acc as [[f x]|]; [left; split; [reflexivity|intros x' []]|split; [reflexivity|intros x []]].
    - specialize (IH (i + 1)%N (if seqb (f_name a) s then Some (i, a) else acc)).
      destruct (spec_by_name_from (i + 1) sp s _) as [[f x]|].
      + destruct IH as [[IH1 IH2]|[IH1 [IH2 IH3]]].
        * destruct (seqb (f_name a) s) eqn:Q.
          -- injection IH1 as <- <-. right. split; [lia|]. rewrite N.sub_diag. split; [reflexivity|]. apply seqb_eq; exact Q.
          -- left. split; [exact IH1|]. intros y [<-|Y]; [|exact (IH2 y Y)]. intros C. apply seqb_eq in C. congruence.
        * right. split; [lia|]. split; [|exact IH3]. replace (N.to_nat (f - i)) with (S (N.to_nat (f - (i + 1)))) by lia. exact IH2.
      + destruct IH as [IH1 IH2]. destruct (seqb (f_name a) s) eqn:Q; [discriminate IH1|]. split; [exact IH1|].
        intros y [<-|Y]; [|exact (IH2 y Y)]. intros C. apply seqb_eq in C. congruence. }
  specialize (G sp 0%N None). destruct (spec_by_name_from 0 sp s None) as [[f x]|]; [|exact (proj2 G)].
  destruct G as [[G _]|[_ [G1 G2]]]; [discriminate G|]. rewrite N.sub_0_r in G1. auto.
Qed.

(* two entries with one name are one entry *)
Lemma same_entry sp i j x y : NoDup (map f_name sp) -> nth_error sp i = Some x -> nth_error sp j = Some y ->
  f_name x = f_name y -> i = j.
Proof.
  intros D X Y E. apply (map_nth_error f_name) in X, Y. rewrite <- E in Y. rewrite NoDup_nth_error in D.
  apply D; [apply nth_error_Some; congruence|congruence].
Qed.

Lemma field_doc_denotes k sp s f : documented k sp -> (field_doc k s = Ret (FieldDoc k f) <-> denotes sp s f).
Proof.
  intros D. rewrite (field_doc_some k sp s D). destruct (tables_are_ok k sp (proj1 D)) as [U _]. apply distinct_nodup in U.
  pose proof (spec_by_name_in sp s) as S. unfold denotes. destruct (spec_by_name sp s) as [[g x]|].
  - destruct S as [S1 S2]. split.
    + intros H. injection H as <-. left. exists x. auto.
    + intros [[y [Y1 Y2]]|[H _]].
      * assert (N.to_nat g = N.to_nat f) as Q by (apply (same_entry sp _ _ x y U S1 Y1); congruence). f_equal. f_equal. lia.
      * destruct (H x (nth_error_In _ _ S1) S2).
  - destruct (atoi s) as [v|].
    + unfold spec_by_field. destruct (Z.of_nat (length sp) <=? v)%Z eqn:L; cbn [bindr].
      * split; [discriminate|]. intros [[y [Y1 Y2]]|[_ [Q R]]]; [destruct (S y (nth_error_In _ _ Y1) Y2)|]. injection Q as ->. lia.
      * destruct (v <? 0)%Z eqn:N; cbn [bindr].
        -- split; [discriminate|]. intros [[y [Y1 Y2]]|[_ [Q R]]]; [destruct (S y (nth_error_In _ _ Y1) Y2)|]. injection Q as ->. lia.
        -- split.
           ++ intros H. injection H as <-. right. split; [exact S|]. split; [f_equal; lia|lia].
           ++ intros [[y [Y1 Y2]]|[_ [Q R]]]; [destruct (S y (nth_error_In _ _ Y1) Y2)|]. injection Q as ->. f_equal. f_equal. lia.
    + split; [discriminate|]. intros [[y [Y1 Y2]]|[_ [Q _]]]; [destruct (S y (nth_error_In _ _ Y1) Y2)|discriminate Q].
Qed.
Lemma field_doc_kind k s d : field_doc k s = Ret d -> d = NoDoc \/ exists sp f, documented k sp /\ d = FieldDoc k f.
Proof.
  intros H. destruct (field_table k) as [sp|] eqn:T; [|left; destruct k; try discriminate T; injection H as <-; reflexivity].
  destruct (imm_dec k IEcGroup) as [->|N]; [left; injection H as <-; reflexivity|].
  assert (D : documented k sp) by (split; assumption). rewrite (field_doc_some k sp s D) in H.
  destruct (spec_by_name sp s) as [[f x]|]; [right; exists sp, f; split; [exact D|congruence]|].
  destruct (atoi s) as [v|]; [|left; congruence]. destruct (spec_by_field sp v) as [[f|]| |]; cbn [bindr] in H; try discriminate H;
    [right; exists sp, f; split; [exact D|congruence]|left; congruence].
Qed.
Lemma field_doc_panic k s : field_doc k s = Panic <-> (exists sp, documented k sp) /\ exists v, atoi s = Some v /\ (v < 0)%Z.
Proof.
  split.
  - intros H. destruct (field_table k) as [sp|] eqn:T; [|destruct k; try discriminate T; discriminate H].
    destruct (imm_dec k IEcGroup) as [->|N]; [discriminate H|].
    assert (D : documented k sp) by (split; assumption). split; [exists sp; exact D|]. rewrite (field_doc_some k sp s D) in H.
    destruct (spec_by_name sp s) as [[f x]|]; [discriminate H|]. destruct (atoi s) as [v|]; [|discriminate H].
    exists v. split; [reflexivity|]. unfold spec_by_field in H. destruct (_ <=? v)%Z; [discriminate H|]. destruct (v <? 0)%Z eqn:V; [lia|discriminate H].
  - intros [[sp D] [v [A V]]]. rewrite (field_doc_some k sp s D). pose proof (spec_by_name_in sp s) as S.
    destruct (tables_are_ok k sp (proj1 D)) as [_ F]. rewrite forallb_forall in F.
    destruct (spec_by_name sp s) as [[f x]|].
    + destruct S as [S1 S2]. specialize (F x (nth_error_In _ _ S1)). rewrite S2, A in F. lia.
    + rewrite A. unfold spec_by_field. replace (Z.of_nat (length sp) <=? v)%Z with false by lia.
      replace (v <? 0)%Z with true by lia. reflexivity.
Qed.

(* C48: when a hover fails *)
Lemma hover_panics r p : doc_at r (ps_line p) (ps_char p) = Panic <->
  (ps_line p < 0)%Z \/
  ((0 <= ps_line p)%Z /\ exists a t sp v, on_operand r p a t /\ documented (oa_type a) sp /\ atoi (tok_v t) = Some v /\ (v < 0)%Z).
Proof.
  destruct (Z.lt_ge_cases (ps_line p) 0) as [N|N].
  - split; [auto|]. intros _. unfold doc_at, past_end, line_of.
    replace (Z.of_nat (length (r_lines r)) <=? ps_line p)%Z with false by lia. replace (ps_line p <? 0)%Z with true by lia. reflexivity.
  - rewrite doc_at_spec by exact N. split.
    + intros H. right. split; [exact N|]. destruct (line_at_pos r p) as [ln|] eqn:L; [|discriminate H].
      unfold hover_line in H. destruct (token_at (ps_char p) ln) as [[[|k] t]|] eqn:T; try discriminate H.
      destruct ln as [|op rest]; [discriminate H|]. destruct (op_args (tok_v op)) as [args|] eqn:A; [|discriminate H].
      destruct (argument args k) as [a|] eqn:G; [|discriminate H]. apply field_doc_panic in H. destruct H as [[sp D] [v V]].
      exists a, t, sp, v. split; [exists op, rest, args, k; auto|]. split; [exact D|exact V].
    + intros [H|[_ [a [t [sp [v [[op [rest [args [k [L [T [A G]]]]]]] [D V]]]]]]]]; [lia|].
      rewrite L. unfold hover_line. rewrite T, A, G. apply field_doc_panic. split; [exists sp; exact D|exists v; exact V].
Qed.
Lemma hover_ends r p : doc_at r (ps_line p) (ps_char p) = Panic \/ exists d, doc_at r (ps_line p) (ps_char p) = Ret d.
Proof.
  assert (F : forall k s, field_doc k s = Panic \/ exists d, field_doc k s = Ret d).
  { intros k s. destruct (field_table k) as [sp|] eqn:T; [|right; destruct k; try discriminate T; eexists; reflexivity].
    destruct (imm_dec k IEcGroup) as [->|N]; [right; eexists; reflexivity|]. rewrite (field_doc_some k sp s) by (split; assumption).
    destruct (spec_by_name sp s) as [[? ?]|]; [right; eexists; reflexivity|]. destruct (atoi s); [|right; eexists; reflexivity].
    unfold spec_by_field. destruct (_ <=? _)%Z; [right; eexists; reflexivity|]. destruct (_ <? _)%Z; [left|right; eexists]; reflexivity. }
  destruct (Z.lt_ge_cases (ps_line p) 0) as [N|N]; [left; apply hover_panics; left; exact N|].
  rewrite doc_at_spec by exact N. destruct (line_at_pos r p) as [ln|]; [|right; eexists; reflexivity]. unfold hover_line.
  destruct (token_at (ps_char p) ln) as [[[|k] t]|]; try (right; eexists; reflexivity).
  destruct ln as [|op rest]; [right; eexists; reflexivity|]. destruct (op_args (tok_v op)) as [args|]; [|right; eexists; reflexivity].
  destruct (argument args k) as [a|]; [apply F|right; eexists; reflexivity].
Qed.
Lemma completions_panics r p : completions r p = Panic <-> (ps_line p < 0)%Z.
Proof.
  destruct (Z.lt_ge_cases (ps_line p) 0) as [N|N].
  - split; [auto|]. intros _. unfold completions, line_of. replace (ps_line p <? Z.of_nat (length (r_lines r)))%Z with true by lia.
    replace (ps_line p <? 0)%Z with true by lia. reflexivity.
  - destruct (completions_ok r p N) as [c ->]. split; [discriminate|lia].
Qed.
Lemma signature_returns en src r p : process en src = Ret r -> exists c, signature_help r p = Ret c.
Proof.
  intros E. destruct (Z.lt_ge_cases (ps_line p) 0) as [N|N]; [|exact (signature_ok _ _ _ p E N)].
  unfold signature_help. destruct (find _ (r_ops r)) as [t|] eqn:F; [|eexists; reflexivity]. apply find_some in F. lia.
Qed.

Theorem position_panics en cf uri src r q p : process (l_env en) src = Ret r -> at_position q p ->
  (answer_query en cf uri src r q = Panic <->
   ((q = QHover p \/ q = QCompletion p) /\ (ps_line p < 0)%Z) \/
   (q = QHover p /\ (0 <= ps_line p)%Z /\
    exists a t sp v, on_operand r p a t /\ documented (oa_type a) sp /\ atoi (tok_v t) = Some v /\ (v < 0)%Z)) /\
  (answer_query en cf uri src r q = Panic \/ exists a, answer_query en cf uri src r q = Ret a).
Proof.
  intros E A. destruct q as [| | | | |p'|p'| | |p'| |p'|]; try destruct A; cbn [answer_query].
  - split.
    + split; [|intros [[_ H]|[H _]]; [|discriminate H]].
      * intros H. left. split; [right; reflexivity|]. apply (completions_panics r). destruct (completions r p'); [discriminate H|reflexivity|discriminate H].
      * apply (completions_panics r) in H. rewrite H. reflexivity.
    + destruct (Z.lt_ge_cases (ps_line p') 0) as [N|N]; [left; apply (completions_panics r) in N; rewrite N; reflexivity|].
      right. destruct (completions_ok r p' N) as [c ->]. eexists; reflexivity.
  - split.
    + split.
      * intros H. assert (P : doc_at r (ps_line p') (ps_char p') = Panic).
        { destruct (doc_at r (ps_line p') (ps_char p')); [discriminate H|reflexivity|discriminate H]. }
        apply hover_panics in P. destruct P as [P|P]; [left; auto|right; auto].
      * intros H. assert (P : doc_at r (ps_line p') (ps_char p') = Panic); [|rewrite P; reflexivity].
        apply hover_panics. destruct H as [[_ H]|[_ H]]; auto.
    + destruct (hover_ends r p') as [->|[d ->]]; [left; reflexivity|right; eexists; reflexivity].
  - destruct (signature_returns _ _ _ p' E) as [c ->]. cbn [bindr]. split; [|right; eexists; reflexivity].
    split; [discriminate|]. intros [[[H|H] _]|[H _]]; discriminate H.
  - split; [|right; eexists; reflexivity]. split; [discriminate|]. intros [[[H|H] _]|[H _]]; discriminate H.
Qed.

(* C69 *)
Lemma ops_are_opcodes n p : ops_get n = Some p -> label_name n = None /\ n <> bs "#pragma".
Proof.
  unfold ops_get. destruct (find (fun x => seqb (bs (fst x)) n) (rev ops_list)) as [[m q]|] eqn:E; [|discriminate].
  intros _. apply find_some in E. destruct E as [I E]. cbn [fst] in E. apply seqb_eq in E. subst n. apply in_rev in I.
  assert (A : forallb (fun x => match label_name (bs (fst x)) with None => negb (seqb (bs (fst x)) (bs "#pragma")) | _ => false end) ops_list = true) by (vm_compute; reflexivity).
  rewrite forallb_forall in A. specialize (A _ I). cbn [fst] in A. destruct (label_name (bs m)); [discriminate A|].
  split; [reflexivity|]. intros C. rewrite C in A. discriminate A.
Qed.
Lemma op_token_first t rest : tok_t t <> TokComment -> op_token (t :: rest) = match ops_get (tok_v t) with Some _ => [t] | None => [] end.
Proof.
  intros C. unfold op_token, kind_of. destruct (tok_t t) eqn:T; try congruence;
  (destruct (ops_get (tok_v t)) as [p|] eqn:O;
   [destruct (ops_are_opcodes _ _ O) as [-> P]; destruct (seqb_spec (tok_v t) (bs "#pragma")); [congruence|reflexivity]
   |destruct (label_name (tok_v t)); [reflexivity|destruct (seqb (tok_v t) (bs "#pragma")); reflexivity]]).
Qed.
Lemma op_token_in l t : In t (op_token l) -> exists rest p, l = t :: rest /\ ops_get (tok_v t) = Some p /\ tok_t t <> TokComment.
Proof.
  unfold op_token, kind_of. destruct l as [|u rest]; [intros []|].
  destruct (tok_t u) eqn:T; try (intros []);
  (destruct (label_name (tok_v u)); [intros []|]; destruct (seqb (tok_v u) (bs "#pragma")); [intros []|];
   destruct (ops_get (tok_v u)) as [p|] eqn:O; [|intros []]; intros [<-|[]]; exists rest, p; split; [reflexivity|split; [exact O|congruence]]).
Qed.
Lemma ops_on_lines en src r t : process en src = Ret r -> (In t (r_ops r) <->
  exists rest p, nth_error (r_lines r) (tok_l t) = Some (t :: rest) /\ ops_get (tok_v t) = Some p /\ tok_t t <> TokComment).
Proof.
  intros E. destruct (process_result en src r E) as [ts [errs [raw [lds [_ [_ [A R]]]]]]]. rewrite (ro_ops _ _ _ _ _ _ _ R).
  rewrite <- (ro_lines _ _ _ _ _ _ _ R) in A. rewrite in_flat_map. split.
  - intros [l [Il It]]. destruct (op_token_in _ _ It) as [rest [p [-> [O C]]]]. exists rest, p. split; [|auto].
    apply In_nth_error in Il. destruct Il as [k K]. pose proof (lines_at_nth _ _ _ _ A K) as [Q _]. rewrite Forall_forall in Q.
    specialize (Q t (or_introl eq_refl)). cbn in Q. rewrite Q. exact K.
  - intros [rest [p [N [O C]]]]. exists (t :: rest). split; [exact (nth_error_In _ _ N)|]. rewrite op_token_first, O by exact C. left. reflexivity.
Qed.

Theorem hover_opcode en src r p n : process en src = Ret r -> (0 <= ps_line p)%Z ->
  (forall t rest, line_at_pos r p = Some (t :: rest) -> tok_t t <> TokComment) ->
  (doc_at r (ps_line p) (ps_char p) = Ret (OpDoc n) <-> exists t, In t (r_ops r) /\ under p t /\ tok_v t = n).
Proof.
  intros E N C. rewrite doc_at_spec by exact N. split.
  - intros H. destruct (line_at_pos r p) as [ln|] eqn:L; [|discriminate H]. unfold hover_line in H.
    destruct (token_at (ps_char p) ln) as [[[|k] t]|] eqn:T; [| |discriminate H].
    + destruct (ops_get (tok_v t)) as [q|] eqn:O; [|discriminate H]. injection H as <-.
      destruct (token_at_nth _ _ _ _ T) as [T1 [T2 _]]. destruct ln as [|u rest]; [discriminate T1|]. injection T1 as ->.
      unfold line_at_pos in L. destruct (lines_of_result _ _ _ E) as [A _ _ _]. pose proof (lines_at_nth _ _ _ _ A L) as [Q _].
      rewrite Forall_forall in Q. specialize (Q t (or_introl eq_refl)). cbn in Q.
      exists t. split; [apply (ops_on_lines _ _ _ _ E); exists rest, q; rewrite Q; split; [exact L|split; [exact O|exact (C t rest eq_refl)]]|].
      split; [|reflexivity]. unfold under. unfold around in T2. lia.
    + destruct ln as [|op rest]; [discriminate H|]. destruct (op_args (tok_v op)) as [args|]; [|discriminate H].
      destruct (argument args k) as [a|]; [|discriminate H]. apply field_doc_kind in H. destruct H as [H|[sp [f [_ H]]]]; discriminate H.
  - intros [t [It [[U1 U2] <-]]]. apply (ops_on_lines _ _ _ _ E) in It. destruct It as [rest [q [L [O _]]]].
    assert (line_at_pos r p = Some (t :: rest)) as ->. { unfold line_at_pos. rewrite U1, Nat2Z.id. exact L. }
    unfold hover_line. cbn [token_at]. replace (around (ps_char p) t) with true by (unfold around; lia). rewrite O. reflexivity.
Qed.
Theorem hover_field r p k f : (0 <= ps_line p)%Z ->
  (doc_at r (ps_line p) (ps_char p) = Ret (FieldDoc k f) <->
   exists a t sp, on_operand r p a t /\ oa_type a = k /\ documented k sp /\ denotes sp (tok_v t) f).
Proof.
  intros N. rewrite doc_at_spec by exact N. split.
  - intros H. destruct (line_at_pos r p) as [ln|] eqn:L; [|discriminate H]. unfold hover_line in H.
    destruct (token_at (ps_char p) ln) as [[[|i] t]|] eqn:T; [destruct (ops_get (tok_v t)); discriminate H| |discriminate H].
    destruct ln as [|op rest]; [discriminate H|]. destruct (op_args (tok_v op)) as [args|] eqn:A; [|discriminate H].
    destruct (argument args i) as [a|] eqn:G; [|discriminate H]. destruct (field_doc_kind _ _ _ H) as [Q|[sp [g [D Q]]]]; [discriminate Q|].
    injection Q as -> ->. exists a, t, sp. split; [exists op, rest, args, i; auto|]. split; [reflexivity|]. split; [exact D|].
    apply (field_doc_denotes _ _ _ _ D). exact H.
  - intros [a [t [sp [[op [rest [args [i [L [T [A G]]]]]]] [<- [D Q]]]]]]. rewrite L. unfold hover_line. rewrite T, A, G.
    apply (field_doc_denotes _ _ _ _ D). exact Q.
Qed.

(* ------------------------------------------------------------------------------------------ *)
(* signature help *)
Lemma parameter_eq args k :
  (if (0 <? Z.of_nat (length args))%Z && (Z.of_nat (length args) <=? Z.of_nat k)%Z && match nth_error args (length args - 1) with Some a => oa_array a | None => false end
   then (Z.of_nat (length args) - 1)%Z else Z.of_nat k) = Z.of_nat (parameter args k).
Proof.
  unfold parameter. destruct args as [|x args] using rev_ind; [cbn [length rev nth_error]; rewrite !andb_false_r; reflexivity|]. clear IHargs.
  rewrite rev_app_distr, app_length. cbn [rev app length]. replace (length args + 1 - 1) with (length args) by lia.
  rewrite nth_error_app2, Nat.sub_diag by lia. cbn [nth_error].
  replace (0 <? Z.of_nat (length args + 1))%Z with true by lia. cbn [andb].
  replace (Z.of_nat (length args + 1) <=? Z.of_nat k)%Z with (length args + 1 <=? k) by lia.
  destruct ((length args + 1 <=? k) && oa_array x); lia.
Qed.
Lemma parameter_argument args k : nth_error args (parameter args k) = argument args k.
Proof.
  unfold parameter, argument. destruct args as [|x args] using rev_ind; [cbn [length rev]; rewrite andb_false_r; destruct k; reflexivity|]. clear IHargs.
  rewrite rev_app_distr, app_length. cbn [rev app length]. replace (length args + 1 - 1) with (length args) by lia.
  assert (L : nth_error (args ++ [x]) (length args) = Some x) by (rewrite nth_error_app2, Nat.sub_diag by lia; reflexivity).
  destruct (nth_error (args ++ [x]) k) as [a|] eqn:E.
  - assert (k < length (args ++ [x])) as B by (apply nth_error_Some; congruence). rewrite app_length in B. cbn [length] in B.
    replace (length args + 1 <=? k) with false by lia. cbn [andb]. exact E.
  - apply nth_error_None in E. rewrite app_length in E. cbn [length] in E. replace (length args + 1 <=? k) with true by lia. cbn [andb].
    destruct (oa_array x); [exact L|]. apply nth_error_None. rewrite app_length. cbn [length]. lia.
Qed.

(* the operand the code picks: the one under the column, otherwise the one after the last *)
Definition picked (ch : Z) (rest : list token) : nat :=
  match token_at ch rest with Some (k, _) => k | None => length rest end.

Lemma arg_at_spec r p op rest : (0 <= ps_line p)%Z -> line_at_pos r p = Some (op :: rest) ->
  arg_at r (ps_line p) (ps_char p) =
  Ret match op_args (tok_v op) with
      | None => (None, (-1)%Z)
      | Some args => (argument args (picked (ps_char p) rest), Z.of_nat (parameter args (picked (ps_char p) rest)))
      end.
Proof.
  intros N L. unfold arg_at. unfold line_at_pos in L.
  assert (past_end r (ps_line p) = false) as P.
  { unfold past_end. assert (Z.to_nat (ps_line p) < length (r_lines r)) by (apply nth_error_Some; congruence). lia. }
  rewrite P. destruct (line_of_ok r _ N P) as [ln [-> E]]. rewrite L in E. injection E as <-. cbn [bindr].
  assert (K : match imm_at (op :: rest) (ps_char p) with Some (_, idx) => Z.of_nat idx | None => (Z.of_nat (length (op :: rest)) - 1)%Z end =
              Z.of_nat (picked (ps_char p) rest)).
  { unfold imm_at. cbn [imm_at_from]. replace ((0 <? 0) && _ && _) with false by reflexivity. rewrite imm_at_token. unfold picked.
    destruct (token_at (ps_char p) rest) as [[k t]|]; [reflexivity|]. cbn [length]. lia. }
  rewrite K. change (index (op :: rest) 0) with (@Ret token op). cbn [bindr].
  destruct (op_args (tok_v op)) as [args|]; [|reflexivity]. cbv zeta. rewrite parameter_eq. rewrite <- parameter_argument.
  set (q := parameter args (picked (ps_char p) rest)).
  destruct (Z.of_nat (length args) <=? Z.of_nat q)%Z eqn:Q.
  - assert (nth_error args q = None) as -> by (apply nth_error_None; lia). reflexivity.
  - rewrite Nat2Z.id. unfold index. destruct (nth_error args q) as [a|] eqn:A; [reflexivity|]. apply nth_error_None in A. lia.
Qed.

(* the operand picked is the right one unless the cursor is in front of an operand *)
Lemma none_before ch l : forall c, sorted_from c l -> (ch <= Z.of_nat c)%Z -> filter (fun t => (Z.of_nat (tok_e t) <? ch)%Z) l = [].
Proof.
  induction l as [|t l IH]; intros c S H; [reflexivity|]. cbn [sorted_from filter] in *. destruct S as [S1 S2].
  replace (Z.of_nat (tok_e t) <? ch)%Z with false by lia. apply (IH (tok_e t) S2). lia.
Qed.
Lemma sorted_ge l : forall c t, sorted_from c l -> In t l -> c <= tok_b t.
Proof.
  induction l as [|x l IH]; intros c t S I; [destruct I|]. cbn [sorted_from] in S. destruct S as [S1 S2]. destruct I as [<-|I]; [lia|].
  specialize (IH _ _ S2 I). lia.
Qed.
Lemma picked_before ch l : forall c, sorted_from c l -> at_operand ch l -> picked ch l = operands_before ch l.
Proof.
  unfold operands_before. induction l as [|t l IH]; intros c S A; [reflexivity|]. cbn [sorted_from] in S. destruct S as [S1 S2].
  unfold picked. cbn [token_at filter]. destruct (around ch t) eqn:R.
  - unfold around in R. replace (Z.of_nat (tok_e t) <? ch)%Z with false by lia. rewrite (none_before ch l (tok_e t) S2) by lia. reflexivity.
  - assert (A' : at_operand ch l /\ (Z.of_nat (tok_e t) < ch)%Z).
    { destruct A as [[u [[<-|I] U]]|A]; [congruence| |].
      - split; [left; exists u; auto|]. pose proof (sorted_ge _ _ _ S2 I). unfold around in *. lia.
      - split; [right; intros u I; apply A; right; exact I|apply A; left; reflexivity]. }
    destruct A' as [A' B]. replace (Z.of_nat (tok_e t) <? ch)%Z with true by lia. cbn [length]. rewrite <- (IH _ S2 A').
    unfold picked. destruct (token_at ch l) as [[k u]|]; reflexivity.
Qed.

Lemma opcode_line en src r p op rest q : process en src = Ret r -> (0 <= ps_line p)%Z -> line_at_pos r p = Some (op :: rest) ->
  tok_t op <> TokComment -> ops_get (tok_v op) = Some q ->
  In op (r_ops r) /\ find (fun t => (Z.of_nat (tok_l t) =? ps_line p)%Z) (r_ops r) = Some op.
Proof.
  intros E N L C O. unfold line_at_pos in L. destruct (lines_of_result _ _ _ E) as [A _ _ _]. pose proof (lines_at_nth _ _ _ _ A L) as [Q _].
  rewrite Forall_forall in Q. specialize (Q op (or_introl eq_refl)). cbn in Q.
  assert (I : In op (r_ops r)) by (apply (ops_on_lines _ _ _ _ E); exists rest, q; rewrite Q; auto). split; [exact I|].
  destruct (find _ (r_ops r)) as [t|] eqn:F.
  - apply find_some in F. destruct F as [It Lt]. apply (ops_on_lines _ _ _ _ E) in It. destruct It as [rest' [q' [L' _]]].
    replace (tok_l t) with (Z.to_nat (ps_line p)) in L' by lia. rewrite L in L'. injection L' as -> _. reflexivity.
  - pose proof (find_none _ _ F op I) as X. cbn in X. lia.
Qed.

Theorem signature_exact en src r p op rest q : process en src = Ret r -> (0 <= ps_line p)%Z -> line_at_pos r p = Some (op :: rest) ->
  tok_t op <> TokComment -> ops_get (tok_v op) = Some q -> at_operand (ps_char p) rest ->
  signature_help r p = Ret (Some (tok_v op, Z.of_nat (parameter (dc_args (doc_of q)) (operands_before (ps_char p) rest)))).
Proof.
  intros E N L C O A. unfold signature_help. destruct (opcode_line _ _ _ _ _ _ _ E N L C O) as [_ ->]. rewrite O.
  rewrite (arg_at_spec r p op rest N L). cbn [bindr]. unfold op_args. rewrite O. cbn [snd].
  destruct (lines_of_result _ _ _ E) as [At _ _ _]. unfold line_at_pos in L. pose proof (lines_at_nth _ _ _ _ At L) as [_ S]. cbn [sorted_from] in S.
  rewrite (picked_before _ _ _ (proj2 S) A). reflexivity.
Qed.
Theorem signature_nowhere en src r p : process en src = Ret r ->
  (forall t, In t (r_ops r) -> ps_line p <> Z.of_nat (tok_l t)) -> signature_help r p = Ret None.
Proof.
  intros E H. unfold signature_help. destruct (find _ (r_ops r)) as [t|] eqn:F; [|reflexivity]. apply find_some in F.
  destruct F as [I L]. specialize (H t I). lia.
Qed.

(* ------------------------------------------------------------------------------------------ *)
(* highlights *)
Lemma ref_nonempty en src r t : process en src = Ret r -> In t (r_refs r) -> tok_v t <> [].
Proof.
  intros E I. destruct (ref_spec _ _ _ _ E I) as [l [q [a [Il [It K]]]]].
  assert (Tl : In t (tl l)).
  { destruct (symbols_complete _ _ _ E) as [_ [S _]]. rewrite S in I. apply in_flat_map in I. destruct I as [l' [Il' It']].
    pose proof (names_labels_incl _ _ It') as J. 
    assert (l' = l) as -> by (exact (same_line _ _ _ E t l' t l J Il' It Il eq_refl)). apply names_labels_tail. exact It'. }
  destruct (lines_of_result _ _ _ E) as [_ _ C D]. rewrite Forall_forall in C, D. specialize (C l Il). specialize (D l Il).
  rewrite Forall_forall in D. specialize (D t Tl).
  assert (T : tok_t t = TokValue).
  { destruct (tok_t t) eqn:T; try congruence. exfalso. assert (existsb is_eol l = true); [|congruence].
    apply existsb_exists. exists t. split; [exact It|]. unfold is_eol. rewrite T. reflexivity. }
  assert (F : tok_fact t) by (exact (fact_of _ _ _ E t (in_line r t l It Il))).
  destruct F as [_ F]. destruct (F T) as [F1 F2]. intros Z. rewrite Z in *. cbn [starts_quote] in F1. destruct (F1 eq_refl) as [_ W]. discriminate W.
Qed.
Lemma sym_nonempty en src r s : process en src = Ret r -> In s (r_syms r) -> sy_name s <> [].
Proof.
  intros E I. destruct (symbols_complete _ _ _ E) as [S _]. apply (in_map (fun s => (sy_name s, sy_l s, sy_b s, sy_e s))) in I. rewrite S in I.
  apply in_map_iff in I. destruct I as [d [Q I]]. apply in_flat_map in I. destruct I as [l [Il I]].
  unfold defines in I. destruct l as [|t w]; [destruct I|]. destruct (kind_of (t :: w)) as [| |[|c m]| | |] eqn:K; try destruct I as [].
  - subst d. injection Q as Q1 _ _ _. cbn in Q1. rewrite <- Q1. discriminate.
  - destruct H.
Qed.

Theorem highlights_exact en src r p : process en src = Ret r ->
  (exists n, named r p n /\ highlights r p = occurrences r n) \/
  ((forall n, ~ named r p n) /\ highlights r p = []).
Proof.
  intros E. unfold highlights, sym_or_ref_at. destruct (symbols_within r (pos_range p)) as [|s ss] eqn:S.
  - destruct (refs_within r (pos_range p)) as [|t ts] eqn:T.
    + right. split.
      * intros n [[s [I [_ P]]]|[t [I [_ P]]]].
        -- assert (In s []) as []. rewrite <- S. apply sym_within. auto.
        -- assert (In t []) as []. rewrite <- T. apply within_under. unfold under. auto.
      * unfold sym_by_name, ref_by_name. rewrite !filter_none; [reflexivity| |].
        -- intros t I. destruct (seqb_spec (tok_v t) []) as [Z|]; [destruct (ref_nonempty _ _ _ _ E I Z)|reflexivity].
        -- intros s I. destruct (seqb_spec (sy_name s) []) as [Z|]; [destruct (sym_nonempty _ _ _ _ E I Z)|reflexivity].
    + left. exists (tok_v t). split; [|reflexivity]. right. exists t.
      assert (I : In t (refs_within r (pos_range p))) by (rewrite T; left; reflexivity). apply within_under in I. unfold under in I. tauto.
  - left. exists (sy_name s). split; [|reflexivity]. left. exists s.
    assert (I : In s (symbols_within r (pos_range p))) by (rewrite S; left; reflexivity). apply sym_within in I. tauto.
Qed.
Theorem highlights_named en src r p n : process en src = Ret r -> Forall (fun t => starts_quote (tok_v t) = false) (r_refs r) -> named r p n ->
  highlights r p = occurrences r n.
Proof.
  intros E Q N. unfold highlights, sym_or_ref_at. pose proof (one_symbol en src r p E) as O1. pose proof (one_under r p (refs_apart _ _ _ E Q)) as O2.
  pose proof (not_both _ _ _ p E) as B. destruct N as [[s [Is [Ns Ps]]]|[t [It [Nt Pt]]]].
  - assert (I : In s (symbols_within r (pos_range p))) by (apply sym_within; auto).
    destruct (symbols_within r (pos_range p)) as [|x [|y l]]; [destruct I| |cbn in O1; lia]. destruct I as [->|[]]. rewrite Ns. reflexivity.
  - assert (I : In t (refs_within r (pos_range p))) by (apply within_under; unfold under; auto).
    destruct (refs_within r (pos_range p)) as [|x [|y l]]; [destruct I| |cbn in O2; lia]. destruct I as [->|[]]. destruct B as [B|B]; [|discriminate B].
    rewrite B, Nt. reflexivity.
Qed.

(* ------------------------------------------------------------------------------------------ *)
(* code lenses *)
Lemma line_uses en v l : flat_map uses (entries en v l) = texts (names_labels l).
Proof.
  unfold entries, names_labels. destruct l as [|t r]; [reflexivity|]. destruct (kind_of (t :: r)) as [|w|n|args|p args|] eqn:K; try reflexivity.
  - destruct n; reflexivity.
  - destruct (pragma_version args); reflexivity.
  - assert (G : ops_get (tok_v t) = Some p /\ args = texts r).
    { unfold kind_of in K. destruct (tok_t t); try discriminate K; destruct (label_name (tok_v t)); try discriminate K;
      (destruct (seqb (tok_v t) (bs "#pragma")); [discriminate K|]); destruct (ops_get (tok_v t)); try discriminate K; injection K as -> ->; auto. }
    destruct G as [G ->]. pose proof (ops_kind _ _ G) as Kd.
    destruct (one_of branch_names (tok_v t)) eqn:B.
    + destruct (one_of_cases _ _ B) as [s [I Es]]. rewrite Es in G. cbn [branch_names In] in I.
      destruct I as [<-|[<-|[<-|[<-|[]]]]]; vm_compute in G; injection G as <-; destruct r as [|a [|b r]]; reflexivity.
    + destruct (one_of table_names (tok_v t)) eqn:T.
      * destruct (one_of_cases _ _ T) as [s [I Es]]. rewrite Es in G. cbn [table_names In] in I.
        destruct I as [<-|[<-|[]]]; vm_compute in G; injection G as <-; cbn; rewrite app_nil_r; reflexivity.
      * destruct (assemble en v p (texts r)) as [[e [|x w]]|] eqn:As; [| |reflexivity];
        destruct (assemble_plain _ _ _ Kd _ _ _ As) as [U _]; cbn [flat_map]; rewrite U; reflexivity.
Qed.
Lemma all_uses en ls : forall v, flat_map uses (all_entries en v ls) = texts (flat_map names_labels ls).
Proof.
  induction ls as [|l ls IH]; intros v; [reflexivity|]. cbn [all_entries flat_map]. rewrite flat_map_app, line_uses, IH.
  unfold texts. rewrite map_app. reflexivity.
Qed.
Theorem counts_are_refs en src r : process en src = Ret r -> r_refc r = map tok_v (r_refs r).
Proof.
  intros E. destruct (process_result en src r E) as [ts [errs [raw [lds [_ [_ [_ R]]]]]]].
  rewrite (ro_refc _ _ _ _ _ _ _ R), (ro_listing _ _ _ _ _ _ _ R), (ro_refs _ _ _ _ _ _ _ R), all_uses. reflexivity.
Qed.
Lemma count_map n (l : list token) : length (filter (seqb n) (map tok_v l)) = length (filter (fun t => seqb (tok_v t) n) l).
Proof.
  induction l as [|t l IH]; [reflexivity|]. cbn [map filter].
  replace (seqb n (tok_v t)) with (seqb (tok_v t) n) by (destruct (seqb_spec (tok_v t) n), (seqb_spec n (tok_v t)); congruence).
  destruct (seqb (tok_v t) n); cbn [length]; rewrite IH; reflexivity.
Qed.
Theorem code_lens_exact en src r : process en src = Ret r ->
  code_lens r = filter (fun x => 0 <? snd x)
    (map (fun s => (sy_l s, length (filter (fun t => seqb (tok_v t) (sy_name s)) (r_refs r)))) (r_syms r)).
Proof.
  intros E. unfold code_lens. rewrite (counts_are_refs _ _ _ E). f_equal. apply map_ext. intros s. rewrite count_map. reflexivity.
Qed.

(* ------------------------------------------------------------------------------------------ *)
(* completion *)
Lemma completes_vals en src r p a : process en src = Ret r -> (0 <= ps_line p)%Z -> completes r p a ->
  completions r p = Ret (CompleteArgs (arg_vals r a)).
Proof.
  intros E N [op [rest [args [L [C [A [P G]]]]]]]. unfold completions.
  assert (X : Z.to_nat (ps_line p) < length (r_lines r)) by (apply nth_error_Some; unfold line_at_pos in L; congruence).
  replace (ps_line p <? Z.of_nat (length (r_lines r)))%Z with true by lia.
  assert (past_end r (ps_line p) = false) as Q by (unfold past_end; lia).
  destruct (line_of_ok r _ N Q) as [ln [-> F]]. unfold line_at_pos in L. rewrite L in F. injection F as <-. cbn [bindr].
  replace (ps_char p <=? Z.of_nat (tok_e op))%Z with false by lia. unfold arg_vals_at.
  rewrite (arg_at_spec r p op rest N L), A. cbn [bindr fst].
  destruct (lines_of_result _ _ _ E) as [At _ _ _]. pose proof (lines_at_nth _ _ _ _ At L) as [_ S]. cbn [sorted_from] in S.
  rewrite (picked_before _ _ _ (proj2 S) P), G. reflexivity.
Qed.

Lemma vals_from_in k sp : forall i x, In x (vals_from k i sp) <->
  exists j s, nth_error sp j = Some s /\ offered k s = true /\ x = ArgVal (f_name s) (Some (i + N.of_nat j)%N) (offered_from k s).
Proof.
  induction sp as [|s sp IH]; intros i x; cbn [vals_from].
  - split; [intros []|]. intros [[|j] [y [H _]]]; discriminate H.
  - rewrite in_app_iff, IH. split.
    + intros [H|[j [y [H1 [H2 ->]]]]].
      * destruct (offered k s) eqn:O; [|destruct H]. destruct H as [<-|[]]. exists 0, s. rewrite N.add_0_r. auto.
      * exists (S j), y. split; [exact H1|]. split; [exact H2|]. f_equal. f_equal. lia.
    + intros [[|j] [y [H1 [H2 ->]]]].
      * injection H1 as ->. left. rewrite H2. left. f_equal. f_equal. lia.
      * right. exists j, y. split; [exact H1|]. split; [exact H2|]. f_equal. f_equal. lia.
Qed.

(* what the parser makes of the name of an entry *)
Lemma field_value en v k sp j s : field_table k = Some sp -> nth_error sp j = Some s ->
  value_read en v k (f_name s) =
  if offered k s && ((offered_from k s <=? v)%N || match k with ITxnaField => true | _ => false end) then Some (N.of_nat j) else None.
Proof.
  intros T J. pose proof (proj1 (tables_are_ok _ _ T)) as D.
  assert (B : spec_by_name sp (f_name s) = Some (N.of_nat j, s)).
  { pose proof (spec_by_name_in sp (f_name s)) as Q. destruct (spec_by_name sp (f_name s)) as [[f y]|].
    - destruct Q as [Q1 Q2]. pose proof (same_entry _ _ _ _ _ (distinct_nodup _ D) Q1 J Q2) as Z. rewrite <- Z in J. rewrite Q1 in J. injection J as ->.
      rewrite <- Z, N2Nat.id. reflexivity.
    - exfalso. exact (Q s (nth_error_In _ _ J) eq_refl). }
  unfold value_read.
  destruct k; try discriminate T; injection T as <-; cbn [operand_value number_of offered offered_from andb orb fst_of obind];
  unfold read_txn_field, read_field; rewrite B; cbn [obind fst_of fst].
  all: try (rewrite orb_false_r, N.leb_antisym; destruct (v <? f_version s)%N; reflexivity).
  - destruct (f_itx s =? 0)%N; [reflexivity|]. cbn [negb andb]. rewrite orb_false_r, N.leb_antisym. destruct (v <? f_itx s)%N; reflexivity.
  - rewrite orb_true_r, andb_true_r. destruct (f_array s); reflexivity.
Qed.

Theorem completion_sound en src r p a x : process en src = Ret r -> (0 <= ps_line p)%Z -> completes r p a ->
  version_at (Z.to_nat (ps_line p)) (r_lines r) = r_version r ->
  In x (arg_vals r a) ->
  (oa_type a = ILabel /\ exists s, In s (r_syms r) /\ sy_name s = av_name x) \/
  (exists n, av_value x = Some n /\ value_read en (version_at (Z.to_nat (ps_line p)) (r_lines r)) (oa_type a) (av_name x) = Some n).
Proof.
  intros E N C V I. rewrite V. clear V. unfold arg_vals in I.
  destruct (imm_dec (oa_type a) ILabel) as [L|L].
  - rewrite L in I. left. split; [exact L|]. apply in_map_iff in I. destruct I as [s [<- I]]. exists s. auto.
  - right. destruct (imm_dec (oa_type a) IConstInt) as [K|K].
    + rewrite K in *. apply in_map_iff in I. destruct I as [y [<- I]]. exists (snd y). split; [reflexivity|]. cbn [av_name].
      unfold value_read. cbn [operand_value number_of].
      assert (B : forallb (fun y => match read_const_int (bs (fst y)) with Some n => (n =? snd y)%N | None => false end)
        (filter (fun x => negb (snd x =? 0)%N) txn_type_map ++ on_completion_map) = true) by (vm_compute; reflexivity).
      rewrite forallb_forall in B. specialize (B _ I). destruct (read_const_int (bs (fst y))) as [n|]; [|discriminate B].
      apply N.eqb_eq in B. rewrite B. reflexivity.
    + destruct (field_table (oa_type a)) as [sp|] eqn:T.
      * assert (J : In x (filter (fun v => (av_version v <=? r_version r)%N) (vals_from (oa_type a) 0 sp))).
        { destruct (oa_type a); try congruence; rewrite T in I; exact I. }
        apply filter_In in J. destruct J as [J W]. apply vals_from_in in J. destruct J as [j [s [J1 [J2 ->]]]]. cbn [av_version av_name av_value] in *.
        exists (N.of_nat j). split; [f_equal|]. rewrite (field_value _ _ _ _ _ _ T J1), J2, W. reflexivity.
      * exfalso. destruct (oa_type a); try congruence; try discriminate T; destruct I.
Qed.
Theorem completion_complete en src r p a sp j s n : process en src = Ret r -> (0 <= ps_line p)%Z -> completes r p a ->
  version_at (Z.to_nat (ps_line p)) (r_lines r) = r_version r ->
  field_table (oa_type a) = Some sp -> oa_type a <> ITxnaField -> nth_error sp j = Some s ->
  value_read en (version_at (Z.to_nat (ps_line p)) (r_lines r)) (oa_type a) (f_name s) = Some n ->
  exists x, In x (arg_vals r a) /\ av_name x = f_name s /\ av_value x = Some n.
Proof.
  intros E N C V T K J H. rewrite V in H. clear V. rewrite (field_value _ _ _ _ _ _ T J) in H.
  destruct (offered (oa_type a) s) eqn:O; [|discriminate H]. cbn [andb] in H.
  assert (W : (offered_from (oa_type a) s <=? r_version r)%N = true).
  { destruct (offered_from (oa_type a) s <=? r_version r)%N eqn:W; [reflexivity|]. destruct (oa_type a); try discriminate H; congruence. }
  rewrite W in H. injection H as <-.
  exists (ArgVal (f_name s) (Some (0 + N.of_nat j)%N) (offered_from (oa_type a) s)). split; [|split; reflexivity].
  assert (I : In (ArgVal (f_name s) (Some (0 + N.of_nat j)%N) (offered_from (oa_type a) s))
    (filter (fun v => (av_version v <=? r_version r)%N) (vals_from (oa_type a) 0 sp))).
  { apply filter_In. split; [|exact W]. apply vals_from_in. exists j, s. auto. }
  unfold arg_vals. destruct (oa_type a); try discriminate T; rewrite T; exact I.
Qed.
Theorem completion_labels r a s : oa_type a = ILabel -> In s (r_syms r) -> exists x, In x (arg_vals r a) /\ av_name x = sy_name s.
Proof.
  intros T I. unfold arg_vals. rewrite T. exists (ArgVal (sy_name s) None 0%N). split; [|reflexivity]. apply in_map_iff. exists s. auto.
Qed.

Lemma dedup_in l : forall x, In x (dedup l) <-> In x l.
Proof.
  induction l as [|a l IH]; intros x; [reflexivity|]. cbn [dedup In]. destruct (mem a l) eqn:M.
  - rewrite IH. split; [auto|]. intros [<-|H]; [apply mem_In; exact M|exact H].
  - cbn [In]. rewrite IH. reflexivity.
Qed.
Lemma item_names_in n : In n item_names <-> exists q, ops_get n = Some q.
Proof.
  unfold item_names. rewrite dedup_in. unfold ops_get. split.
  - intros I. apply in_map_iff in I. destruct I as [x [<- I]].
    destruct (find (fun y => seqb (bs (fst y)) (bs (fst x))) (rev ops_list)) as [[m q]|] eqn:F; [exists q; reflexivity|].
    apply in_rev in I. pose proof (find_none _ _ F x I) as C. cbn in C. destruct (seqb_spec (bs (fst x)) (bs (fst x))); congruence.
  - destruct (find (fun x => seqb (bs (fst x)) n) (rev ops_list)) as [[m q]|] eqn:F; [|intros [q H]; discriminate H].
    intros _. apply find_some in F. destruct F as [I Q]. apply seqb_eq in Q. rewrite <- Q. apply in_map_iff. exists (m, q). split; [reflexivity|].
    apply in_rev. exact I.
Qed.
Theorem completion_ops r p s : (0 <= ps_line p)%Z -> typed r p s ->
  exists l, completions r p = Ret (CompleteOps (bs "soc" :: bs "func" :: l)) /\
  forall n, In n l <-> exists q, ops_get n = Some q /\ (dc_app (doc_of q) <= r_version r)%N /\ exists w, n = s ++ w.
Proof.
  intros N T. unfold completions.
  assert (Q : exists l, (if (ps_line p <? Z.of_nat (length (r_lines r)))%Z then line_of r (ps_line p) else Ret []) = Ret l /\
    match l with [] => s = [] | t :: _ => (ps_char p <= Z.of_nat (tok_e t))%Z /\ s = tok_v t end).
  { unfold typed, line_at_pos in T. destruct (ps_line p <? Z.of_nat (length (r_lines r)))%Z eqn:B.
    - assert (past_end r (ps_line p) = false) as Q by (unfold past_end; lia). destruct (line_of_ok r _ N Q) as [ln [-> F]].
      rewrite F in T. exists ln. split; [reflexivity|]. destruct ln; exact T.
    - exists []. split; [reflexivity|]. assert (nth_error (r_lines r) (Z.to_nat (ps_line p)) = None) as X by (apply nth_error_None; lia).
      rewrite X in T. exact T. }
  destruct Q as [l [-> Q]]. cbn [bindr].
  assert (P : forall n, is_prefix s n = true <-> exists w, n = s ++ w).
  { intros n. unfold is_prefix. destruct (seqb_spec (firstn (length s) n) s) as [Z|Z]; split; intros H; try discriminate H; try reflexivity.
    - exists (skipn (length s) n). rewrite <- (firstn_skipn (length s) n) at 1. rewrite Z. reflexivity.
    - exfalso. destruct H as [w ->]. apply Z. rewrite firstn_app, Nat.sub_diag, firstn_all. cbn. apply app_nil_r. }
  exists (filter (fun n => match app_version n with Some v => (v <=? r_version r)%N && is_prefix s n | None => false end) item_names).
  split.
  - destruct l as [|t l]; [rewrite Q; reflexivity|]. destruct Q as [Q1 ->]. replace (ps_char p <=? Z.of_nat (tok_e t))%Z with true by lia. reflexivity.
  - intros n. rewrite filter_In, item_names_in. unfold app_version. split.
    + intros [[q G] H]. exists q. rewrite G in H. apply andb_true_iff in H. destruct H as [H1 H2]. split; [exact G|]. split; [lia|]. apply P. exact H2.
    + intros [q [G [H1 H2]]]. split; [exists q; exact G|]. rewrite G. apply andb_true_iff. split; [lia|]. apply P. exact H2.
Qed.
(* against the published table, in an application *)
Theorem completion_published r p s l n : (0 <= ps_line p)%Z -> typed r p s ->
  completions r p = Ret (CompleteOps (bs "soc" :: bs "func" :: l)) -> In n (map fst ops_list) -> ~ In n unlisted ->
  (In (bs n) l <-> (avm_version_app n <= r_version r)%N /\ exists w, bs n = s ++ w).
Proof.
  intros N T C I U. destruct (completion_ops r p s N T) as [l' [C' H]]. rewrite C' in C. injection C as ->. rewrite H.
  apply in_map_iff in I as [[n' q] [En I]]. cbn [fst] in En. subst n'.
  pose proof table_agrees as A. rewrite forallb_forall in A. specialize (A _ I). cbv beta iota in A.
  apply Bool.andb_true_iff in A as [A A4]. apply Bool.andb_true_iff in A as [A A3].
  destruct (ops_get (bs n)) as [q'|] eqn:O; [|discriminate]. apply Bool.andb_true_iff in A3 as [Q1 _]. apply N.eqb_eq in Q1.
  assert (existsb (String.eqb n) unlisted = false) as X.
  { apply Bool.not_true_iff_false. intros X. apply existsb_exists in X as [u [Iu Eu]]. apply String.eqb_eq in Eu. congruence. }
  rewrite X in A4. cbn [orb] in A4. apply Bool.andb_true_iff in A4 as [P1 _]. apply N.eqb_eq in P1. split.
  - intros [x [Gx [B W]]]. injection Gx as ->. split; [lia|exact W].
  - intros [B W]. exists q'. split; [reflexivity|]. split; [lia|exact W].
Qed.
