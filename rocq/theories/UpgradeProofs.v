(* Raising the version of a document. *)
From Verif Require Import Base LexSpec Lexer LexerProofs LexerThms DocLines DocProofs Expr Linter Fields Strconv Literals Codec CodecProofs OpTable Process ProcessSpec ProcessLine ProcessDoc ProcessThms Semantics Query Lsp Edit RoundTripSpec RoundTripLex RoundTrip QueryProofs EditProofs RenameProofs HintSpec HintProofs FixLines FixProofs FixVersion ErrorSpec ErrorProofs DiagSpec DiagProofs InsertDoc UpgradeSpec.
From Verif Require Flow FlowProofs LintSpec RemoveProofs RoundTripExact.
From Coq Require Import Lia.

(* ------------------------------------------------------------------------------------------ *)
(* a newer version reads what an older one does *)
Lemma field_newer sp v v' s x : (v <= v')%N -> fst_of (read_field sp v s) = Some x -> fst_of (read_field sp v' s) = Some x.
Proof.
  intros L. unfold read_field. destruct (spec_by_name sp s) as [[f q]|]; [|auto].
  destruct (N.ltb_spec v (f_version q)); [discriminate|]. destruct (N.ltb_spec v' (f_version q)); [lia|auto].
Qed.
Lemma txn_newer k v v' s x : (v <= v')%N -> fst_of (read_txn_field k v s) = Some x -> fst_of (read_txn_field k v' s) = Some x.
Proof.
  intros L. unfold read_txn_field. destruct (spec_by_name txnFieldSpecs s) as [[f q]|]; [|auto].
  assert (A : fst_of (if (v <? f_version q)%N then None else Some (f, true)) = Some x -> fst_of (if (v' <? f_version q)%N then None else Some (f, true)) = Some x).
  { destruct (N.ltb_spec v (f_version q)); [discriminate|]. destruct (N.ltb_spec v' (f_version q)); [lia|auto]. }
  destruct k; try exact A; [|auto].
  destruct (f_itx q =? 0)%N; [auto|]. destruct (N.ltb_spec v (f_itx q)); [discriminate|]. destruct (N.ltb_spec v' (f_itx q)); [lia|auto].
Qed.
Lemma operand_newer en v v' k a r x : (v <= v')%N -> operand en v k a r = Some x -> operand en v' k a r = Some x.
Proof.
  intros L. destruct k; cbn [operand operand_value]; try (intros H; exact H).
  all: intros H; match type of H with obind ?o _ = _ => destruct o as [y|] eqn:E; [|discriminate H] end; cbn [obind] in H; injection H as <-;
    first [rewrite (field_newer _ _ _ _ _ L E)|rewrite (txn_newer _ _ _ _ _ L E)]; reflexivity.
Qed.
Lemma assemble_newer en v v' p : (v <= v')%N -> forall args x, assemble en v p args = Some x -> assemble en v' p args = Some x.
Proof.
  intros L. induction p as [e0|n p IH|m n p IH|k n g IH|n g IH|n g IH|n g IH|n g IH]; cbn [assemble]; intros args x H; auto.
  - destruct args as [|a r]; [discriminate|]. destruct (operand en v k a r) as [y|] eqn:E; [|discriminate].
    rewrite (operand_newer _ _ _ _ _ _ _ L E). cbn [obind] in *. apply IH. exact H.
  - destruct args as [|a r]; [apply IH; exact H|]. destruct (read_uint8 a); [|discriminate]. cbn [obind] in *. apply IH. exact H.
  - destruct (all_ints args); [|discriminate]. cbn [obind] in *. apply IH. exact H.
  - destruct (all_bytes en (length args) args); [|discriminate]. cbn [obind] in *. apply IH. exact H.
Qed.
Lemma line_newer en v v' l : (v <= v')%N -> statement en v l -> statement en v' l /\ entries en v' l = entries en v l.
Proof.
  intros L. unfold statement, entries. destruct (kind_of l); try (split; [assumption|reflexivity]). intros [e A]. rewrite (assemble_newer _ _ _ _ L _ _ A), A.
  split; [exists e; reflexivity|reflexivity].
Qed.

(* ------------------------------------------------------------------------------------------ *)
(* the opcodes are instructions *)
Fixpoint loud (p : prog) : Prop :=
  match p with
  | Emit e => is_nop e = false
  | MinVersion _ p | ModeMinVersion _ _ p => loud p
  | Read _ _ f => forall x, loud (f x)
  | ReadMaybe _ f => forall x, loud (f x)
  | ReadInts _ f => forall x, loud (f x)
  | ReadBytess _ f => forall x, loud (f x)
  | ReadLabels _ f => forall x, loud (f x)
  end.
Lemma all_loud : Forall (fun x => loud (snd x)) ops_list.
Proof.
  unfold ops_list. repeat (apply Forall_cons; [cbn; intros; repeat (match goal with |- loud (match ?o with _ => _ end) => destruct o; cbn; intros end); reflexivity|]). apply Forall_nil.
Qed.
Lemma loud_assembled en v p : loud p -> forall args e rest, assemble en v p args = Some (e, rest) -> is_nop e = false.
Proof.
  induction p as [e0|n p IH|m n p IH|k n g IH|n g IH|n g IH|n g IH|n g IH]; cbn [loud assemble]; intros P args e rest H.
  - congruence.
  - eauto.
  - eauto.
  - destruct args as [|a r]; [discriminate|]. destruct (operand en v k a r) as [y|]; [|discriminate]. eapply IH; [apply P|exact H].
  - destruct args as [|a r]; [eapply IH; [apply P|exact H]|]. destruct (read_uint8 a); [|discriminate]. eapply IH; [apply P|exact H].
  - destruct (all_ints args); [|discriminate]. eapply IH; [apply P|exact H].
  - destruct (all_bytes en (length args) args); [|discriminate]. eapply IH; [apply P|exact H].
  - eapply IH; [apply P|exact H].
Qed.
Lemma op_loud en v l p args : kind_of l = LOp p args -> statement en v l -> exists e, entries en v l = [e] /\ ~ Flow.silent e.
Proof.
  intros K S. unfold statement, entries in *. rewrite K in *. destruct S as [e A]. exists e. rewrite A. split; [reflexivity|].
  apply FlowProofs.is_nop_not_silent. destruct l as [|t w]; [discriminate K|]. destruct (get_in _ _ (RemoveProofs.kind_op _ _ _ _ K)) as [s [I _]].
  exact (loud_assembled en v p (proj1 (Forall_forall _ _) all_loud _ I) _ _ _ A).
Qed.

(* ------------------------------------------------------------------------------------------ *)
(* lines that are in order, but for opcodes that need a version up to cap *)
Fixpoint nearly (en : env) (m : mode) (v cap : N) (ls : list (list token)) : Prop :=
  match ls with
  | [] => True
  | l :: r => (statement en v l /\ forall p args, kind_of l = LOp p args -> (0 < min_version m p <= N.max v cap)%N) /\
              nearly en (mode_after m l) (version_after v l) cap r
  end.
Lemma nearly_nth en cap ls : forall m v, (forall i l, nth_error ls i = Some l ->
    statement en (last_version v (firstn i ls)) l /\
    forall p args, kind_of l = LOp p args -> (0 < min_version (last_mode m (firstn i ls)) p <= N.max (last_version v (firstn i ls)) cap)%N) ->
  nearly en m v cap ls.
Proof.
  induction ls as [|x ls IH]; intros m v H; cbn [nearly]; [exact I|]. split; [exact (H 0 x eq_refl)|]. apply IH. intros i l N. exact (H (S i) l N).
Qed.
Lemma nearly_app en cap a : forall m v b, nearly en m v cap (a ++ b) <-> nearly en m v cap a /\ nearly en (last_mode m a) (last_version v a) cap b.
Proof. induction a as [|x a IH]; intros m v b; cbn [app nearly last_mode last_version]; [tauto|]. rewrite IH. tauto. Qed.
Lemma nearly_newer en cap ls : (forall l, In l ls -> version_token l = None) -> forall m v, (v <= cap)%N -> nearly en m v cap ls ->
  all_fine en m cap ls /\ all_entries en cap ls = all_entries en v ls.
Proof.
  induction ls as [|l ls IH]; intros N m v L H; [split; [exact I|reflexivity]|]. cbn [nearly all_fine all_entries] in *.
  rewrite !(no_version l) in * by (apply N; left; reflexivity). destruct H as [[S A] H].
  destruct (IH ltac:(intros x X; apply N; right; exact X) _ _ L H) as [F E]. destruct (line_newer _ _ _ _ L S) as [S' E'].
  split; [|rewrite E, E'; reflexivity]. split; [|exact F]. split; [exact S'|]. intros p args K. specialize (A p args K). lia.
Qed.
Lemma nearly_fine en cap ls : (forall l, In l ls -> is_op l = false) -> forall m v, nearly en m v cap ls -> all_fine en m v ls.
Proof.
  induction ls as [|l ls IH]; intros N m v H; [exact I|]. cbn [nearly all_fine] in *. destruct H as [[S A] H]. split; [|apply IH; [intros x X; apply N; right; exact X|exact H]].
  split; [exact S|]. intros p args K. specialize (N l (or_introl eq_refl)). unfold is_op in N. rewrite K in N. discriminate.
Qed.
Lemma nearly_op en cap ls : forall m v l, nearly en m v cap ls -> In l ls -> is_op l = true -> exists e, In e (all_entries en v ls) /\ ~ Flow.silent e.
Proof.
  induction ls as [|x ls IH]; intros m v l H I O; [destruct I|]. cbn [nearly all_entries] in *. destruct H as [[S _] H]. destruct I as [->|I].
  - unfold is_op in O. destruct (kind_of l) as [| | | |p args|] eqn:K; try discriminate. destruct (op_loud en v l p args K S) as [e [-> E]].
    exists e. split; [left; reflexivity|exact E].
  - destruct (IH _ _ l H I O) as [e [E1 E2]]. exists e. split; [apply in_or_app; right; exact E1|exact E2].
Qed.
Lemma nearly_pragmas en cap ls : (forall l, In l ls -> version_token l = None) -> forall m v, nearly en m v cap ls -> forall w, ~ In (PragmaExpr w) (all_entries en v ls).
Proof.
  induction ls as [|x ls IH]; intros N m v H w I; [destruct I|]. cbn [nearly all_entries] in *. destruct H as [[S A] H]. apply in_app_or in I as [I|I].
  - unfold statement, entries in *. destruct (kind_of x) as [| |n|args|p args|] eqn:K; try (destruct I as [I|[]]; discriminate I).
    + destruct n; destruct I as [I|[]]; discriminate I.
    + destruct S as [u S]. specialize (N x (or_introl eq_refl)). clear - N S K. unfold version_token in N.
      destruct x as [|t r]; [discriminate K|].
      assert (A : args = texts r).
      { unfold kind_of in K. destruct (tok_t t); try discriminate K; (destruct (label_name _); [discriminate K|]; destruct (seqb _ _); [congruence|destruct (ops_get _); discriminate K]). }
      subst args. unfold pragma_version in S. destruct r as [|a [|b r]]; try discriminate S. rewrite K in N. cbn [texts map] in S. destruct (seqb _ _); [|discriminate S].
      destruct (parse_uint (tok_v b) 0 64); discriminate.
    + destruct (op_loud en v x p args K) as [e [E L]]; [unfold statement; rewrite K; exact S|]. unfold entries in E. rewrite K in E. rewrite E in I.
      destruct I as [->|[]]. apply L. constructor.
  - exact (IH ltac:(intros y Y; apply N; right; exact Y) _ _ H w I).
Qed.

(* ------------------------------------------------------------------------------------------ *)
(* programs that differ in a pragma *)
Definition alike (e e' : expr) : Prop := e = e' \/ exists a b, e = PragmaExpr a /\ e' = PragmaExpr b.
Lemma alike_sym e e' : alike e e' -> alike e' e.
Proof. intros [->|[a [b [-> ->]]]]; [left; reflexivity|right; eauto]. Qed.
Lemma alike_nth l l' : Forall2 alike l l' -> forall i e, nth_error l i = Some e -> exists e', nth_error l' i = Some e' /\ alike e e'.
Proof. induction 1 as [|x y l l' H F IH]; intros [|i] e N; try discriminate N; [injection N as <-; exists y; auto|exact (IH i e N)]. Qed.
Lemma alike_sound l l' : Forall2 alike l l' -> sound_program l -> sound_program l'.
Proof.
  intros F S. assert (F' : Forall2 alike l' l) by (clear - F; induction F; constructor; auto using alike_sym).
  pose proof (alike_nth _ _ F) as Y. pose proof (alike_nth _ _ F') as X.
  assert (XP : forall i e, nth_error l' i = Some e -> (forall a, e <> PragmaExpr a) -> nth_error l i = Some e).
  { intros i e N P. destruct (X i e N) as [e' [N' [->|[a [b [-> _]]]]]]; [exact N'|destruct (P a eq_refl)]. }
  assert (YP : forall i e, nth_error l i = Some e -> (forall a, e <> PragmaExpr a) -> nth_error l' i = Some e).
  { intros i e N P. destruct (Y i e N) as [e' [N' [->|[a [b [-> _]]]]]]; [exact N'|destruct (P a eq_refl)]. }
  assert (D : forall i n, Flow.defines l' i n <-> Flow.defines l i n) by (intros i n; unfold Flow.defines; split; intros N; [apply XP|apply YP]; (exact N || discriminate)).
  assert (Na : forall i n, Flow.names_at l' i n <-> Flow.names_at l i n).
  { intros i n; split; intros [e [N U]]; exists e; (split; [|exact U]); [apply XP|apply YP]; try exact N; intros a ->; inversion U. }
  assert (U : forall n, Flow.used l' n <-> Flow.used l n) by (intros n; split; intros [i H]; exists i; apply Na; exact H).
  assert (P : forall i, LintSpec.pragma_at l' i -> LintSpec.pragma_at l i).
  { intros i [w N]. destruct (X i _ N) as [e' [N' [<-|[a [b [_ ->]]]]]]; eexists; exact N'. }
  assert (In_ : forall i, LintSpec.instruction_at l' i -> LintSpec.instruction_at l i).
  { intros i [e [N Q]]. exists e. split; [|exact Q]. apply XP; [exact N|]. intros a ->. apply Q. constructor. }
  destruct S as [S1 S2 S3 S4 S5 S6 S7]. constructor.
  - intros i j n A B. apply (S1 i j n); apply D; assumption.
  - intros i n A. apply U. apply (S2 i). apply D. exact A.
  - intros i n A. apply Na in A. destruct (S3 _ _ A) as [k K]. exists k. apply D. exact K.
  - intros i A [j [e [J [N [Q H]]]]]. apply (S4 i (In_ i A)). exists j, e. split; [exact J|]. split; [apply XP; [exact N|intros a ->; inversion Q]|].
    split; [exact Q|]. intros k n K Dk Un. apply (H k n K); [apply D; exact Dk|apply U; exact Un].
  - intros i [n [k [N [K [Dk H]]]]]. apply (S5 i). exists n, k. split; [apply XP; [exact N|discriminate]|]. split; [exact K|]. split; [apply D; exact Dk|].
    intros m M. destruct (H m M) as [e [Ne [Se Le]]]. destruct (X m e Ne) as [e' [Ne' [<-|[a [b [-> ->]]]]]]; [exists e; auto|].
    exists (PragmaExpr b). split; [exact Ne'|]. split; [constructor|discriminate].
  - intros i [j [n [N [J [Dj [H1 H2]]]]]]. apply (S6 i). exists j, n. split; [apply XP; [exact N|discriminate]|]. split; [exact J|]. split; [apply D; exact Dj|].
    split; [intros k K Dk; apply (H1 k K); apply D; exact Dk|]. intros k e K Ne. destruct (Y k e Ne) as [e' [Ne' Al]]. specialize (H2 k e' K Ne').
    destruct Al as [<-|[a [b [-> ->]]]].
    + destruct H2 as [A1 [A2 [A3 A4]]]. split; [exact A1|]. split; [exact A2|]. split; [exact A3|]. intros m d M Dd. apply (A4 m d M). apply D. exact Dd.
    + repeat split; try discriminate; inversion H; fail.
  - intros i j A J. destruct (S7 i j (P i A) J) as [B1 B2]. split; intros C; [apply B1; apply In_; exact C|apply B2; apply P; exact C].
Qed.

(* a pragma in front of a program without one *)
Lemma ahead_sound w l : sound_program l -> (forall u, ~ In (PragmaExpr u) l) -> sound_program (PragmaExpr w :: l).
Proof.
  intros So NP. set (l' := PragmaExpr w :: l).
  assert (D : forall i n, Flow.defines l' i n <-> exists j, i = S j /\ Flow.defines l j n).
  { intros [|i] n; (split; [intros H|intros [j [E H]]]); try discriminate; [exists i; split; [reflexivity|exact H]|injection E as ->; exact H]. }
  assert (Na : forall i n, Flow.names_at l' i n <-> exists j, i = S j /\ Flow.names_at l j n).
  { intros [|i] n; split; [intros [e [E H]]; injection E as <-; inversion H|intros [j [E _]]; discriminate E|intros H; exists i; split; [reflexivity|exact H]|intros [j [E H]]; injection E as ->; exact H]. }
  assert (U : forall n, Flow.used l' n <-> Flow.used l n).
  { intros n. split; [intros [i H]; apply Na in H as [j [_ H]]; exists j; exact H|intros [i H]; exists (S i); apply Na; exists i; auto]. }
  assert (X : forall i e, nth_error l' i = Some e -> (forall a, e <> PragmaExpr a) -> exists j, i = S j /\ nth_error l j = Some e).
  { intros [|i] e N P; [injection N as <-; destruct (P w eq_refl)|exists i; split; [reflexivity|exact N]]. }
  destruct So as [S1 S2 S3 S4 S5 S6 S7]. constructor.
  - intros i j n A B. apply D in A as [x [-> A]], B as [y [-> B]]. f_equal. exact (S1 x y n A B).
  - intros i n A. apply D in A as [x [-> A]]. apply U. exact (S2 x n A).
  - intros i n A. apply Na in A as [x [-> A]]. destruct (S3 x n A) as [k K]. exists (S k). exact K.
  - intros i [e0 [N0 Q0]] [j [e [J [N [Q H]]]]]. destruct (X i e0 N0) as [x [-> N1]]; [intros a ->; apply Q0; constructor|].
    destruct (X j e N) as [y [-> N2]]; [intros a ->; inversion Q|]. apply (S4 x); [exists e0; auto|]. exists y, e. split; [lia|]. split; [exact N2|]. split; [exact Q|].
    intros k n K Dk Un. apply (H (S k) n); [lia|exact Dk|apply U; exact Un].
  - intros i [n [k [N [K [Dk H]]]]]. destruct (X i _ N) as [x [-> N1]]; [discriminate|]. apply D in Dk as [y [-> Dk]]. apply (S5 x). exists n, y.
    split; [exact N1|]. split; [lia|]. split; [exact Dk|]. intros m M. exact (H (S m) ltac:(lia)).
  - intros i [j [n [N [J [Dj [H1 H2]]]]]]. destruct (X i _ N) as [x [-> N1]]; [discriminate|]. apply D in Dj as [y [-> Dj]]. apply (S6 x). exists y, n.
    split; [exact N1|]. split; [lia|]. split; [exact Dj|]. split; [intros k K; exact (H1 (S k) ltac:(lia))|].
    intros k e K Ne. destruct (H2 (S k) e ltac:(lia) Ne) as [A1 [A2 [A3 A4]]]. split; [exact A1|]. split; [exact A2|]. split; [exact A3|].
    intros m d M Dd. pose proof (A4 m (S d) M Dd). lia.
  - intros [|i] j [u N] J; [lia|]. exfalso. apply (NP u). exact (nth_error_In l i N).
Qed.

(* ------------------------------------------------------------------------------------------ *)
(* the lines of the changed document *)
Lemma change_open es ps : (forall w, ~ In (POpen w) ps) -> forall l c w, ~ In (POpen w) (change es l c ps).
Proof.
  induction ps as [|p ps IH]; intros N l c w I; [destruct I|]. cbn [change] in I. assert (N' : forall w, ~ In (POpen w) ps) by (intros u U; apply (N u); right; exact U).
  destruct p; (destruct I as [I|I]; [|exact (IH N' _ _ _ I)]); try discriminate I; [unfold cut_word, retext in I|exact (N w (or_introl I))].
  repeat match type of I with context[match ?x with _ => _ end] => destruct x; try discriminate I end.
Qed.

Lemma updated en src ps r v : Lexes src ps -> strings_on_one_line ps -> process en src = Ret r -> (0 < v < 2 ^ 64)%N -> (forall w, ~ In (POpen w) ps) ->
  exists ps' raw', Lexes (apply_edits (update_version r v) src) ps' /\ (forall w, ~ In (POpen w) ps') /\ Lines (fst (layout 0 0 ps')) raw' /\
   ((exists A l B A' l' B' w2, r_lines r = A ++ l :: B /\ map code_of raw' = A' ++ l' :: B' /\ Forall2 same_texts A A' /\ Forall2 same_texts B B' /\
      version_token l <> None /\ kind_of l' = LPragma (bs "version" :: dec v :: w2) /\ forall x, In x B -> version_token x = None) \/
    (exists l' B', map code_of raw' = l' :: B' /\ Forall2 same_texts (r_lines r) B' /\ kind_of l' = LPragma [bs "version"; dec v] /\
      forall x, In x (r_lines r) -> version_token x = None)).
Proof.
  intros L O P Bv No. destruct (process_result en src r P) as [ts0 [errs0 [raw0 [lds0 [T0 [Li0 [_ Q]]]]]]]. pose proof (ro_vtok _ _ _ _ _ _ _ Q) as Vt.
  unfold update_version. destruct (r_vtok r) as [t|].
  - symmetry in Vt. apply last_token_some in Vt. destruct Vt as [[Vt _]|[A [l [B [E [V N]]]]]]; [discriminate|].
    destruct (version_token_line l t V) as [op [a [w2 [El [Ea [Qt [To Vo]]]]]]].
    assert (HN : nth_error (r_lines r) (length A) = Some (op :: [a] ++ t :: w2)) by (rewrite E, nth_error_app2, Nat.sub_diag, El by lia; reflexivity).
    assert (HR : raw_ok (dec v)) by (left; apply word_dec).
    pose proof (o_tokens en src r P op t [a] w2 (length A) (dec v) HN Qt HR) as Ot.
    destruct (edit_lines en src ps r _ L O P (o_nodup t (dec v)) Ot) as [ts' [errs' [raw' [T' [Li' F]]]]].
    change [TextEdit (tok_range t) (dec v)] with (replace_token t (dec v)).
    assert (Fi : fits (replace_token t (dec v)) 0 0 ps).
    { rewrite (ro_tokens _ _ _ _ _ _ _ Q) in Ot. rewrite (tokenize_spec _ _ L) in T0. injection T0 as T0. eapply Forall_impl; [|exact Ot]. cbn. intros e H. right. apply (target_token e src ps L 0 0). rewrite T0. exact H. }
    destruct (lexes_change _ _ _ L O (o_nodup t (dec v)) 0 0 Fi) as [Lc _].
    assert (Ed : apply_edits (replace_token t (dec v)) src = texts_of (change (replace_token t (dec v)) 0 0 ps)) by (unfold apply_edits; exact (edited_change _ _ _ L O (o_nodup t (dec v)) 0 0 Fi)).
    exists (change (replace_token t (dec v)) 0 0 ps), raw'. split; [rewrite Ed; exact Lc|]. split; [apply change_open; exact No|]. split.
    { rewrite Ed, (tokenize_spec _ _ Lc) in T'. injection T' as T'. rewrite T'. exact Li'. }
    left. pose proof F as F0. rewrite E in F0. apply Forall2_app_inv_l in F0. destruct F0 as [A' [R' [FA [FR ER]]]]. inversion FR as [|? l' ? B' Fl FB]; subst R'. subst l0 l.
    assert (Others : forall C C', incl C (r_lines r) -> (forall m, In m C -> ~ In t m) -> Forall2 (Forall2 (edited_tok (replace_token t (dec v)))) C C' -> Forall2 same_texts C C').
    { intros C C' Ic Nt FC. induction FC as [|m m' C C' Fm FC IH]; constructor.
      - apply (o_line en src r P op t [a] w2 (length A) (dec v) HN Qt m m'); [apply Ic; left; reflexivity|apply Nt; left; reflexivity|exact Fm].
      - apply IH; [intros z1 X; apply Ic; right; exact X|intros z1 X; apply Nt; right; exact X]. }
    assert (Nt : forall j m, nth_error (r_lines r) j = Some m -> In t m -> j = length A).
    { intros j m Nj I. rewrite <- (line_index _ _ _ P j m Nj t I). apply (line_index _ _ _ P (length A) _ HN t). right. right. left. reflexivity. }
    destruct (o_this en src r P op t [a] w2 (length A) (dec v) HN Qt l' Fl) as [op' [w' [-> [T1 [V' W']]]]].
    rewrite (retext_word _ (word_dec v)) in W'. cbn [piece_tok texts map app] in W'. rewrite Ea in W'. rewrite Vo in V'. assert (To' : tok_t op' <> TokComment) by congruence.
    exists A, (op :: [a] ++ t :: w2), B, A', (op' :: w'), B', (texts w2). split; [exact E|]. split; [exact ER|]. split; [|split; [|split; [|split]]].
    + apply Others; [rewrite E; intros z1 X; apply in_or_app; left; exact X| |exact FA]. intros m I It. apply In_nth_error in I. destruct I as [j I].
      assert (J : j < length A) by (apply nth_error_Some; congruence). assert (Nj : nth_error (r_lines r) j = Some m) by (rewrite E, nth_error_app1 by lia; exact I). specialize (Nt j m Nj It). lia.
    + apply Others; [rewrite E; intros z1 X; apply in_or_app; right; right; exact X| |exact FB]. intros m I It. apply In_nth_error in I. destruct I as [j I].
      assert (Nj : nth_error (r_lines r) (length A + S j) = Some m) by (rewrite E, nth_error_app2 by lia; replace (length A + S j - length A) with (S j) by lia; exact I).
      specialize (Nt _ m Nj It). lia.
    + congruence.
    + rewrite (pragma_line op' w' To' V'), W'. reflexivity.
    + exact N.
  - symmetry in Vt. apply last_token_none in Vt. destruct Vt as [_ N].
    set (e := TextEdit _ _). assert (Ed : apply_edits [e] src = te_text e ++ src).
    { rewrite (insert_line e src [] ps L O (or_introl eq_refl) eq_refl). cbn [texts_of map concat app]. destruct (lexes_split [] _ _ L) as [-> _]. reflexivity. }
    set (h := [PWord (bs "#pragma"); PBlank c_space; PWord (bs "version"); PBlank c_space; PWord (dec v); PEol [c_cr; c_lf]]).
    assert (Le : Lexes (te_text e ++ src) (h ++ ps)).
    { unfold e, h. cbn [te_text]. change (bs "#pragma version ") with (bs "#pragma" ++ c_space :: bs "version" ++ [c_space]). rewrite <- !app_assoc. cbn [app]. rewrite <- !app_assoc. cbn [app].
      apply word_lexes; [reflexivity|left; left; reflexivity|]. constructor; [left; reflexivity|]. apply word_lexes; [reflexivity|left; left; reflexivity|]. constructor; [left; reflexivity|].
      apply word_lexes; [apply word_dec|right; right; reflexivity|]. constructor. exact L. }
    destruct (process_raw en src ps r L P) as [raw [Li R]].
    assert (La : Lines (fst (layout 0 0 h))
      [[Token (bs "#pragma") 0 0 7 TokValue; Token (bs "version") 0 8 15 TokValue; Token (dec v) 0 16 (16 + length (dec v)) TokValue]]).
    { exact (Lines_eol [Token (bs "#pragma") 0 0 7 TokValue; Token (bs "version") 0 8 15 TokValue; Token (dec v) 0 16 (16 + length (dec v)) TokValue] (Token [c_cr; c_lf] 0 (16 + length (dec v)) (16 + length (dec v) + 2) TokEol) [] [] eq_refl eq_refl Lines_none). }
    destruct (join_lines en _ _ _ _ _ _ _ _ _ Le ltac:(right; exists [PWord (bs "#pragma"); PBlank c_space; PWord (bs "version"); PBlank c_space; PWord (dec v)], [c_cr; c_lf]; reflexivity) La Li) as [raw' [Lr [F _]]].
    exists (h ++ ps), raw'. rewrite Ed. split; [exact Le|]. split.
    { intros w I. apply in_app_or in I as [I|I]; [|exact (No w I)]. unfold h in I. cbn [In] in I. decompose [or] I; try discriminate; assumption. }
    split; [exact Lr|]. right.
    rewrite <- R in F. cbn [map] in F. cbn [app] in F. inversion F as [|? l' ? B' Fl FB E1 E2].
    change (code_of _) with [Token (bs "#pragma") 0 0 7 TokValue; Token (bs "version") 0 8 15 TokValue; Token (dec v) 0 16 (16 + length (dec v)) TokValue] in Fl.
    exists l', B'. split; [reflexivity|]. split; [exact FB|]. split; [|exact N].
    rewrite <- (same_kind _ _ Fl). unfold kind_of. reflexivity.
Qed.

Lemma open_last s ps : Lexes s ps -> (forall qs w, ps <> qs ++ [POpen w]) -> forall w, ~ In (POpen w) ps.
Proof.
  assert (X : forall p ps', (forall u, p <> POpen u) -> ((forall qs w, ps' <> qs ++ [POpen w]) -> forall w, ~ In (POpen w) ps') ->
    (forall qs w, p :: ps' <> qs ++ [POpen w]) -> forall w, ~ In (POpen w) (p :: ps')).
  { intros p ps' Np IH N w [I|I]; [exact (Np w I)|]. refine (IH _ w I). intros qs u E. apply (N (p :: qs) u). rewrite E. reflexivity. }
  induction 1; try (apply X; [discriminate|assumption]).
  - intros _ w0 [].
  - intros N u [I|[]]. apply (N [] u). rewrite I. reflexivity.
Qed.

Theorem raised en src ps r v : Lexes src ps -> strings_on_one_line ps -> process en src = Ret r ->
  (r_version r <= v < 2 ^ 64)%N -> (forall d, In d (r_diag r) -> too_old v d) ->
  exists r', process en (apply_edits (update_version r v) src) = Ret r' /\ r_diag r' = [] /\ r_version r' = v /\ upgraded v (r_listing r) (r_listing r').
Proof.
  intros L O P Bv Od. assert (H : forall d, reported en src r d -> too_old v d) by (intros d D; apply Od; apply (reports_exact en src r d P); exact D). clear Od.
  assert (No : forall w, ~ In (POpen w) ps).
  { apply (open_last src ps L). intros qs w E. rewrite E in L. destruct (H _ (ROpen en src r qs w L)) as [? [? [X _]]]. discriminate X. }
  assert (So : sound_program (r_listing r)).
  { apply sound_findings. intros e F. destruct (finding_placed en src r e P F) as [l N]. destruct (H _ (RFinding en src r e l F N)) as [? [? [X _]]]. discriminate X. }
  assert (Ne : nearly en ModeApp 1 v (r_lines r)).
  { apply nearly_nth. intros i l N. fold (version_at i (r_lines r)). fold (mode_at i (r_lines r)). split.
    - destruct (errors_exact en src r _ _ P N) as [[S _]|(t' & rs' & _ & Q & M')]; [exact S|]. destruct (H _ (RMistake en src r _ _ _ _ N M')) as [? [? [X _]]]. discriminate X.
    - intros p args Kl. destruct l as [|t rest]; [discriminate Kl|].
      destruct (N.eq_dec (min_version (mode_at i (r_lines r)) p) 0) as [Z|Z].
      + destruct (H _ (RMode en src r _ _ _ _ _ N Kl Z)) as [? [? [X _]]]. discriminate X.
      + destruct (N.lt_ge_cases (version_at i (r_lines r)) (min_version (mode_at i (r_lines r)) p)) as [Y|Y]; [|lia].
        destruct (H _ (RVersion en src r _ _ _ _ _ _ N Kl eq_refl Y)) as [? [? [X X']]]. injection X as <- <-. lia. }
  clear H. destruct (process_result en src r P) as [? [? [? [? [_ [_ [_ Q]]]]]]]. pose proof (ro_version _ _ _ _ _ _ _ Q) as Vr. pose proof (ro_listing _ _ _ _ _ _ _ Q) as Gr.
  assert (V1 : (0 < v < 2 ^ 64)%N).
  { split; [|lia]. assert (X : forall ls u, (0 < u)%N -> (0 < last_version u ls)%N).
    { induction ls as [|l ls IH]; intros u U; [exact U|]. cbn [last_version]. apply IH. unfold version_after. destruct (kind_of l); try exact U.
      unfold pragma_version. destruct args as [|a [|b c]]; try exact U. destruct (seqb _ _); [|exact U]. destruct (parse_uint b 0 64) as [y|]; [|exact U]. destruct (N.eqb_spec y 0); [exact U|lia]. }
    specialize (X (r_lines r) 1%N eq_refl). lia. }
  assert (Pv : forall w2, pragma_version (bs "version" :: dec v :: w2) = Some v).
  { intros w2. unfold pragma_version. change (seqb (bs "version") (bs "version")) with true. cbv iota. rewrite (parse_uint_dec v 64) by lia. destruct (N.eqb_spec v 0); [lia|reflexivity]. }
  destruct (updated en src ps r v L O P V1 No) as [ps' [raw' [L' [No' [Li' U]]]]].
  assert (G : all_fine en ModeApp 1 (map code_of raw') /\ last_version 1 (map code_of raw') = v /\ upgraded v (r_listing r) (all_entries en 1 (map code_of raw')) /\
    sound_program (all_entries en 1 (map code_of raw'))).
  { destruct U as [[A [l [B [A' [l' [B' [w2 [E [E' [SA [SB [Vl [Kl' N]]]]]]]]]]]]]|[l' [B' [E' [SB [Kl' N]]]]]].
    - rewrite E in Ne, Gr, Vr. apply nearly_app in Ne as [NA [[Sl Al] NB]].
      rewrite all_entries_app in Gr. cbn [all_entries] in Gr.
      destruct (version_token l) as [t|] eqn:Vt; [clear Vl|congruence].
      destruct (version_token_line l t Vt) as [op [a [w3 [El [Ea [Qt [To Vo]]]]]]].
      assert (Kl : kind_of l = LPragma (texts ([a] ++ t :: w3))) by (rewrite El; apply pragma_line; assumption).
      unfold statement in Sl. rewrite Kl in Sl. destruct Sl as [w Sl].
      assert (En : entries en (last_version 1 A) l = [PragmaExpr (w mod 256)]) by (unfold entries; rewrite Kl, Sl; reflexivity).
      assert (Va : forall u, version_after u l = w) by (intros u; unfold version_after; rewrite Kl, Sl; reflexivity).
      assert (Ma : forall u, mode_after u l = u) by (intros u; unfold mode_after; rewrite Kl; reflexivity).
      rewrite last_version_app in Vr. cbn [last_version] in Vr. rewrite Va, (no_versions B w N) in Vr.
      rewrite En, Va in Gr. rewrite Va, Ma in NB. cbn [app] in Gr.
      assert (OA : forall x, In x A -> is_op x = false).
      { intros y X. destruct (is_op y) eqn:Ox; [exfalso|reflexivity]. destruct (nearly_op en v A _ _ y NA X Ox) as [e [Ie Se]]. apply In_nth_error in Ie as [j J].
        assert (Lj : j < length (all_entries en 1 A)) by (apply nth_error_Some; congruence).
        rewrite Gr in So. destruct (io_pragma _ So (length (all_entries en 1 A)) j) as [X1 _].
        - exists (w mod 256)%N. rewrite nth_error_app2, Nat.sub_diag by lia. reflexivity.
        - exact Lj.
        - apply X1. exists e. rewrite nth_error_app1 by exact Lj. auto. }
      destruct (nearly_newer en v B N (last_mode ModeApp A) w ltac:(lia) NB) as [FB EB].
      assert (Va' : forall u, version_after u l' = v) by (intros u; unfold version_after; rewrite Kl', Pv; reflexivity).
      assert (Ma' : forall u, mode_after u l' = u) by (intros u; unfold mode_after; rewrite Kl'; reflexivity).
      assert (En' : forall u, entries en u l' = [PragmaExpr (v mod 256)]) by (intros u; unfold entries; rewrite Kl', Pv; reflexivity).
      assert (MM : forall C C', Forall2 same_texts C C' -> forall m, last_mode m C' = last_mode m C).
      { clear. induction 1 as [|c c' C C' H F IH]; intros m; [reflexivity|]. cbn [last_mode]. rewrite IH. unfold mode_after. rewrite (same_kind _ _ H). reflexivity. }
      destruct (same_all_entries en _ _ SA 1%N) as [EA VA]. destruct (same_all_entries en _ _ SB v) as [EB' VB].
      rewrite E'. rewrite last_version_app, all_entries_app. cbn [last_version all_entries app]. rewrite Va', En', <- EA, <- EB', EB, <- VB. cbn [app].
      split; [|split; [apply no_versions; exact N|split]].
      + apply all_fine_app. split; [apply (same_fine en _ _ SA); exact (nearly_fine en v A OA _ _ NA)|]. cbn [all_fine]. rewrite Va', Ma'. split.
        * split; [unfold statement; rewrite Kl'; exists v; apply Pv|]. intros p args K. rewrite Kl' in K. discriminate K.
        * apply (same_fine en _ _ SB). rewrite (MM _ _ SA). exact FB.
      + left. exists (all_entries en 1 A), (w mod 256)%N, (all_entries en w B). split; [exact Gr|reflexivity].
      + apply (alike_sound (r_listing r)); [|exact So]. rewrite Gr. apply Forall2_app; [clear; induction (all_entries en 1 A); constructor; [left; reflexivity|assumption]|].
        constructor; [right; eauto|]. clear. induction (all_entries en w B); constructor; [left; reflexivity|assumption].
    - rewrite (no_versions _ _ N) in Vr. destruct (nearly_newer en v _ N ModeApp 1%N ltac:(lia) Ne) as [FB EB].
      assert (Va' : forall u, version_after u l' = v) by (intros u; unfold version_after; rewrite Kl', Pv; reflexivity).
      assert (Ma' : forall u, mode_after u l' = u) by (intros u; unfold mode_after; rewrite Kl'; reflexivity).
      assert (En' : forall u, entries en u l' = [PragmaExpr (v mod 256)]) by (intros u; unfold entries; rewrite Kl', Pv; reflexivity).
      destruct (same_all_entries en _ _ SB v) as [EB' VB].
      pose proof (nearly_pragmas en v _ N _ _ Ne) as NP. rewrite <- Gr in NP.
      rewrite E'. cbn [all_fine last_version all_entries]. rewrite Va', Ma', En', <- EB', EB, <- VB, <- Gr. cbn [app].
      split; [|split; [apply no_versions; exact N|split]].
      + split; [|apply (same_fine en _ _ SB); exact FB]. split; [unfold statement; rewrite Kl'; exists v; apply Pv|]. intros p args K. rewrite Kl' in K. discriminate K.
      + right. split; [exact NP|reflexivity].
      + apply ahead_sound; assumption. }
  destruct G as [Fn [Vn [Un Sn]]]. destruct (layout 0 0 ps') as [ts' errs'] eqn:Y. cbn [fst] in Li'.
  assert (T' : tokenize (apply_edits (update_version r v) src) = Ret (ts', errs')) by (rewrite (tokenize_spec _ _ L'), Y; reflexivity).
  destruct (process_returns en _ _ _ _ T' Li') as [r' P']; [eapply fine_surplus; exact Fn|]. exists r'. split; [exact P'|].
  destruct (process_result en _ r' P') as [ts1 [errs1 [raw1 [lds1 [T1 [Li1 [_ R1]]]]]]].
  rewrite T' in T1. injection T1 as <- <-. pose proof (Lines_fun _ _ Li1 _ Li') as ->.
  rewrite (ro_version _ _ _ _ _ _ _ R1), (ro_listing _ _ _ _ _ _ _ R1), (ro_lines _ _ _ _ _ _ _ R1). split; [|split; [exact Vn|exact Un]].
  apply (proj2 (nothing_reported en _ r' P')). split; [|split].
  - intros qs w Lx. rewrite (RoundTripExact.Lexes_fun _ _ L' _ Lx) in No'. apply (No' w). apply in_or_app. right. left. reflexivity.
  - intros i l N. rewrite (ro_lines _ _ _ _ _ _ _ R1) in *. exact (proj1 (all_fine_nth en _ ModeApp 1%N) Fn i l N).
  - rewrite (ro_listing _ _ _ _ _ _ _ R1), (ro_lines _ _ _ _ _ _ _ R1). exact Sn.
Qed.
