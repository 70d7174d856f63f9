(* A subroutine put into a program that lacks nothing else. *)
From Verif Require Import Base Expr Linter DiagSpec DiagProofs InsertProofs.
From Verif Require Flow LintSpec.
From Coq Require Import Lia.

Section Sub.
Variables (l1 s l2 : listing) (name : str).
Let l := l1 ++ l2.
Let big := l1 ++ s ++ l2.
Let k := length l1.
Let n := length s.

(* the only thing wrong with the program is that the name is not defined; nothing branches to it *)
Hypothesis Hl : forall f, finding l f -> exists i, f = MissingLabelError i name.
Hypothesis Hu : Flow.used l name.
Hypothesis Hd : forall i, ~ Flow.defines l i name.
Hypothesis Hb : forall i, nth_error l i <> Some (BExpr name).
Hypothesis above : forall i, k <= i -> ~ LintSpec.pragma_at l i.
(* the block starts with the label, and holds instructions that name nothing and do not cut off what follows *)
Hypothesis top : nth_error s 0 = Some (LabelExpr name).
Hypothesis rest : forall i e, nth_error s (S i) = Some e -> ~ LintSpec.unconditional e /\ (forall m, ~ Flow.names e m) /\ (forall m, e <> LabelExpr m) /\ (forall v, e <> PragmaExpr v).

Let once : Flow.unique_labels l.
Proof. intros i j m A B. destruct (Nat.eq_dec j i) as [E|E]; [auto|]. destruct (Hl _ (FDuplicate l i j m A B E)) as [x X]; discriminate. Qed.
Let useds : forall i m, Flow.defines l i m -> Flow.used l m.
Proof. intros i m A. destruct (used_or_not l m) as [U|U]; [exact U|]. destruct (Hl _ (FUnused l i m A U)) as [x X]; discriminate. Qed.
Let defineds : forall i m, Flow.names_at l i m -> m = name \/ exists d, Flow.defines l d m.
Proof. intros i m A. destruct (defined_or_not l m) as [U|U]; [auto|]. destruct (Hl _ (FMissing l i m A U)) as [x X]. injection X as _ ->. auto. Qed.
Let alive : forall i, LintSpec.instruction_at l i -> ~ LintSpec.after_unconditional l i.
Proof. intros i A U. destruct (Hl _ (FUnreachable l i A U)) as [x X]; discriminate. Qed.
Let needed : forall i, ~ LintSpec.b_before_own_label l i.
Proof. intros i A. destruct (Hl _ (FBranch l i A)) as [x X]; discriminate. Qed.
Let leaves : forall i, ~ closed_loop l i.
Proof. intros i A. destruct (Hl _ (FLoop l i A)) as [x X]; discriminate. Qed.
Let pragmas : forall i j, LintSpec.pragma_at l i -> j < i -> ~ LintSpec.instruction_at l j /\ ~ LintSpec.pragma_at l j.
Proof. intros i j A L. split; intros Q; [destruct (Hl _ (FPragma l i j A L (or_introl Q))) as [x X]|destruct (Hl _ (FPragma l i j A L (or_intror Q))) as [x X]]; discriminate. Qed.

Let oldn : forall x, nth_error l x = nth_error big (if x <? k then x else x + n) := nth_old l1 s l2.
Let newn : forall x, x < n -> nth_error s x = nth_error big (k + x) := nth_new l1 s l2.
Let cases : forall i e, nth_error big i = Some e ->
  (i < k /\ nth_error l i = Some e) \/ (exists x, i = k + x /\ x < n /\ nth_error s x = Some e) \/
  (exists x, i = x + n /\ k <= x /\ nth_error l x = Some e) := nth_cases l1 s l2.
Let low : forall x, x < k -> nth_error big x = nth_error l x := old_low l1 s l2.
Let high : forall x, k <= x -> nth_error big (x + n) = nth_error l x := old_high l1 s l2.

Lemma sub_label x m : nth_error s x = Some (LabelExpr m) -> x = 0 /\ m = name.
Proof. destruct x as [|x]; [rewrite top; intros E; injection E as <-; auto|]. intros E. destruct (rest x _ E) as [_ [_ [X _]]]. destruct (X m eq_refl). Qed.
Lemma sub_names x e m : nth_error s x = Some e -> ~ Flow.names e m.
Proof. destruct x as [|x]; [rewrite top; intros E; injection E as <-; intros X; inversion X|]. intros E. apply (rest x e E). Qed.
Lemma sub_goes x e : nth_error s x = Some e -> ~ LintSpec.unconditional e.
Proof. destruct x as [|x]; [rewrite top; intros E; injection E as <-; intros X; inversion X|]. intros E. apply (rest x e E). Qed.
Lemma sub_here : 0 < n /\ nth_error big k = Some (LabelExpr name).
Proof.
  assert (L : 0 < n) by (apply nth_error_Some; rewrite top; discriminate). split; [exact L|].
  pose proof (newn 0 L) as X. rewrite top, Nat.add_0_r in X. symmetry. exact X.
Qed.
Lemma big_used m : Flow.used l m -> Flow.used big m.
Proof. intros [i [e [E H]]]. rewrite oldn in E. eexists. exists e. eauto. Qed.

Lemma sub_sound : sound_program big.
Proof.
  destruct sub_here as [NP Here]. pose proof (big_used name Hu) as UN.
  assert (Through : forall j i u, j < k -> k <= i -> nth_error big j = Some u -> ~ forall x m, j < x <= i -> Flow.defines big x m -> ~ Flow.used big m).
  { intros j i u J I _ H. apply (H k name); [lia|exact Here|exact UN]. }
  split.
  - intros i j m A B. unfold Flow.defines in A, B.
    apply cases in A as [[A A']|[[x [-> [A A']]]|[x [-> [A A']]]]]; apply cases in B as [[B B']|[[y [-> [B B']]]|[y [-> [B B']]]]];
      repeat match goal with H : nth_error s _ = Some (LabelExpr _) |- _ => apply sub_label in H; destruct H as [-> H]; try subst m end;
      try (exfalso; first [exact (Hd _ A')|exact (Hd _ B')]); try (pose proof (once _ _ _ A' B')); try lia.
  - intros i m A. unfold Flow.defines in A. apply cases in A as [[A A']|[[x [-> [A A']]]|[x [-> [A A']]]]].
    + apply big_used. exact (useds _ _ A').
    + apply sub_label in A' as [-> ->]. exact UN.
    + apply big_used. exact (useds _ _ A').
  - intros i m [e [A M]].
    assert (O : forall x, nth_error l x = Some e -> exists d, Flow.defines big d m).
    { intros x X. destruct (defineds x m) as [->|[d D]]; [exists e; auto|eauto|]. unfold Flow.defines in *. rewrite oldn in D. eauto. }
    apply cases in A as [[A A']|[[x [-> [A A']]]|[x [-> [A A']]]]]; [exact (O _ A')| |exact (O _ A')].
    destruct (sub_names _ _ _ A' M).
  - intros i [e [A Ne]] [j [u [J [U [Un No]]]]]. assert (U0 := U).
    apply cases in U as [[U U']|[[y [-> [U U']]]|[y [-> [U U']]]]].
    + destruct (Nat.lt_ge_cases i k) as [A0|A0]; [|exact (Through j i u U A0 U0 No)].
      apply cases in A as [[A A']|[[x [-> [A A']]]|[x [-> [A A']]]]]; [|lia|lia].
      apply (alive i); [exists e; auto|]. exists j, u. repeat (split; [assumption|]).
      intros x m X D Q. apply (No x m X); [|apply big_used; exact Q]. unfold Flow.defines in *. rewrite low by lia. exact D.
    + exact (sub_goes _ _ U' Un).
    + apply cases in A as [[A A']|[[x [-> [A A']]]|[x [-> [A A']]]]]; [lia|lia|].
      apply (alive x); [exists e; auto|]. exists y, u. split; [lia|]. repeat (split; [assumption|]).
      intros z m Z D Q. apply (No (z + n) m); [lia| |apply big_used; exact Q]. unfold Flow.defines in *. rewrite high by lia. exact D.
  - intros i [m [d [B [Id [D Mid]]]]]. unfold Flow.defines in D.
    apply cases in B as [[B B']|[[x [-> [B B']]]|[x [-> [B B']]]]]; apply cases in D as [[D D']|[[y [-> [D D']]]|[y [-> [D D']]]]]; try lia;
      try (eapply sub_names; [exact B'|constructor]).
    + apply (needed i). exists m, d. repeat (split; [assumption|]). intros z Z. destruct (Mid z Z) as [e [E H]]. exists e. rewrite low in E by lia. auto.
    + apply sub_label in D' as [-> ->]. exact (Hb _ B').
    + destruct (Mid k) as [e [E [_ Si]]]; [lia|]. rewrite Here in E. injection E as <-. exact (Si name eq_refl).
    + apply (needed x). exists m, y. split; [exact B'|]. split; [lia|]. split; [exact D'|].
      intros z Z. destruct (Mid (z + n)) as [e [E H]]; [lia|]. exists e. rewrite high in E by lia. auto.
  - intros i [j [m [B [Ji [D [Near Reg]]]]]]. unfold Flow.defines in D.
    assert (O : forall i0 j0 (f := fun x => if x <? k then x else x + n), i = f i0 -> j = f j0 ->
      nth_error l i0 = Some (BExpr m) -> nth_error l j0 = Some (LabelExpr m) -> False).
    { intros i0 j0 f Ei Ej Bi Dj.
      assert (Mono : forall x y, x < y <-> f x < f y).
      { intros x y. unfold f. cbv beta. destruct (Nat.ltb_spec x k), (Nat.ltb_spec y k); lia. }
      assert (MonoLe : forall x y, x <= y <-> f x <= f y) by (intros x y; pose proof (Mono y x); lia).
      assert (Old : forall x, nth_error big (f x) = nth_error l x) by (intros x; symmetry; apply oldn).
      apply (leaves i0). exists j0, m. split; [exact Bi|]. split; [apply (proj2 (Mono _ _)); lia|]. split; [exact Dj|]. split.
      - intros z [Z1 Z2] Dz. apply (Near (f z)); [split; [rewrite Ej; apply (proj1 (Mono _ _)); exact Z1|rewrite Ei; apply (proj1 (Mono _ _)); exact Z2]|].
        unfold Flow.defines in *. rewrite Old. exact Dz.
      - intros z e [Z1 Z2] Ez. destruct (Reg (f z) e) as [R1 [R2 [R3 R4]]]; [split; [rewrite Ej; apply (proj1 (MonoLe _ _)); exact Z1|rewrite Ei; apply (proj1 (MonoLe _ _)); exact Z2]|rewrite Old; exact Ez|].
        repeat (split; [assumption|]). intros a d Na Da. destruct (R4 a (f d) Na) as [Q1 Q2]; [unfold Flow.defines in *; rewrite Old; exact Da|].
        rewrite Ej in Q1. rewrite Ei in Q2. apply (proj2 (MonoLe _ _)) in Q1; apply (proj2 (MonoLe _ _)) in Q2. auto. }
    assert (lw : forall x, x < k -> x = if x <? k then x else x + n) by (intros x X; apply Nat.ltb_lt in X; rewrite X; reflexivity).
    assert (hg : forall x, k <= x -> x + n = if x <? k then x else x + n) by (intros x X; apply Nat.ltb_ge in X; rewrite X; reflexivity).
    apply cases in B as [[B B']|[[x [-> [B B']]]|[x [-> [B B']]]]]; try (eapply sub_names; [exact B'|constructor]);
      apply cases in D as [[D D']|[[y [-> [D D']]]|[y [-> [D D']]]]]; try lia.
    + apply (O i j); auto.
    + apply (O x j); auto.
    + apply sub_label in D' as [-> ->]. exact (Hb _ B').
    + apply (O x y); auto.
  - intros i j [v P] J. apply cases in P as [[P P']|[[x [-> [P P']]]|[x [-> [P P']]]]].
    + destruct (pragmas i j) as [X Y]; [exists v; exact P'|exact J|]. split.
      * intros [e [E H]]. apply X. exists e. rewrite low in E by lia. auto.
      * intros [w E]. apply Y. exists w. rewrite low in E by lia. exact E.
    + destruct x as [|x]; [rewrite top in P'; discriminate|]. destruct (rest x _ P') as [_ [_ [_ X]]]. destruct (X v eq_refl).
    + destruct (above x); [exact P|]. exists v. exact P'.
Qed.
End Sub.
