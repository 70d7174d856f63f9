(* A block of code put between two lines of a program in which nothing is wrong. *)
From Verif Require Import Base Expr DiagSpec.
From Verif Require Flow LintSpec.
From Coq Require Import Lia.

Section Insert.
Variables (l1 s l2 : listing).
Let l := l1 ++ l2.
Let big := l1 ++ s ++ l2.
Let k := length l1.
Let n := length s.

Lemma nth_old x : nth_error l x = nth_error big (if x <? k then x else x + n).
Proof.
  unfold l, big, k, n. destruct (x <? length l1) eqn:X; [apply Nat.ltb_lt in X|apply Nat.ltb_ge in X].
  - rewrite !nth_error_app1 by exact X. reflexivity.
  - rewrite !nth_error_app2 by lia. f_equal. lia.
Qed.
Lemma nth_new x : x < n -> nth_error s x = nth_error big (k + x).
Proof.
  unfold n, big, k. intros H. rewrite nth_error_app2 by lia. rewrite nth_error_app1 by lia. f_equal. lia.
Qed.
Lemma nth_cases i e : nth_error big i = Some e ->
  (i < k /\ nth_error l i = Some e) \/ (exists x, i = k + x /\ x < n /\ nth_error s x = Some e) \/
  (exists x, i = x + n /\ k <= x /\ nth_error l x = Some e).
Proof.
  intros H. destruct (Nat.lt_ge_cases i k) as [A|A].
  - left. split; [exact A|]. rewrite nth_old. apply Nat.ltb_lt in A. rewrite A. exact H.
  - destruct (Nat.lt_ge_cases i (k + n)) as [B|B].
    + right. left. exists (i - k). split; [lia|]. split; [lia|]. rewrite nth_new by lia. rewrite <- H. f_equal. lia.
    + right. right. exists (i - n). split; [lia|]. split; [lia|]. rewrite nth_old.
      assert (E : (i - n <? k) = false) by (apply Nat.ltb_ge; lia). rewrite E, <- H. f_equal. lia.
Qed.
Lemma old_low x : x < k -> nth_error big x = nth_error l x.
Proof. intros H. rewrite (nth_old x). apply Nat.ltb_lt in H. rewrite H. reflexivity. Qed.
Lemma old_high x : k <= x -> nth_error big (x + n) = nth_error l x.
Proof. intros H. rewrite (nth_old x). apply Nat.ltb_ge in H. rewrite H. reflexivity. Qed.

(* the block is in order by itself, has no name in common with the program, starts with an instruction
   and does not cut off what comes behind it *)
Hypothesis Hs : sound_program s.
Hypothesis Hl : sound_program l.
Hypothesis fresh : forall m, Flow.used s m \/ (exists i, Flow.defines s i m) -> ~ Flow.used l m /\ forall i, ~ Flow.defines l i m.
Hypothesis first : exists e, nth_error s 0 = Some e /\ ~ Flow.silent e.
Hypothesis through : ~ LintSpec.after_unconditional s n.
Hypothesis plain_block : forall i, ~ LintSpec.pragma_at s i.
(* the program gets to the place, and its pragma is above it *)
Hypothesis reached : ~ exists j e, j < k /\ nth_error l j = Some e /\ LintSpec.unconditional e /\
  forall x m, j < x < k -> Flow.defines l x m -> ~ Flow.used l m.
Hypothesis above : forall i, k <= i -> ~ LintSpec.pragma_at l i.

Lemma n_pos : 0 < n.
Proof. destruct first as [e [E _]]. unfold n. destruct s; [discriminate|cbn; lia]. Qed.

Lemma used_old m : Flow.used l m -> Flow.used big m.
Proof. intros [i [e [E H]]]. rewrite nth_old in E. eexists. exists e. eauto. Qed.
Lemma used_new m : Flow.used s m -> Flow.used big m.
Proof.
  intros [i [e [E H]]]. exists (k + i), e. rewrite <- nth_new; [auto|]. apply nth_error_Some. congruence.
Qed.

Lemma insert_sound : sound_program big.
Proof.
  pose proof n_pos as NP. destruct first as [e0 [E0 N0]].
  assert (FD : forall i j m, Flow.defines l i m -> Flow.defines s j m -> False) by (intros i j m A B; destruct (fresh m) as [_ X]; [right; eauto|exact (X i A)]).
  assert (FU : forall j m, Flow.used l m -> Flow.defines s j m -> False) by (intros j m A B; destruct (fresh m) as [X _]; [right; eauto|exact (X A)]).
  assert (FV : forall i m, Flow.defines l i m -> Flow.used s m -> False) by (intros i m A B; destruct (fresh m) as [_ X]; [left; exact B|exact (X i A)]).
  split.
  - intros i j m A B. unfold Flow.defines in A, B.
    apply nth_cases in A as [[A A']|[[x [-> [A A']]]|[x [-> [A A']]]]]; apply nth_cases in B as [[B B']|[[y [-> [B B']]]|[y [-> [B B']]]]];
      try (exfalso; eapply FD; [exact A'|exact B']); try (exfalso; eapply FD; [exact B'|exact A']);
      try (pose proof (io_once _ Hl _ _ _ A' B')); try (pose proof (io_once _ Hs _ _ _ A' B')); lia.
  - intros i m A. unfold Flow.defines in A. apply nth_cases in A as [[A A']|[[x [-> [A A']]]|[x [-> [A A']]]]].
    + apply used_old. exact (io_used _ Hl _ _ A').
    + apply used_new. exact (io_used _ Hs _ _ A').
    + apply used_old. exact (io_used _ Hl _ _ A').
  - intros i m [e [A M]].
    assert (O : forall x, nth_error l x = Some e -> exists d, Flow.defines big d m).
    { intros x X. destruct (io_defined _ Hl x m) as [d D]; [exists e; auto|]. unfold Flow.defines in *. rewrite nth_old in D. eauto. }
    apply nth_cases in A as [[A A']|[[x [-> [A A']]]|[x [-> [A A']]]]]; [exact (O _ A')| |exact (O _ A')].
    destruct (io_defined _ Hs x m) as [d D]; [exists e; auto|]. exists (k + d). unfold Flow.defines in *. rewrite <- nth_new; [exact D|]. apply nth_error_Some. congruence.
  - intros i [e [A Ne]] [j [u [J [U [Un No]]]]].
    (* both in the program, on the same side *)
    apply nth_cases in U as [[U U']|[[y [-> [U U']]]|[y [-> [U U']]]]].
    + assert (A0 : i < k \/ k <= i) by lia. destruct A0 as [A0|A0].
      * apply nth_cases in A as [[A A']|[[x [-> [A A']]]|[x [-> [A A']]]]]; [|lia|lia].
        apply (io_alive _ Hl i); [exists e; auto|]. exists j, u. repeat (split; [assumption|]).
        intros x m X D Q. apply (No x m X); [|apply used_old; exact Q]. unfold Flow.defines in *. rewrite old_low by lia. exact D.
      * apply reached. exists j, u. repeat (split; [assumption|]). intros x m X D Q. apply (No x m); [lia| |apply used_old; exact Q].
        unfold Flow.defines in *. rewrite old_low by lia. exact D.
    + apply nth_cases in A as [[A A']|[[x [-> [A A']]]|[x [-> [A A']]]]]; [lia| |].
      * apply (io_alive _ Hs x); [exists e; auto|]. exists y, u. split; [lia|]. repeat (split; [assumption|]).
        intros z m Z D Q. apply (No (k + z) m); [lia| |apply used_new; exact Q]. unfold Flow.defines in *. rewrite <- nth_new by lia. exact D.
      * apply through. exists y, u. split; [lia|]. repeat (split; [assumption|]).
        intros z m Z D Q. assert (z < n) by (apply nth_error_Some; unfold Flow.defines in D; congruence).
        apply (No (k + z) m); [lia| |apply used_new; exact Q]. unfold Flow.defines in *. rewrite <- nth_new by lia. exact D.
    + apply nth_cases in A as [[A A']|[[x [-> [A A']]]|[x [-> [A A']]]]]; [lia|lia|].
      apply (io_alive _ Hl x); [exists e; auto|]. exists y, u. split; [lia|]. repeat (split; [assumption|]).
      intros z m Z D Q. apply (No (z + n) m); [lia| |apply used_old; exact Q]. unfold Flow.defines in *. rewrite old_high by lia. exact D.
  - intros i [m [d [B [Id [D Mid]]]]]. unfold Flow.defines in D.
    apply nth_cases in B as [[B B']|[[x [-> [B B']]]|[x [-> [B B']]]]]; apply nth_cases in D as [[D D']|[[y [-> [D D']]]|[y [-> [D D']]]]]; try lia.
    + apply (io_needed _ Hl i). exists m, d. repeat (split; [assumption|]). intros z Z. destruct (Mid z Z) as [e [E H]]. exists e. rewrite old_low in E by lia. auto.
    + eapply FU; [|exact D']. exists i, (BExpr m). split; [exact B'|constructor].
    + destruct (Mid (k + 0)) as [e [E [Si _]]]; [lia|]. rewrite <- nth_new in E by lia. rewrite E0 in E. injection E as <-. exact (N0 Si).
    + apply (io_needed _ Hs x). exists m, y. split; [exact B'|]. split; [lia|]. split; [exact D'|].
      intros z Z. destruct (Mid (k + z)) as [e [E H]]; [lia|]. exists e. rewrite <- nth_new in E by lia. auto.
    + eapply FV; [exact D'|]. exists x, (BExpr m). split; [exact B'|constructor].
    + apply (io_needed _ Hl x). exists m, y. split; [exact B'|]. split; [lia|]. split; [exact D'|].
      intros z Z. destruct (Mid (z + n)) as [e [E H]]; [lia|]. exists e. rewrite old_high in E by lia. auto.
  - intros i [j [m [B [Ji [D [Near Reg]]]]]]. unfold Flow.defines in D.
    assert (O : forall i0 j0 (f := fun x => if x <? k then x else x + n), i = f i0 -> j = f j0 ->
      nth_error l i0 = Some (BExpr m) -> nth_error l j0 = Some (LabelExpr m) -> False).
    { intros i0 j0 f Ei Ej Bi Dj.
      assert (Mono : forall x y, x < y <-> f x < f y).
      { intros x y. unfold f. cbv beta. destruct (Nat.ltb_spec x k), (Nat.ltb_spec y k); lia. }
      assert (Same : forall x y, f x = f y -> x = y) by (intros x y Q; destruct (Nat.lt_trichotomy x y) as [H|[H|H]]; [apply Mono in H; lia|exact H|apply Mono in H; lia]).
      assert (MonoLe : forall x y, x <= y <-> f x <= f y) by (intros x y; pose proof (Mono y x); lia).
      assert (Old : forall x, nth_error big (f x) = nth_error l x) by (intros x; symmetry; apply nth_old).
      apply (io_leaves _ Hl i0). exists j0, m. split; [exact Bi|]. split; [apply (proj2 (Mono _ _)); lia|]. split; [exact Dj|]. split.
      - intros z [Z1 Z2] Dz. apply (Near (f z)); [split; [rewrite Ej; apply (proj1 (Mono _ _)); exact Z1|rewrite Ei; apply (proj1 (Mono _ _)); exact Z2]|].
        unfold Flow.defines in *. rewrite Old. exact Dz.
      - intros z e [Z1 Z2] Ez. destruct (Reg (f z) e) as [R1 [R2 [R3 R4]]]; [split; [rewrite Ej; apply (proj1 (MonoLe _ _)); exact Z1|rewrite Ei; apply (proj1 (MonoLe _ _)); exact Z2]|rewrite Old; exact Ez|].
        repeat (split; [assumption|]). intros a d Na Da. destruct (R4 a (f d) Na) as [Q1 Q2]; [unfold Flow.defines in *; rewrite Old; exact Da|].
        rewrite Ej in Q1. rewrite Ei in Q2. apply (proj2 (MonoLe _ _)) in Q1; apply (proj2 (MonoLe _ _)) in Q2. auto. }
    assert (low : forall x, x < k -> x = if x <? k then x else x + n) by (intros x X; apply Nat.ltb_lt in X; rewrite X; reflexivity).
    assert (high : forall x, k <= x -> x + n = if x <? k then x else x + n) by (intros x X; apply Nat.ltb_ge in X; rewrite X; reflexivity).
    apply nth_cases in B as [[B B']|[[x [-> [B B']]]|[x [-> [B B']]]]]; apply nth_cases in D as [[D D']|[[y [-> [D D']]]|[y [-> [D D']]]]]; try lia.
    + apply (O i j); auto.
    + eapply FV; [exact D'|]. exists x, (BExpr m). split; [exact B'|constructor].
    + apply (io_leaves _ Hs x). exists y, m. split; [exact B'|]. split; [lia|]. split; [exact D'|]. split.
      * intros z Z Dz. apply (Near (k + z)); [lia|]. unfold Flow.defines in *. rewrite <- nth_new by lia. exact Dz.
      * intros z e Z Ez. destruct (Reg (k + z) e) as [R1 [R2 [R3 R4]]]; [lia|rewrite <- nth_new by lia; exact Ez|].
        repeat (split; [assumption|]). intros a d Na Da. assert (d < n) by (apply nth_error_Some; unfold Flow.defines in Da; congruence).
        destruct (R4 a (k + d) Na) as [Q1 Q2]; [unfold Flow.defines in *; rewrite <- nth_new by lia; exact Da|]. lia.
    + apply (O x j); auto.
    + eapply FU; [|exact D']. exists x, (BExpr m). split; [exact B'|constructor].
    + apply (O x y); auto.
  - intros i j [v P] J. apply nth_cases in P as [[P P']|[[x [-> [P P']]]|[x [-> [P P']]]]].
    + destruct (io_pragma _ Hl i j) as [X Y]; [exists v; exact P'|exact J|]. split.
      * intros [e [E H]]. apply X. exists e. rewrite old_low in E by lia. auto.
      * intros [w E]. apply Y. exists w. rewrite old_low in E by lia. exact E.
    + destruct (plain_block x). exists v. exact P'.
    + destruct (above x); [exact P|]. exists v. exact P'.
Qed.
End Insert.
