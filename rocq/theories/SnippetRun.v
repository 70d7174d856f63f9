(* Running the code of the snippets. *)
From Verif Require Import Base LexSpec Expr Linter Fields VmOps Vm VmSpec LangSpec RealSpec SnippetSpec SnippetProofs.
From Verif Require Flow LintSpec.
From Coq Require Import Lia.

Section Run.
Variables (w : world) (c : soc_choice) (l1 l2 : listing).
Let l := l1 ++ soc_listing c ++ l2.
Let k := length l1.
Hypothesis once : Flow.unique_labels l.

Lemma in_block i e : nth_error (soc_listing c) i = Some e -> nth_error l (k + i) = Some e.
Proof.
  intros H. unfold l, k. rewrite nth_error_app2 by lia. replace (length l1 + i - length l1) with i by lia. rewrite nth_error_app1; [exact H|].
  apply nth_error_Some. congruence.
Qed.
Lemma block_target i n j : nth_error (soc_listing c) i = Some (LabelExpr n) -> (target l n (Some j) <-> j = k + i).
Proof.
  intros H. apply in_block in H. split.
  - intros [A _]. exact (once j (k + i) n A H).
  - intros ->. split; [exact H|]. intros x L X. pose proof (once x (k + i) n X H). lia.
Qed.

Lemma soc_read n s cs m st : lawful w -> call_kind w n ->
  (instruction w l (TxnExpr on_completion) (Real k s cs m) st <-> st = Real (S k) (CInt n :: s) cs m).
Proof.
  intros La W. split.
  - intros H. inversion H; subst; try discriminate.
    match goal with X : w_op _ _ args _ |- _ => destruct (La _ _ _ X) as [a [r [E [A _]]]]; cbn in E; injection E as <- <-; inversion A; subst; apply W in X; subst res end.
    reflexivity.
  - intros ->. apply (i_world w l (TxnExpr on_completion) k [] [CInt n] s cs m); [reflexivity|]. apply W. reflexivity.
Qed.
Lemma steps_two st st2 e : nth_error l (c_line st) = Some e ->
  (steps w l 2 st st2 <-> exists st1 e1, instruction w l e st st1 /\ nth_error l (c_line st1) = Some e1 /\ instruction w l e1 st1 st2).
Proof.
  intros H. split.
  - intros S. inversion S as [|? ? s1 ? ? N I S1]; subst. inversion S1 as [|? ? s2 ? ? N1 I1 S2]; subst. inversion S2; subst.
    rewrite H in N. injection N as <-. eauto.
  - intros [st1 [e1 [I [N I1]]]]. econstructor; [exact H|exact I|]. econstructor; [exact N|exact I1|]. constructor.
Qed.
Lemma no_world e args res : lawful w -> lang_spec e = None -> ~ w_op w e args res.
Proof. intros La N H. destruct (La _ _ _ H) as [a [r [E _]]]. congruence. Qed.
Lemma nop_step e i s cs m st : lawful w -> (exists n, e = LabelExpr n) \/ e = EmptyExpr ->
  (instruction w l e (Real i s cs m) st <-> st = Real (S i) s cs m).
Proof.
  intros La K. split.
  - intros H. inversion H; subst; destruct K as [[? K]|K]; try discriminate; subst; try discriminate; try reflexivity;
    match goal with X : w_op _ _ _ _ |- _ => exfalso; eapply no_world; [exact La| |exact X]; reflexivity end.
  - intros ->. apply i_nop. destruct K as [[? ->]| ->]; reflexivity.
Qed.
Lemma b_step i j n s cs m st : lawful w -> nth_error (soc_listing c) j = Some (LabelExpr n) ->
  (instruction w l (BExpr n) (Real i s cs m) st <-> st = Real (k + j) s cs m).
Proof.
  intros La T. split.
  - intros H. inversion H; subst; try discriminate.
    + match goal with X : w_op _ _ _ _ |- _ => exfalso; eapply no_world; [exact La| |exact X]; reflexivity end.
    + match goal with X : target _ _ _ |- _ => apply (block_target _ _ _ T) in X; subst end. reflexivity.
  - intros ->. apply i_b. apply (block_target _ _ _ T). reflexivity.
Qed.
Lemma switch_step i ns n t j s cs m st : lawful w -> nth_error ns (N.to_nat n) = Some t -> nth_error (soc_listing c) j = Some (LabelExpr t) ->
  (instruction w l (SwitchExpr ns) (Real i (CInt n :: s) cs m) st <-> st = Real (k + j) s cs m).
Proof.
  intros La E T. split.
  - intros H. inversion H; subst; try discriminate.
    + match goal with X : w_op _ _ _ _ |- _ => exfalso; eapply no_world; [exact La| |exact X]; reflexivity end.
    + match goal with X : nth_error ns _ = Some ?u, Y : target _ _ _ |- _ => rewrite E in X; injection X as <-; apply (block_target _ _ _ T) in Y; subst end. reflexivity.
    + assert (N.to_nat n < length ns) by (apply nth_error_Some; congruence). lia.
  - intros ->. eapply i_switch_taken; [exact E|]. apply (block_target _ _ _ T). reflexivity.
Qed.

Lemma call_line n t : nth_error (soc_calls c) n = Some t -> nth_error (soc_listing c) (2 + 3 * n) = Some (LabelExpr t).
Proof. do 6 (destruct n as [|n]; [exact (fun H => f_equal (option_map LabelExpr) H)|]). destruct n; discriminate. Qed.

(* the two instructions at the top go to the code for the kind of the call *)
Lemma soc_dispatch n t s cs m st : lawful w -> call_kind w n -> nth_error (soc_calls c) (N.to_nat n) = Some t ->
  (steps w l 2 (Real k s cs m) st <-> st = Real (k + (2 + 3 * N.to_nat n)) s cs m).
Proof.
  intros La W T. rewrite (steps_two _ _ (TxnExpr on_completion)); [|cbn [c_line]; rewrite <- (Nat.add_0_r k); apply in_block; reflexivity].
  assert (N1 : nth_error l (S k) = Some (SwitchExpr (soc_calls c))) by (replace (S k) with (k + 1) by lia; apply in_block; reflexivity).
  pose proof (call_line _ _ T) as C. split.
  - intros [st1 [e1 [A [B D]]]]. apply soc_read with (n := n) in A; [|exact La|exact W]. subst st1. cbn [c_line] in B.
    rewrite N1 in B. injection B as <-. exact (proj1 (switch_step _ _ _ _ _ _ _ _ _ La T C) D).
  - intros ->. exists (Real (S k) (CInt n :: s) cs m), (SwitchExpr (soc_calls c)). split; [apply (proj2 (soc_read n s cs m _ La W)); reflexivity|]. split; [exact N1|].
    apply (proj2 (switch_step _ _ _ _ _ _ _ _ _ La T C)). reflexivity.
Qed.
(* the code for each kind of call goes on at the end of the skeleton *)
Lemma soc_join n s cs m st : lawful w -> n < 6 ->
  (steps w l 2 (Real (k + (2 + 3 * n)) s cs m) st <-> st = Real (k + 19) s cs m).
Proof.
  intros La L. assert (H : exists t, nth_error (soc_calls c) n = Some t).
  { destruct (nth_error (soc_calls c) n) eqn:E; [eauto|]. apply nth_error_None in E. cbn in E. lia. }
  destruct H as [t T]. pose proof (call_line _ _ T) as C. rewrite (steps_two _ _ (LabelExpr t)) by (apply in_block; exact C).
  assert (H : exists e, nth_error (soc_listing c) (2 + 3 * n + 1) = Some e /\
    forall s cs m st, instruction w l e (Real (S (k + (2 + 3 * n))) s cs m) st <-> st = Real (k + 19) s cs m).
  { clear C T. assert (n = 5 \/ n < 5) as [->|L5] by lia.
    - exists EmptyExpr. split; [reflexivity|]. intros. rewrite nop_step by auto. replace (S (k + (2 + 3 * 5)) + 1) with (k + 19) by lia.
      replace (S (S (k + (2 + 3 * 5)))) with (k + 19) by lia. reflexivity.
    - exists (BExpr (sc_then c)). split; [do 5 (destruct n as [|n]; [reflexivity|]); lia|]. intros. apply b_step; [exact La|reflexivity]. }
  destruct H as [e [E H]]. apply in_block in E. replace (k + (2 + 3 * n + 1)) with (S (k + (2 + 3 * n))) in E by lia. split.
  - intros [st1 [e1 [A [B D]]]]. apply nop_step in A; [|exact La|eauto]. subst st1. cbn [c_line] in B. rewrite E in B. injection B as <-. exact (proj1 (H _ _ _ _) D).
  - intros ->. exists (Real (S (k + (2 + 3 * n))) s cs m), e. split; [apply (proj2 (nop_step (LabelExpr t) _ s cs m _ La (or_introl (ex_intro _ t eq_refl)))); reflexivity|]. split; [exact E|]. apply (proj2 (H _ _ _ _)). reflexivity.
Qed.
End Run.
