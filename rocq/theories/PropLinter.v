(* Properties C14-C21: the lint rules.  Statements only; the vocabulary is in Flow.v and
   LintSpec.v, the proofs are in LinterProofs.v and LinterThms.v. *)
From Verif Require Import Base Expr Linter Flow LintSpec LinterThms.

(* a program used in the examples: a loop, an unused label, dead code *)
Definition sample : listing :=
  [PragmaExpr 8; IntExpr 1; BnzExpr (bs "go"); BExpr (bs "go"); LabelExpr (bs "go");
   BExpr (bs "end"); Op0 PlusExpr; LabelExpr (bs "dead"); ErrExpr; LabelExpr (bs "end");
   PragmaExpr 8; CallSubExpr (bs "nowhere"); ReturnExpr].

(* C14 *)
Theorem C14_duplicate_labels : forall l i n,
  In (DuplicateLabelError i n) (lint l) <->
  defines l i n /\ exists j, j <> i /\ defines l j n.
Proof. exact c14. Qed.
Print Assumptions C14_duplicate_labels.

Theorem C14_reported_once : forall l, NoDup (filter is_duplicate_report (lint l)).
Proof. exact c14_once. Qed.
Print Assumptions C14_reported_once.

Example C14_nonvacuous :
  filter is_duplicate_report
    (lint [LabelExpr (bs "a"); LabelExpr (bs "b"); LabelExpr (bs "a"); BExpr (bs "b")]) =
  [DuplicateLabelError 0 (bs "a"); DuplicateLabelError 2 (bs "a")].
Proof. vm_compute. reflexivity. Qed.

(* C15 *)
Theorem C15_unused_labels : forall l i n,
  In (UnusedLabelError i n) (lint l) <-> defines l i n /\ ~ used l n.
Proof. exact c15. Qed.
Print Assumptions C15_unused_labels.

Theorem C15_redundant_labels : forall l i n,
  In (RedundantLabelLine i n) (lint_redundant l) <-> In (UnusedLabelError i n) (lint l).
Proof. exact c15_redundant. Qed.
Print Assumptions C15_redundant_labels.

Theorem C15_reported_once : forall l, NoDup (filter is_unused_report (lint l)).
Proof. exact c15_once. Qed.
Print Assumptions C15_reported_once.

Example C15_nonvacuous :
  filter is_unused_report (lint sample) = [UnusedLabelError 7 (bs "dead")] /\
  lint_redundant sample = [RedundantLabelLine 7 (bs "dead"); RedundantBLine 3].
Proof. vm_compute. auto. Qed.

(* C16 *)
Theorem C16_unreachable_is_unreachable : forall l i,
  In (UnreachableCodeError i) (lint l) -> ~ reachable l i.
Proof. exact c16. Qed.
Print Assumptions C16_unreachable_is_unreachable.

(* C17 *)
Theorem C17_unreachable_exact : forall l i,
  In (UnreachableCodeError i) (lint l) <-> instruction_at l i /\ after_unconditional l i.
Proof. exact c17. Qed.
Print Assumptions C17_unreachable_exact.

Example C16_C17_nonvacuous :
  In (UnreachableCodeError 6) (lint sample) /\ In (UnreachableCodeError 8) (lint sample) /\
  reachable sample 11.
Proof.
  split; [vm_compute; tauto|]. split; [vm_compute; tauto|].
  exists [(IntExpr 1, 0); (BnzExpr (bs "go"), 1)], [].
  eapply run_quiet; [eapply F_silent; [reflexivity|constructor]|].
  eapply run_event; [eapply F_plain; [reflexivity|exact I]|].
  eapply run_event; [eapply F_cond_taken; [reflexivity|constructor|apply (goto_def _ _ _ 4); reflexivity]|].
  eapply run_quiet; [eapply F_silent; [reflexivity|constructor]|].
  eapply run_quiet; [eapply F_b; [reflexivity|apply (goto_def _ _ _ 9); reflexivity]|].
  eapply run_quiet; [eapply F_silent; [reflexivity|constructor]|].
  eapply run_quiet; [eapply F_silent; [reflexivity|constructor]|].
  apply run_refl.
Qed.

(* C18 *)
Theorem C18_redundant_branch_exact : forall l i,
  In (BJustBeforeLabelError i) (lint l) <-> b_before_own_label l i.
Proof. exact c18_exact. Qed.
Print Assumptions C18_redundant_branch_exact.

Theorem C18_redundant_branch_safe : forall l i,
  unique_labels l -> In (BJustBeforeLabelError i) (lint l) -> same_behaviour l (delete_line i l).
Proof. exact c18_line. Qed.
Print Assumptions C18_redundant_branch_safe.

(* applying every "remove" fix the linter offers, labels and branches, at once *)
Theorem C18_all_redundant_lines_safe : forall l,
  unique_labels l -> same_behaviour l (delete_lines (map red_line (lint_redundant l)) l).
Proof. exact c18_all. Qed.
Print Assumptions C18_all_redundant_lines_safe.

Example C18_nonvacuous :
  unique_labels sample /\ In (BJustBeforeLabelError 3) (lint sample) /\
  length (delete_lines (map red_line (lint_redundant sample)) sample) = 11.
Proof.
  split; [apply unique_labels_b_sound; reflexivity|]. vm_compute. tauto.
Qed.

(* without unique labels the b may have meant another definition *)
Theorem C18_duplicate_labels_refuted : exists l i,
  In (BJustBeforeLabelError i) (lint l) /\ ~ same_behaviour l (delete_line i l).
Proof.
  exists [BExpr (bs "x"); LabelExpr (bs "x"); ErrExpr; LabelExpr (bs "x"); ReturnExpr], 0.
  split; [vm_compute; tauto|]. intros H. specialize (H [(ReturnExpr, 0)]) as [[H _] _].
  assert (M : may_do [BExpr (bs "x"); LabelExpr (bs "x"); ErrExpr; LabelExpr (bs "x"); ReturnExpr] [(ReturnExpr, 0)]).
  { exists Halted.
    eapply run_quiet; [eapply F_b; [reflexivity|apply (goto_def _ _ _ 3); reflexivity]|].
    eapply run_quiet; [eapply F_silent; [reflexivity|constructor]|].
    eapply run_event; [eapply F_return; reflexivity|]. apply run_refl. }
  apply H in M. apply (may_do_line _ _ (ReturnExpr, 0)) in M as (i & Hr & Hi); [|left; reflexivity].
  revert Hr. apply c16.
  assert (i = 3).
  { do 4 (destruct i as [|i]; [cbn in Hi; try discriminate; try reflexivity|]).
    cbn in Hi. destruct i; discriminate. }
  subst i. vm_compute. tauto.
Qed.
Print Assumptions C18_duplicate_labels_refuted.

(* C19 *)
Theorem C19_missing_labels : forall l i n,
  In (MissingLabelError i n) (lint l) <-> names_at l i n /\ forall k, ~ defines l k n.
Proof. exact c19. Qed.
Print Assumptions C19_missing_labels.

Example C19_nonvacuous : In (MissingLabelError 11 (bs "nowhere")) (lint sample).
Proof. vm_compute. tauto. Qed.

(* C20: the region from the label to the b is never left, except that the program fails at a
   label that is itself reported as missing *)
Theorem C20_infinite_loop : forall l i, In (InfiniteLoopError i) (lint l) ->
  exists j n, nth_error l i = Some (BExpr n) /\ j < i /\ defines l j n /\
    forall pc ks tr c, j <= pc <= i -> run l (At pc ks) tr c ->
      (exists pc' ks', c = At pc' ks' /\ j <= pc' <= i) \/
      (c = Halted /\ exists m n', j <= m <= i /\ In (MissingLabelError m n') (lint l)).
Proof. exact c20. Qed.
Print Assumptions C20_infinite_loop.

Example C20_nonvacuous :
  In (InfiniteLoopError 5)
     (lint [IntExpr 1; LabelExpr (bs "a"); IntExpr 1; BzExpr (bs "a"); CallSubExpr (bs "a"); BExpr (bs "a")]).
Proof. vm_compute. tauto. Qed.

(* C21 *)
Theorem C21_pragma_placement : forall l i,
  In (PragmaVersionAfterInstrError i) (lint l) <->
  pragma_at l i /\ exists j, j < i /\ (instruction_at l j \/ pragma_at l j).
Proof. exact c21. Qed.
Print Assumptions C21_pragma_placement.

Example C21_nonvacuous :
  In (PragmaVersionAfterInstrError 10) (lint sample) /\ ~ In (PragmaVersionAfterInstrError 0) (lint sample).
Proof.
  split; [vm_compute; tauto|]. rewrite C21_pragma_placement. intros (_ & j & Hj & _). lia.
Qed.
