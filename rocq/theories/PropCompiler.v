(* Properties C22-C25: the optimizer and Compile.  Statements only; vocabulary in Flow.v and
   CompilerSpec.v, proofs in CompilerProofs.v. *)
From Verif Require Import Base Expr Linter Compiler Flow LintSpec FlowProofs CompilerSpec CompilerProofs LinterThms CompilerFix OptimizeExact.

(* C22, full statement: forall l, unique_labels l -> same_behaviour l (optimize l).
   It is false: the first pass drops a retsub that does not stand directly below a used
   label, that is the retsub of practically every subroutine. *)
Definition subroutine : listing :=
  [CallSubExpr (bs "f"); ReturnExpr; LabelExpr (bs "f"); IntExpr 1; RetSubExpr].

Theorem C22_refuted : exists l,
  unique_labels l /\ lint l = [] /\ ~ same_behaviour l (optimize l).
Proof.
  exists subroutine. split; [apply unique_labels_b_sound; reflexivity|].
  split; [reflexivity|]. intros H.
  specialize (H [(CallSubExpr (bs "f"), 0); (IntExpr 1, 0); (RetSubExpr, 0)]) as [[H _] _].
  destruct H as [c Hc].
  { eexists.
    eapply run_event; [eapply F_callsub; [reflexivity|apply (goto_def _ _ _ 2); reflexivity]|].
    eapply run_quiet; [eapply F_silent; [reflexivity|constructor]|].
    eapply run_event; [eapply F_plain; [reflexivity|exact I]|].
    eapply run_event; [eapply F_retsub; reflexivity|]. apply run_refl. }
  apply (run_events _ _ _ _ (RetSubExpr, 0)) in Hc; [|right; right; left; reflexivity].
  vm_compute in Hc. repeat (destruct Hc as [Hc|Hc]; [discriminate|]). exact Hc.
Qed.
Print Assumptions C22_refuted.

(* C22, the part that holds: programs in which every retsub that is executed stands directly below a
   used label, or is executed in a subroutine and leads on to such a retsub.  Missing: all other
   programs with subroutines, for which it is false (C22_exact). *)
Theorem C22_optimize_partial : forall l, unique_labels l ->
  (forall tr i ks, run l start tr (At i ks) -> nth_error l i = Some RetSubExpr ->
     below_used_label l i \/ (ks <> [] /\ leads_to_such_a_retsub l i)) ->
  same_behaviour l (optimize l).
Proof. exact optimize_sufficient. Qed.
Print Assumptions C22_optimize_partial.

(* in particular programs whose retsubs all stand directly below a used label, such as programs
   without retsub *)
Theorem C22_below_labels : forall l,
  unique_labels l -> retsubs_below_used_labels l -> same_behaviour l (optimize l).
Proof. exact optimize_same. Qed.
Print Assumptions C22_below_labels.

(* programs that execute retsub in subroutines only are preserved exactly if every retsub that can be
   executed stands directly below a used label or leads on to such a retsub *)
Theorem C22_exact : forall l, unique_labels l -> retsubs_have_callers l ->
  (same_behaviour l (optimize l) <->
   forall i, reachable l i -> nth_error l i = Some RetSubExpr -> leads_to_such_a_retsub l i).
Proof. exact optimize_exact. Qed.
Print Assumptions C22_exact.

(* the other two passes are correct for every program, subroutines included *)
Theorem C22_dead_code_pass : forall l,
  unique_labels l -> same_behaviour l (remove_ops_after_unconditional_branch l).
Proof. exact remove_ops_same. Qed.
Print Assumptions C22_dead_code_pass.

Theorem C22_redundant_branch_pass : forall l,
  unique_labels l -> same_behaviour l (remove_b_just_before_its_target_label l).
Proof. exact remove_b_same. Qed.
Print Assumptions C22_redundant_branch_pass.

Definition optimizable : listing :=
  [IntExpr 1; BnzExpr (bs "a"); BExpr (bs "b"); IntExpr 2; LabelExpr (bs "b"); LabelExpr (bs "c");
   CallSubExpr (bs "f"); BExpr (bs "a"); LabelExpr (bs "a"); ReturnExpr;
   LabelExpr (bs "f"); RetSubExpr].

Example C22_nonvacuous :
  unique_labels optimizable /\ retsubs_below_used_labels optimizable /\
  optimize optimizable =
  [IntExpr 1; BnzExpr (bs "a"); LabelExpr (bs "b"); CallSubExpr (bs "f"); LabelExpr (bs "a");
   ReturnExpr; LabelExpr (bs "f"); RetSubExpr].
Proof.
  split; [apply unique_labels_b_sound; reflexivity|]. split; [|reflexivity].
  intros i Hi.
  assert (i = 11).
  { do 11 (destruct i as [|i]; [discriminate|]). destruct i as [|i]; [reflexivity|destruct i; discriminate]. }
  subst i. exists 10, (bs "f"). split; [reflexivity|]. split; [reflexivity|].
  exists 6, (CallSubExpr (bs "f")). split; [reflexivity|constructor].
Qed.

(* callsub f; callsub g; return; g: int 1; retsub; f: retsub
   The first retsub is dropped, but control then falls into the second. *)
Definition falling : listing :=
  [CallSubExpr (bs "f"); CallSubExpr (bs "g"); ReturnExpr; LabelExpr (bs "g"); IntExpr 1; RetSubExpr;
   LabelExpr (bs "f"); RetSubExpr].

(* all states of a program that calls subroutines only by callsub of the label on line a or on line b *)
Local Ltac all_states l a b :=
  assert (U : unique_labels l) by (apply unique_labels_b_sound; reflexivity);
  intros; match goal with H : In _ _ |- _ => cbn [In] in H end;
  repeat match goal with H : _ \/ _ |- _ => destruct H as [<-|H] end; try contradiction;
  match goal with F : fstep _ _ _ _ |- _ => inversion F; subst; clear F end;
  repeat match goal with
    | H : nth_error _ _ = _ |- _ => cbn in H; first [discriminate H|injection H as <-|idtac] end;
  try (match goal with H : silent _ |- _ => solve [inversion H] end);
  try (match goal with H : conditional _ |- _ => solve [inversion H] end);
  try (match goal with H : cond_target _ _ _ |- _ => solve [inversion H] end);
  try contradiction; try (cbn in *; lia); try (cbn; tauto);
  match goal with H : goto _ _ _ _ |- _ => inversion H; subst; clear H end;
  try (match goal with K : forall k, ~ _ |- _ =>
    exfalso; first [apply (K a); reflexivity|apply (K b); reflexivity] end);
  match goal with K : defines _ _ _ |- _ =>
    first [rewrite (U _ a _ K eq_refl)|rewrite (U _ b _ K eq_refl)]; cbn; tauto end.

Lemma falling_states tr c : run falling start tr c ->
  In c [At 0 []; At 6 [1]; At 7 [1]; At 1 []; At 3 [2]; At 4 [2]; At 5 [2]; At 2 []; Halted].
Proof.
  revert tr c. apply (run_snoc_ind falling start (fun _ c => In c _)); [left; reflexivity| |];
    all_states falling 6 3.
Qed.

Lemma subroutine_states tr c : run subroutine start tr c ->
  In c [At 0 []; At 2 [1]; At 3 [1]; At 4 [1]; At 1 []; Halted].
Proof.
  revert tr c. apply (run_snoc_ind subroutine start (fun _ c => In c _)); [left; reflexivity| |];
    all_states subroutine 2 2.
Qed.

(* a program to which C22_exact and C22_optimize_partial apply although a retsub is dropped that is
   executed, and one that C22_exact shows to be broken *)
Example C22_exact_nonvacuous :
  (unique_labels falling /\ retsubs_have_callers falling /\ ~ retsubs_below_used_labels falling /\
   (forall i, reachable falling i -> nth_error falling i = Some RetSubExpr -> leads_to_such_a_retsub falling i) /\
   reachable falling 5 /\
   optimize falling = [CallSubExpr (bs "f"); CallSubExpr (bs "g"); ReturnExpr; LabelExpr (bs "g"); IntExpr 1;
     LabelExpr (bs "f"); RetSubExpr]) /\
  (unique_labels subroutine /\ retsubs_have_callers subroutine /\
   reachable subroutine 4 /\ ~ leads_to_such_a_retsub subroutine 4).
Proof.
  assert (Uf : used falling (bs "f")).
  { exists 0, (CallSubExpr (bs "f")). split; [reflexivity|constructor]. }
  assert (L7 : leads_to_such_a_retsub falling 7).
  { apply lr_here; [reflexivity|]. exists 6, (bs "f"). split; [reflexivity|]. split; [reflexivity|exact Uf]. }
  assert (L6 : leads_to_such_a_retsub falling 6) by (eapply lr_silent; [reflexivity|constructor|exact L7]).
  split.
  - split; [apply unique_labels_b_sound; reflexivity|]. split.
    { intros tr i R E. apply falling_states in R. cbn [In] in R.
      repeat (destruct R as [R|R]; [first [discriminate R|injection R as <-; discriminate E]|]). exact R. }
    split.
    { intros H. destruct (H 5 eq_refl) as (j & n & E & D & _). injection E as <-. discriminate D. }
    split.
    { intros i (tr & ks & R) E. apply falling_states in R. cbn [In] in R.
      repeat (destruct R as [R|R]; [first [discriminate R|injection R as <- <-; cbn in E; first [discriminate E|idtac]]|]).
      - exact L7.
      - apply lr_retsub; [reflexivity|exact L6].
      - destruct R. }
    split; [|reflexivity].
    eexists. exists [2].
    eapply run_event; [eapply F_callsub; [reflexivity|apply (goto_def _ _ _ 6); reflexivity]|].
    eapply run_quiet; [eapply F_silent; [reflexivity|constructor]|].
    eapply run_event; [eapply F_retsub; reflexivity|].
    eapply run_event; [eapply F_callsub; [reflexivity|apply (goto_def _ _ _ 3); reflexivity]|].
    eapply run_quiet; [eapply F_silent; [reflexivity|constructor]|].
    eapply run_event; [eapply F_plain; [reflexivity|exact I]|]. apply run_refl.
  - split; [apply unique_labels_b_sound; reflexivity|]. split.
    { intros tr i R E. apply subroutine_states in R. cbn [In] in R.
      repeat (destruct R as [R|R]; [first [discriminate R|injection R as <-; discriminate E]|]). exact R. }
    split.
    + eexists. exists [1].
      eapply run_event; [eapply F_callsub; [reflexivity|apply (goto_def _ _ _ 2); reflexivity]|].
      eapply run_quiet; [eapply F_silent; [reflexivity|constructor]|].
      eapply run_event; [eapply F_plain; [reflexivity|exact I]|]. apply run_refl.
    + intros H. inversion H as [i E (j & n & Ej & D & _)|i e E S _|i E L|i n k E _ _]; subst; try discriminate.
      * injection Ej as <-. discriminate D.
      * injection E as <-. inversion S.
      * inversion L; discriminate.
Qed.


(* C23 *)
Theorem C23_optimize_only_deletes : forall l, subseq (optimize l) l.
Proof. exact optimize_subseq. Qed.
Print Assumptions C23_optimize_only_deletes.

Theorem C23_named_labels_survive : forall l n,
  used (optimize l) n -> definitions n (optimize l) = definitions n l.
Proof. exact optimize_definitions. Qed.
Print Assumptions C23_named_labels_survive.

Example C23_nonvacuous : used (optimize optimizable) (bs "f") /\ definitions (bs "f") optimizable = 1.
Proof.
  split; [|reflexivity]. exists 3, (CallSubExpr (bs "f")). split; [reflexivity|constructor].
Qed.

(* C24, full statement: forall l, no UnusedLabelError, UnreachableCodeError or
   BJustBeforeLabelError in lint (optimize l), and optimize (optimize l) = optimize l.
   It is false: removing dead code can make a label unused, which the single round of passes
   no longer removes. *)
Theorem C24_refuted : exists l,
  In (UnusedLabelError 2 (bs "x")) (lint (optimize l)) /\
  In (UnreachableCodeError 3) (lint (optimize l)) /\
  optimize (optimize l) <> optimize l.
Proof.
  exists [IntExpr 1; ReturnExpr; BExpr (bs "x"); LabelExpr (bs "x"); ErrExpr].
  split; [vm_compute; tauto|]. split; [vm_compute; tauto|]. vm_compute. discriminate.
Qed.
Print Assumptions C24_refuted.

(* the part that holds for every program *)
Theorem C24_no_redundant_branch_partial : forall l i,
  ~ In (BJustBeforeLabelError i) (lint (optimize l)).
Proof. intros l i H. apply c18_exact in H. revert H. apply optimize_no_b_before. Qed.
Print Assumptions C24_no_redundant_branch_partial.

Example C24_nonvacuous :
  In (BJustBeforeLabelError 7) (lint optimizable) /\
  ~ In (BJustBeforeLabelError 7) (lint (remove_b_just_before_its_target_label optimizable)).
Proof. split; vm_compute; [tauto | intuition discriminate]. Qed.

(* exactly what a round of passes leaves alone: every retsub stands below a used label, the only
   unused labels are those in front of a retsub or proto, unreachable code is left only below
   such a label, and there is no redundant branch *)
Theorem C24_fixpoint_partial : forall l, optimize l = l <->
  retsubs_below_used_labels l /\
  (forall i n, In (UnusedLabelError i n) (lint l) -> before_retsub_or_proto l i) /\
  dead_code_behind_labels l /\
  (forall i, ~ In (BJustBeforeLabelError i) (lint l)).
Proof. exact optimize_fix. Qed.
Print Assumptions C24_fixpoint_partial.

(* and repeating Optimize reaches such a program in at most as many rounds as it has lines *)
Theorem C24_repeat_partial : forall l n, length l <= n ->
  optimize (Nat.iter n optimize l) = Nat.iter n optimize l.
Proof. exact optimize_iter. Qed.
Print Assumptions C24_repeat_partial.

(* the refuting program needs two rounds *)
Example C24_repeat_nonvacuous :
  let l := [IntExpr 1; ReturnExpr; BExpr (bs "x"); LabelExpr (bs "x"); ErrExpr] in
  optimize l = [IntExpr 1; ReturnExpr; LabelExpr (bs "x"); ErrExpr] /\
  Nat.iter 2 optimize l = [IntExpr 1; ReturnExpr] /\ Nat.iter 5 optimize l = [IntExpr 1; ReturnExpr].
Proof. vm_compute. auto. Qed.

(* C25: programs built from instructions and []Expr lists *)
Theorem C25_compile_flattens : forall es,
  (forall e, In e es -> plain_tree e) -> compile es = Ret (map COp (flat_map leaves es)).
Proof. exact compile_plain. Qed.
Print Assumptions C25_compile_flattens.

Theorem C25_compile_panics_exactly : forall es,
  compile es = Panic <-> exists e, In e es /\ has_other e.
Proof. exact compile_panic. Qed.
Print Assumptions C25_compile_panics_exactly.

(* a Program inside a program is not flattened: it becomes a single listing entry *)
Theorem C25_nested_program_refuted : exists es out,
  compile es = Ret out /\ out <> map COp (flat_map leaves es).
Proof.
  exists [PProgram [POp (IntExpr 1); POp ReturnExpr]]. eexists. split; [reflexivity|]. discriminate.
Qed.
Print Assumptions C25_nested_program_refuted.

Example C25_nonvacuous :
  compile [POp (IntExpr 1); PList [PList []; POp (Op0 PlusExpr); PList [POp ErrExpr]]; POp ReturnExpr] =
    Ret [COp (IntExpr 1); COp (Op0 PlusExpr); COp ErrExpr; COp ReturnExpr] /\
  compile [POp (IntExpr 1); PList [POther]] = Panic.
Proof. split; reflexivity. Qed.
