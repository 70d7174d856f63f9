(* C84: the optimizer keeps what a program does in real executions; C16 and C20 for real
   executions.  Vocabulary in RealSpec.v and PlaySpec.v, proofs in PlayProofs.v. *)
From Verif Require Import Base Expr Fields Linter Compiler Flow FlowProofs LintSpec LinterProofs LinterThms CompilerSpec
  CompilerProofs VmOps Vm VmSpec LangSpec RealSpec PlaySpec PlayProofs OptimizeExact.
From Verif Require PropCompiler.
From Coq Require Import ZifyBool ZifyNat ZifyN.

(* C84, full statement: forall l, assembles l -> same_results l (optimize l).
   It is false, and dangerously so: without its retsub the subroutine runs to the end of the
   program, which approves it.
   callsub f; pop; int 0; return; f: int 1; retsub *)
Definition rejecting : listing :=
  [CallSubExpr (bs "f"); Op0 PopExpr; IntExpr 0; ReturnExpr; LabelExpr (bs "f"); IntExpr 1; RetSubExpr].

(* what is left of it: callsub f; pop; int 0; return; f: int 1 *)
Definition approving : listing :=
  [CallSubExpr (bs "f"); Op0 PopExpr; IntExpr 0; ReturnExpr; LabelExpr (bs "f"); IntExpr 1].

Lemma rejecting_assembles : assembles rejecting.
Proof.
  split; [apply unique_labels_b_sound; reflexivity|].
  intros n [i [e [Hi Hn]]]. exists 4.
  do 7 (destruct i as [|i]; [cbn in Hi; injection Hi as <-; inversion Hn; subst; reflexivity|]).
  destruct i; discriminate.
Qed.

(* every state of every execution of it *)
Lemma rejecting_states W h c : (forall h, lawful (W h)) -> plays W rejecting h c ->
  exists m, In c [Real 0 [] [] m; Real 4 [] [Call 0 0 None] m; Real 5 [] [Call 0 0 None] m;
    Real 6 [CInt 1] [Call 0 0 None] m; Real 1 [CInt 1] [] m; Real 2 [] [] m; Real 3 [CInt 0] [] m].
Proof.
  intros L P. induction P as [|h c e c' P [m IH] N I].
  - exists (fun _ => CInt 0). left. reflexivity.
  - exists m. cbn [In] in IH.
    destruct IH as [<-|[<-|[<-|[<-|[<-|[<-|[<-|[]]]]]]]]; cbn in N; injection N as <-; inversion I; subst;
      try discriminate;
      try (match goal with H : constants _ _ = Some _ |- _ => injection H as <- end);
      try (match goal with H : stack_spec _ _ = Some _ |- _ => injection H as <- end);
      try (match goal with H : w_op _ _ _ _ |- _ => apply lawful_world in H; [discriminate H|apply L] end);
      cbn; auto 10.
    match goal with H : target _ _ _ |- _ => destruct H as [H _] end.
    assert (j = 4) as ->; [|auto].
    apply (proj1 rejecting_assembles j 4 (bs "f")); [assumption|reflexivity].
Qed.

Theorem C84_refuted : exists l, assembles l /\ lint l = [] /\
  forall W, (forall h, lawful (W h)) ->
    (forall h, ~ approves W l h) /\ (exists h, approves W (optimize l) h).
Proof.
  exists rejecting. split; [exact rejecting_assembles|]. split; [reflexivity|]. intros W L. split.
  - intros h [c [n [P [Hn K]]]]. destruct (rejecting_states _ _ _ L P) as [m H]. cbn [In] in H.
    destruct H as [<-|[<-|[<-|[<-|[<-|[<-|[<-|[]]]]]]]]; cbn in K;
      destruct K as [[K [s Hs]]|[K Hs]]; try discriminate; try lia.
    injection Hs as <- _. apply Hn. reflexivity.
  - change (optimize rejecting) with approving.
    eexists. exists (Real 6 [CInt 1] [Call 0 0 None] (fun _ => CInt 0)), 1%N.
    split; [|split; [discriminate|right; split; [cbn; lia|reflexivity]]].
    refine (plays_step W approving _ (Real 5 [] [Call 0 0 None] (fun _ => CInt 0)) (IntExpr 1) _ _ eq_refl _).
    2:{ apply (i_constants _ approving (IntExpr 1) 5 [CInt 1] []). reflexivity. }
    refine (plays_step W approving _ (Real 4 [] [Call 0 0 None] (fun _ => CInt 0)) (LabelExpr (bs "f")) _ _ eq_refl _).
    2:{ apply i_nop. reflexivity. }
    refine (plays_step W approving _ beginning (CallSubExpr (bs "f")) _ (plays_start _ _) eq_refl _).
    apply (i_callsub _ approving (bs "f") 0 4). apply unique_target; [|reflexivity].
    apply unique_labels_b_sound. reflexivity.
Qed.
Print Assumptions C84_refuted.

(* What holds: programs in which every retsub that control can reach stands directly below a used
   label, or is reached in a subroutine and leads on to such a retsub.  Missing: all other programs
   with subroutines. *)
Theorem C84_partial : forall l, assembles l ->
  (forall tr i ks, run l start tr (At i ks) -> nth_error l i = Some RetSubExpr ->
     below_used_label l i \/ (ks <> [] /\ leads_to_such_a_retsub l i)) ->
  same_results l (optimize l).
Proof.
  intros l A R. apply behaviour_results; [exact A|apply assembles_optimize; exact A|].
  apply optimize_sufficient; [apply A|exact R].
Qed.
Print Assumptions C84_partial.

(* in particular programs without retsub, and programs whose retsubs all stand directly below a used
   label *)
Theorem C84_below_labels : forall l, assembles l -> retsubs_below_used_labels l -> same_results l (optimize l).
Proof.
  intros l A R. apply C84_partial; [exact A|]. intros tr i ks _ E. left. exact (R i E).
Qed.
Print Assumptions C84_below_labels.

(* a program to which C84_partial applies although a retsub it executes is dropped *)
Example C84_partial_nonvacuous : assembles PropCompiler.falling /\
  (forall tr i ks, run PropCompiler.falling start tr (At i ks) ->
     nth_error PropCompiler.falling i = Some RetSubExpr ->
     below_used_label PropCompiler.falling i \/ (ks <> [] /\ leads_to_such_a_retsub PropCompiler.falling i)).
Proof.
  destruct PropCompiler.C22_exact_nonvacuous as [(U & C & _ & L & _ & _) _]. split.
  - split; [exact U|]. intros n [i [e [Hi Hn]]].
    do 8 (destruct i as [|i]; [cbn in Hi; injection Hi as <-; inversion Hn; subst;
      first [exists 6; reflexivity|exists 3; reflexivity]|]).
    destruct i; discriminate.
  - intros tr i ks R E. right. split.
    + intros ->. exact (C tr i R E).
    + apply L; [|exact E]. exists tr, ks. exact R.
Qed.

(* the passes that remove dead code and redundant branches are right for every program *)
Theorem C84_dead_code_pass : forall l, assembles l ->
  same_results l (remove_ops_after_unconditional_branch l).
Proof.
  intros l A. apply behaviour_results; [exact A|apply assembles_ops; exact A|].
  apply remove_ops_same, A.
Qed.
Print Assumptions C84_dead_code_pass.

Theorem C84_redundant_branch_pass : forall l, assembles l ->
  same_results l (remove_b_just_before_its_target_label l).
Proof.
  intros l A. apply behaviour_results; [exact A|apply assembles_b; exact A|].
  apply remove_b_same, A.
Qed.
Print Assumptions C84_redundant_branch_pass.

(* what is left can be assembled whenever the program could *)
Theorem C84_assembles : forall l, assembles l -> assembles (optimize l).
Proof. exact assembles_optimize. Qed.
Print Assumptions C84_assembles.

(* int 1; bnz a; b b; int 2; b: c: callsub f; b a; a: int 7; return; f: retsub *)
Definition shrinking : listing :=
  [IntExpr 1; BnzExpr (bs "a"); BExpr (bs "b"); IntExpr 2; LabelExpr (bs "b"); LabelExpr (bs "c");
   CallSubExpr (bs "f"); BExpr (bs "a"); LabelExpr (bs "a"); IntExpr 7; ReturnExpr;
   LabelExpr (bs "f"); RetSubExpr].

(* a program to which C84_below_labels applies, its optimized version, and an execution that is approved *)
Example C84_nonvacuous :
  assembles shrinking /\ retsubs_below_used_labels shrinking /\
  optimize shrinking =
  [IntExpr 1; BnzExpr (bs "a"); LabelExpr (bs "b"); CallSubExpr (bs "f"); LabelExpr (bs "a");
   IntExpr 7; ReturnExpr; LabelExpr (bs "f"); RetSubExpr] /\
  forall W, approves W shrinking
    [Did (IntExpr 1) [] [CInt 1]; Did (BnzExpr (bs "a")) [CInt 1] []; Did (IntExpr 7) [] [CInt 7]].
Proof.
  split.
  { split; [apply unique_labels_b_sound; reflexivity|].
    intros n [i [e [Hi Hn]]].
    do 13 (destruct i as [|i]; [cbn in Hi; injection Hi as <-; inversion Hn; subst;
      first [exists 4; reflexivity|exists 8; reflexivity|exists 11; reflexivity]|]).
    destruct i; discriminate. }
  split.
  { intros i Hi.
    assert (i = 12) as ->.
    { do 12 (destruct i as [|i]; [discriminate|]). destruct i as [|i]; [reflexivity|destruct i; discriminate]. }
    exists 11, (bs "f"). split; [reflexivity|]. split; [reflexivity|].
    exists 6, (CallSubExpr (bs "f")). split; [reflexivity|constructor]. }
  split; [reflexivity|]. intros W.
  exists (Real 10 [CInt 7] [] (fun _ => CInt 0)), 7%N.
  split; [|split; [discriminate|left; split; [reflexivity|exists []; reflexivity]]].
  refine (plays_step W shrinking [_; _] (Real 9 [] [] (fun _ => CInt 0)) (IntExpr 7)
    (Real 10 [CInt 7] [] (fun _ => CInt 0)) _ eq_refl _).
  2:{ apply (i_constants _ shrinking (IntExpr 7) 9 [CInt 7] []). reflexivity. }
  refine (plays_step W shrinking [_; _] (Real 8 [] [] (fun _ => CInt 0)) (LabelExpr (bs "a")) _ _ eq_refl _).
  2:{ apply i_nop. reflexivity. }
  refine (plays_step W shrinking [_] (Real 1 [CInt 1] [] (fun _ => CInt 0)) (BnzExpr (bs "a"))
    (Real 8 [] [] (fun _ => CInt 0)) _ eq_refl _).
  2:{ apply (i_bnz_taken _ shrinking (bs "a") 1 8); [discriminate|].
      apply unique_target; [|reflexivity]. apply unique_labels_b_sound. reflexivity. }
  refine (plays_step W shrinking [] beginning (IntExpr 1) (Real 1 [CInt 1] [] (fun _ => CInt 0))
    (plays_start _ _) eq_refl _).
  apply (i_constants _ shrinking (IntExpr 1) 0 [CInt 1] []). reflexivity.
Qed.

(* ------------------------------------------------------------------------------------------ *)
(* C16 for real executions: none ever stands on a line reported as unreachable *)
Theorem C16_real : forall W l i, (forall h, lawful (W h)) -> In (UnreachableCodeError i) (lint l) ->
  forall h c, plays W l h c -> c_line c <> i.
Proof.
  intros W l i L H h c P E. apply (c16 l i H).
  destruct (real_run _ _ _ _ L P) as [tr [R _]]. exists tr, (rets (c_calls c)). rewrite <- E. exact R.
Qed.
Print Assumptions C16_real.

(* C20 for real executions: between the label and the b of a reported loop, an execution stays
   there for ever or fails; it is never approved *)
Theorem C20_real : forall w l i, lawful w -> In (InfiniteLoopError i) (lint l) ->
  exists j n, nth_error l i = Some (BExpr n) /\ j < i /\ defines l j n /\
    forall c c', j <= c_line c <= i -> goes w l (fun _ _ => True) c c' ->
      j <= c_line c' <= i /\ nth_error l (c_line c') <> Some ReturnExpr.
Proof.
  intros w l i L. rewrite lint_loops, run_loops_in. intros (i' & j & n & E & Hi & Hj & Hd & _ & Hc).
  injection E as <-. exists j, n. split; [exact Hi|]. split; [exact Hj|]. split; [exact Hd|].
  intros c c' Hl G. pose proof (no_escape_trap _ _ _ _ Hi Hj Hd Hc) as T.
  destruct (goes_run _ _ _ _ _ L G) as [tr R].
  assert (In' : j <= c_line c' <= i).
  { destruct (trap_run _ _ _ _ _ _ T R) as [(pc & ks & Q & Hp)|(Q & _)]; [unfold cfg_of; eauto| |discriminate Q].
    injection Q as -> _. exact Hp. }
  split; [exact In'|]. intros N.
  destruct (T _ (rets (c_calls c')) _ _ In' (F_return _ _ _ N)) as [(pc & ks & Q & _)|(_ & m & (e & He & Hm) & _)].
  - discriminate Q.
  - rewrite He in N. injection N as ->. inversion Hm.
Qed.
Print Assumptions C20_real.

(* int 1; a: int 1; pop; b a: the execution gets into the loop *)
Definition looping : listing :=
  [IntExpr 1; LabelExpr (bs "a"); IntExpr 1; Op0 PopExpr; BExpr (bs "a")].
Example C20_real_nonvacuous :
  In (InfiniteLoopError 4) (lint looping) /\
  forall W, plays W looping [Did (IntExpr 1) [] [CInt 1]] (Real 1 [CInt 1] [] (fun _ => CInt 0)).
Proof.
  split; [vm_compute; tauto|]. intros W.
  refine (plays_step W looping [] beginning (IntExpr 1) (Real 1 [CInt 1] [] (fun _ => CInt 0))
    (plays_start _ _) eq_refl _).
  apply (i_constants _ looping (IntExpr 1) 0 [CInt 1] []). reflexivity.
Qed.
