(* Property C93: the debugger and the linter agree about the lines of a program. *)
From Verif Require Import Base Expr Fields VmOps Vm VmSpec AgreeSpec Linter AgreeProofs.
From Verif Require Flow LintSpec LinterProofs LinterThms.

(* No branch of a debugger session ever stands on a line the linter reports as unreachable
   (linter.go:337-368, vm.go:430-499). *)
Theorem C93 l ver v b i :
  In (UnreachableCodeError i) (lint l) -> reach l ver v -> In b (v_branches v) -> ~ on_line b i.
Proof.
  intros H R Hb Hi. apply LinterThms.c17 in H as [_ H].
  exact (unreachable_not_visited l ver v b i R Hb Hi H).
Qed.
Print Assumptions C93.

(* So breakpoints on such lines only never stop the program (vm.go:329-335, 408-428). *)
Theorem C93_breakpoints l ver v v' id :
  reach l ver v -> step v = Ret v' ->
  (forall i, In i (v_bps v) -> In (UnreachableCodeError i) (lint l)) -> ~ reported v' id.
Proof.
  intros R E H Hr. destruct (unreported_breakpoints _ _ _ _ _ R E Hr) as (i & Hi & Hn).
  apply Hn. apply H in Hi. apply LinterThms.c17 in Hi as [_ Hi]. exact Hi.
Qed.
Print Assumptions C93_breakpoints.

(* A branch that stands in a reported infinite loop is never seen outside of it again
   (linter.go:422-483): it stays between the label and the b, or it is gone. *)
Theorem C93_loop l i :
  In (InfiniteLoopError i) (lint l) ->
  exists j n, nth_error l i = Some (BExpr n) /\ j < i /\ nth_error l j = Some (LabelExpr n) /\
    forall ver v v' b b',
      reach l ver v -> later v v' -> In b (v_branches v) -> stands_in j i b ->
      In b' (v_branches v') -> b_id b' = b_id b -> exited b' \/ stands_in j i b'.
Proof.
  rewrite LinterProofs.lint_loops, LinterProofs.run_loops_in. intros (i' & j & n & E & Hi & Hj & Hd & _ & Hc).
  injection E as <-. exists j, n. split; [exact Hi|]. split; [exact Hj|]. split; [exact Hd|].
  intros ver v v' b b'. apply trapped_stays. exact (LinterProofs.no_escape_trap _ _ _ _ Hi Hj Hd Hc).
Qed.
Print Assumptions C93_loop.

(* Where nothing returns from subroutines, every line the debugger shows is reachable by the rules
   of the language. *)
Theorem C93_partial l ver v b i :
  no_returns l -> reach l ver v -> In b (v_branches v) -> on_line b i -> Flow.reachable l i.
Proof. exact (visited_reachable l ver v b i). Qed.
Print Assumptions C93_partial.


(* a session: set breakpoints, then press continue once *)
Definition session (l : listing) (ver : N) (lns : list Z) : res vm :=
  letr v0 := new_vm l ver in letr r := set_breakpoints lns v0 in run_vm 1000 (fst r).

Lemma session_reach l ver lns v : session l ver lns = Ret v -> reach l ver v.
Proof.
  unfold session. destruct (new_vm l ver) as [v0| |] eqn:E; try discriminate. cbn [bindr].
  destruct (set_breakpoints lns v0) as [[v1 ns]| |] eqn:E1; try discriminate. cbn [bindr fst].
  intros E2. exists v0. split; [exact E|].
  eapply later_command; [eapply later_command; [apply later_now|]|].
  - eapply cmd_breakpoints. exact E1.
  - eapply cmd_run. exact E2.
Qed.

(* the lines the branches stand on *)
Definition stands (r : res vm) : res (list (option nat)) := mapr (fun v => map b_line (v_branches v)) r.

(* In general that is wrong: the branch made for the other outcome of bz forgets the pending calls
   (vm.go:261-276), so its retsub continues with the next line (expr.go:1646-1673). *)
Theorem C93_refuted :
  ~ forall l ver v b i,
      reach l ver v -> In b (v_branches v) -> on_line b i -> i < length l -> Flow.reachable l i.
Proof.
  intros H. destruct (session past_retsub 8 [8%Z]) as [v| |] eqn:E; [|vm_compute in E; discriminate E..].
  pose proof (session_reach _ _ _ _ E) as R.
  assert (F : stands (session past_retsub 8 [8%Z]) = Ret [None; Some 8]) by (vm_compute; reflexivity).
  rewrite E in F. cbn [stands mapr] in F. injection F as F.
  destruct (v_branches v) as [|b1 [|b2 [|]]] eqn:Eb; try discriminate F.
  injection F as F1 F2.
  apply past_retsub_unreachable. apply (H past_retsub 8%N v b2 8 R); [|exact F2|vm_compute; auto 20].
  rewrite Eb. right. left. reflexivity.
Qed.
Print Assumptions C93_refuted.

(* the statements are not empty *)
Definition with_dead_code : listing :=
  [IntExpr 1; BzExpr (bs "x"); BExpr (bs "x"); IntExpr 2; LabelExpr (bs "x"); IntExpr 3; ReturnExpr].
Definition with_loop : listing :=
  [IntExpr 1; BnzExpr (bs "x"); LabelExpr (bs "y"); IntExpr 2; BExpr (bs "y"); LabelExpr (bs "x"); IntExpr 3].

Example C93_ex :
  lint with_dead_code = [UnreachableCodeError 3] /\
  stands (session with_dead_code 8 [3; 5]%Z) = Ret [Some 2; Some 5] /\
  stands (session with_dead_code 8 [3%Z]) = Ret [None; None] /\
  In (InfiniteLoopError 4) (lint with_loop) /\
  stands (session with_loop 8 [4%Z]) = Ret [Some 4; Some 6] /\
  stands (session with_loop 8 []) = Ret [None; None].
Proof. vm_compute. auto 20. Qed.
