(* Property C102: the branches take turns; and which runs of the debugger end (C28). *)
From Verif Require Import Base Expr Fields VmOps Vm VmSpec VmInv VmThms PropVm TurnSpec TurnProofs.

(* C102: it is the turn of one branch, the current one if it is in the program and else the next in the ring, until
   no branch is in the program *)
Theorem C102_turn : forall l ver v, reach l ver v ->
  (exists k b i e, turn l v k b i e) \/
  (forall b, In b (v_branches v) -> ~ in_program l b) /\
  exists v', step v = Ret v' /\ v_branch v' = None /\ Forall2 unmoved (v_branches v) (v_branches v').
Proof. intros l ver v R. exact (turn_or_over l ver v (reach_wf _ _ _ R)). Qed.
Print Assumptions C102_turn.

Theorem C102_unique : forall l ver v k b i e k' b' i' e', reach l ver v ->
  turn l v k b i e -> turn l v k' b' i' e' -> k = k' /\ b = b' /\ i = i' /\ e = e'.
Proof. intros l ver v k b i e k' b' i' e' R. exact (turn_unique l v k b i e k' b' i' e' (wf_cur _ _ _ (reach_wf _ _ _ R))). Qed.
Print Assumptions C102_unique.

(* the branch the debugger shows as the current one, if it is in the program *)
Theorem C102_shown : forall l ver v k b i e, reach l ver v -> before l v k b i e -> turn l v k b i e.
Proof. intros l ver v k b i e R. exact (before_turn l ver v k b i e (reach_wf _ _ _ R)). Qed.
Print Assumptions C102_shown.

(* a step executes the one instruction of the branch whose turn it is, or it cannot be paid for (the branch leaves the
   program) or its price cannot be told; nothing is executed on the other branches.  After an instruction that does
   not fail the same branch goes on, or the next one that has not left the program. *)
Theorem C102_step : forall l ver v v' k b i e, reach l ver v -> turn l v k b i e -> step v = Ret v' ->
  (exists b', nth_error (v_branches v') k = Some b' /\ b_id b' = b_id b /\
     (b_trace b' = b_trace b ++ [e] /\ (v_error v' = true \/
        match v_branch v' with
        | Some k' => first_from exited k (v_branches v') k'
        | None => forall x, In x (v_branches v') -> exited x
        end) \/
      b_trace b' = b_trace b /\ (exited b' \/ v_error v' = true))) /\
  forall j x, j <> k -> nth_error (v_branches v) j = Some x -> exists x', nth_error (v_branches v') j = Some x' /\ unmoved x x'.
Proof. intros l ver v v' k b i e R. exact (step_turn l ver v v' k b i e (reach_wf _ _ _ R)). Qed.
Print Assumptions C102_step.

(* int 9; int 1; switch b c: three branches; the first ends in return, and the second, at b, is next *)
Definition three : listing :=
  [IntExpr 9; IntExpr 1; SwitchExpr [bs "b"; bs "c"]; ReturnExpr; LabelExpr (bs "b"); IntExpr 2; ReturnExpr; LabelExpr (bs "c"); ErrExpr].
Example C102_ex : exists v, reach three 8 v /\ length (v_branches v) = 3 /\ v_branch v = Some 1 /\
  (exists b, turn three v 1 b 5 (IntExpr 2)) /\
  exists w, reach three 8 w /\ v_branch w = Some 0 /\ exists b, turn three w 1 b 5 (IntExpr 2).
Proof.
  eexists. split; [in_session [Step; Step; Step; Step]|]. split; [reflexivity|]. split; [reflexivity|]. split.
  - eexists. constructor; [|reflexivity|reflexivity|reflexivity]. exists 0. split; [cbn; lia|]. split; [reflexivity|]. split.
    + intros b H. vm_compute in H. injection H as <-. intros N. apply N. exists 5. split; [reflexivity|cbn; lia].
    + intros d' b D. lia.
  - eexists. split; [in_session [Step; Step; Step; Step; Switch 0]|]. split; [reflexivity|].
    eexists. constructor; [|reflexivity|reflexivity|reflexivity]. exists 1. split; [cbn; lia|]. split; [reflexivity|]. split.
    + intros b H. vm_compute in H. injection H as <-. intros N. apply N. exists 5. split; [reflexivity|cbn; lia].
    + intros d' b D H [i [I _]]. destruct d' as [|d']; [|lia]. vm_compute in H. injection H as <-. discriminate I.
Qed.

(* ------------------------------------------------------------------------------------------ *)
(* C28, exactly: a step does not end if and only if it is the turn of a branch that can pay for a dupn that counts to
   255 and has a value for it; a run does not end if and only if it comes to such a step *)
Theorem C28_step_exact : forall l ver v, reach l ver v ->
  (step v = OutOfFuel <->
   exists k b i e, turn l v k b i e /\ counts_forever e /\ (1 <= b_budget b)%Z /\ b_stack b <> []).
Proof. intros l ver v R. exact (step_forever l ver v (reach_wf _ _ _ R)). Qed.
Print Assumptions C28_step_exact.

Theorem C28_exact : forall l ver v, reach l ver v ->
  ((exists n v', forall fuel, n <= fuel -> run_vm fuel v = Ret v') <->
   ~ exists w k b i e, runs_to v w /\ ~ finished w /\ turn l w k b i e /\ counts_forever e /\ (1 <= b_budget b)%Z /\ b_stack b <> []).
Proof. exact run_exact. Qed.
Print Assumptions C28_exact.

(* dupn 255 behind a return is never executed: the run ends although C28_run_terminates_partial does not speak of it *)
Example C28_exact_ex : exists v, reach [IntExpr 1; ReturnExpr; DupNExpr 255] 8 v /\ v_branch v <> None /\
  exists n v', forall fuel, n <= fuel -> run_vm fuel v = Ret v'.
Proof.
  eexists. split; [in_session (@nil click)|]. split; [discriminate|]. exists 2. eexists. intros fuel F.
  destruct fuel as [|[|fuel]]; [lia|lia|]. destruct fuel; vm_compute; reflexivity.
Qed.

(* ------------------------------------------------------------------------------------------ *)
(* C32, exact: when all branches have left the program after a step that did not fail, one of them is still the
   current one if and only if the branch whose turn it was could not pay for its instruction *)
Theorem C32_exact : forall l ver v v' k b i e, reach l ver v -> turn l v k b i e -> step v = Ret v' -> v_error v' = false ->
  (forall x, In x (v_branches v') -> exited x) ->
  (v_branch v' <> None <-> exists c, (cost_of e ver b = Ret [c] \/ cost_of e ver b = Ret [] /\ c = 1%Z) /\ (b_budget b < c)%Z).
Proof. intros l ver v v' k b i e R. exact (all_left_exact l ver v v' k b i e (reach_wf _ _ _ R)). Qed.
Print Assumptions C32_exact.
Example C32_exact_ex : exists v v' b, reach [Op0 ED25519VerifyExpr] 8 v /\ turn [Op0 ED25519VerifyExpr] v 0 b 0 (Op0 ED25519VerifyExpr) /\
  step v = Ret v' /\ v_error v' = false /\ (forall x, In x (v_branches v') -> exited x) /\ v_branch v' <> None.
Proof.
  do 3 eexists. split; [in_session (@nil click)|]. split.
  { constructor; [|reflexivity|reflexivity|reflexivity]. exists 0. split; [cbn; Lia.lia|]. split; [reflexivity|].
    split; [|intros d' x X; inversion X]. intros x Hx N. apply N. injection Hx as <-. exists 0. split; [reflexivity|cbn; Lia.lia]. }
  split; [vm_compute; reflexivity|]. split; [reflexivity|]. split; [|discriminate].
  intros b [<- | []]. reflexivity.
Qed.
