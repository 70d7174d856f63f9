(* Properties C28-C38 and C58-C60: the abstract interpreter behind the debugger.  Statements and
   counterexamples only; vocabulary in VmSpec.v and LangSpec.v, proofs in VmThms.v, VmSim.v,
   VmFlow.v, VmStack.v and VmTypes.v. *)
From Verif Require Import Base Expr Fields VmOps Vm VmSpec VmInv VmThms VmSim VmFlow LangSpec VmStack VmTypes VmScratch.

(* ------------------------------------------------------------------------------------------ *)
(* debugger sessions used in the examples *)
Inductive click : Set := Step | Switch (id : nat) | Breakpoints (lns : list Z).
Fixpoint clicks (cs : list click) (v : vm) : res vm :=
  match cs with
  | [] => Ret v
  | Step :: r => letr v := step v in clicks r v
  | Switch id :: r => clicks r (switch_vm id v)
  | Breakpoints lns :: r => letr vn := set_breakpoints lns v in clicks r (fst vn)
  end.
Definition session (l : listing) (ver : N) (cs : list click) : res vm :=
  letr v := new_vm l ver in clicks cs v.

Lemma later_trans a b c : later a b -> later b c -> later a c.
Proof. intros H K. induction K; [exact H|]. eapply later_command; eauto. Qed.

Lemma clicks_later cs : forall v v', clicks cs v = Ret v' -> later v v'.
Proof.
  induction cs as [|c cs IH]; intros v v' H; cbn in H.
  - injection H as <-. constructor.
  - destruct c as [|id|lns].
    + destruct (step v) as [w| |] eqn:E; try discriminate.
      eapply later_trans; [|apply IH; exact H]. eapply later_command; [constructor|]. eapply cmd_step; eauto.
    + eapply later_trans; [|apply IH; exact H]. eapply later_command; [constructor|]. apply cmd_switch.
    + destruct (set_breakpoints lns v) as [[w ns]| |] eqn:E; try discriminate.
      eapply later_trans; [|apply IH; exact H]. eapply later_command; [constructor|].
      eapply cmd_breakpoints; eauto.
Qed.

Lemma session_reach l ver cs v : session l ver cs = Ret v -> reach l ver v.
Proof.
  unfold session. intros H. destruct (new_vm l ver) as [v0| |] eqn:E; try discriminate.
  exists v0. split; [exact E|]. eapply clicks_later; exact H.
Qed.

Ltac in_session cs :=
  match goal with
  | |- reach ?l ?ver _ => apply (session_reach l ver cs); vm_compute; reflexivity
  end.

(* ------------------------------------------------------------------------------------------ *)
(* C28, full statement: every run of every program ends.  It is false: the loop of dupn 255
   (expr.go:1887, for i := uint8(0); i <= e.Count; i++) never ends. *)
Definition endless_dup : listing := [IntExpr 1; DupNExpr 255].

Theorem C28_refuted : exists l ver v, reach l ver v /\ forall fuel v', run_vm fuel v <> Ret v'.
Proof.
  exists endless_dup, 8%N. eexists. split; [in_session [Step]|].
  intros [|fuel] v' H; vm_compute in H; discriminate.
Qed.
Print Assumptions C28_refuted.

(* Missing: programs that contain dupn 255. *)
Theorem C28_run_terminates_partial : forall l ver v,
  no_dupn_255 l -> reach l ver v ->
  exists n v', forall fuel, n <= fuel -> run_vm fuel v = Ret v'.
Proof. exact run_terminates. Qed.
Print Assumptions C28_run_terminates_partial.

(* a: int 1; bnz a; b a *)
Definition loops : listing :=
  [LabelExpr (bs "a"); IntExpr 1; Op0 PopExpr; BExpr (bs "a")].

Example C28_nonvacuous : no_dupn_255 loops /\
  exists v, session loops 8 [] = Ret v /\ match run_vm 1000 v with
    | Ret v' => v_branch v' <> None /\ Forall exited (v_branches v') \/ v_branch v' = None
    | _ => False
    end.
Proof.
  split.
  - intros n H. repeat (destruct H as [H|H]; [discriminate|]). contradiction.
  - eexists. split; [vm_compute; reflexivity|]. vm_compute. right. reflexivity.
Qed.

(* ------------------------------------------------------------------------------------------ *)
(* C29 *)
Theorem C29_budget : forall l ver v b,
  reach l ver v -> In b (v_branches v) ->
  (0 <= b_budget b)%Z /\
  exists cs, Forall2 (price ver) (b_trace b) cs /\ b_budget b = (700 - total cs)%Z.
Proof. exact budget_accounting. Qed.
Print Assumptions C29_budget.

(* the price of an instruction is determined except for base64_decode and json_ref, whose
   price depends on the length of the value they are applied to *)
Theorem C29_price_determined : forall ver e c c',
  fixed_price e = true -> price ver e c -> price ver e c' -> c = c'.
Proof. exact price_unique. Qed.
Print Assumptions C29_price_determined.

Definition hashes : listing := [ByteExpr (bs "x") 0; Op0 Sha256Expr; Op0 Sha512256Expr; Op0 LenExpr].
Example C29_nonvacuous : exists v b, reach hashes 8 v /\ In b (v_branches v) /\
  b_trace b = [ByteExpr (bs "x") 0; Op0 Sha256Expr; Op0 Sha512256Expr] /\
  b_budget b = (700 - (1 + 35 + 45))%Z.
Proof.
  do 2 eexists. split; [in_session [Step; Step; Step]|]. split; [left; reflexivity|]. split; reflexivity.
Qed.

(* ------------------------------------------------------------------------------------------ *)
(* C30 *)
Theorem C30_ids_unique : forall l ver v v',
  reach l ver v -> later v v' ->
  NoDup (map b_id (v_branches v')) /\
  exists new, map b_id (v_branches v') = map b_id (v_branches v) ++ new.
Proof. exact ids_unique. Qed.
Print Assumptions C30_ids_unique.

Definition forking : listing :=
  [IntExpr 1; SwitchExpr [bs "a"; bs "b"]; LabelExpr (bs "a"); IntExpr 2; ReturnExpr;
   LabelExpr (bs "b"); IntExpr 3; BnzExpr (bs "a"); IntExpr 4; ReturnExpr].
Example C30_nonvacuous : exists v, reach forking 8 v /\ map b_id (v_branches v) = [0; 1; 2; 3].
Proof. eexists. split; [in_session [Step; Step; Switch 2; Step; Step]|]. reflexivity. Qed.

(* ------------------------------------------------------------------------------------------ *)
(* C31: a step works on one branch s, the current one if there is an instruction to execute *)
Theorem C31_independent : forall l ver v v',
  reach l ver v -> step v = Ret v' ->
  exists s, (exists b, has_branch v s b) /\
    (forall k b i e, before l v k b i e -> s = b_id b) /\
    forall id b, has_branch v id b -> id <> s ->
      exists b', has_branch v' id b' /\ untouched l b b'.
Proof. exact branches_independent. Qed.
Print Assumptions C31_independent.

Example C31_nonvacuous : exists v v', reach forking 8 v /\ step v = Ret v' /\
  length (v_branches v) = 3 /\
  nth_error (v_branches v') 0 = nth_error (v_branches v) 0 /\
  nth_error (v_branches v') 1 <> nth_error (v_branches v) 1.
Proof.
  do 2 eexists. split; [in_session [Step; Step; Switch 1]|]. split; [vm_compute; reflexivity|].
  split; [reflexivity|]. split; [reflexivity|]. vm_compute. intros H. discriminate H.
Qed.

(* C58, full statement: what one branch stores in the scratch space is not visible to another.
   It is false: the scratch space is shared by all branches (vm.go:304). *)
Definition storing : listing :=
  [IntExpr 1; BnzExpr (bs "a"); IntExpr 7; StoreExpr 0; IntExpr 1; ReturnExpr;
   LabelExpr (bs "a"); LoadExpr 0; ReturnExpr].

Theorem C58_refuted : exists l ver v v' x,
  reach l ver v /\ step v = Ret v' /\
  exists b b', has_branch v 1 b /\ has_branch v' 1 b' /\
    Forall (fun e => forall i, e <> StoreExpr i) (b_trace b) /\
    b_stack b' = Val TAny (Some (SValue x)) :: b_stack b /\
    x = Val TUint64 (Some (SUint64 7)).
Proof.
  exists storing, 8%N. do 3 eexists. split; [in_session [Step; Step; Step; Step; Switch 1]|].
  split; [vm_compute; reflexivity|]. do 2 eexists.
  split; [split; [right; left; reflexivity|reflexivity]|].
  split; [split; [right; left; reflexivity|reflexivity]|].
  split; [|split; reflexivity]. repeat constructor; discriminate.
Qed.
Print Assumptions C58_refuted.

(* what holds: only store and stores write the scratch space, and store i writes the value on
   top of the stack to position i.  Missing: a scratch space of its own for every branch. *)
Theorem C58_only_stores_write_partial : forall l ver v k b i e v',
  reach l ver v -> before l v k b i e -> step v = Ret v' ->
  stores e = false -> v_scratch v' = v_scratch v.
Proof. exact scratch_kept. Qed.
Print Assumptions C58_only_stores_write_partial.

Theorem C58_store_writes_partial : forall l ver v k b i n v' x s,
  reach l ver v -> before l v k b i (StoreExpr n) -> executes ver v b (StoreExpr n) v' ->
  b_stack b = x :: s ->
  v_scratch v' = upd_nth (N.to_nat n) (fun _ => x) (v_scratch v).
Proof. exact scratch_stored. Qed.
Print Assumptions C58_store_writes_partial.

Example C58_nonvacuous : exists v b v' x, reach storing 8 v /\
  before storing v 0 b 3 (StoreExpr 0) /\ executes 8 v b (StoreExpr 0) v' /\
  b_stack b = [x] /\ nth_error (v_scratch v') 0 = Some x /\ nth_error (v_scratch v) 0 <> Some x.
Proof.
  do 4 eexists. split; [in_session [Step; Step; Step]|]. split; [constructor; reflexivity|].
  split; [split; [vm_compute; reflexivity|]; split; [reflexivity|];
          exists 1%Z; split; [right; split; reflexivity|vm_compute; discriminate]|].
  split; [reflexivity|]. split; [reflexivity|]. discriminate.
Qed.

(* ------------------------------------------------------------------------------------------ *)
(* C32, first half *)
Theorem C32_no_branch_sound : forall l ver v,
  reach l ver v -> v_branch v = None -> forall b, In b (v_branches v) -> exited b.
Proof. exact end_sound. Qed.
Print Assumptions C32_no_branch_sound.

(* C32, second half, is false: a branch that cannot pay for its instruction leaves the program
   but stays the current branch *)
Theorem C32_refuted : exists l ver v v',
  reach l ver v /\ step v = Ret v' /\ v_error v' = false /\
  (forall b, In b (v_branches v') -> exited b) /\ v_branch v' <> None.
Proof.
  exists [Op0 ED25519VerifyExpr], 8%N. do 2 eexists. split; [in_session (@nil click)|].
  split; [vm_compute; reflexivity|]. split; [reflexivity|]. split; [|discriminate].
  intros b [<- | []]. reflexivity.
Qed.
Print Assumptions C32_refuted.

(* Missing: steps in which a branch cannot pay; a failed instruction leaves the branch alone. *)
Theorem C32_no_branch_complete_partial : forall l ver v v',
  reach l ver v -> step v = Ret v' ->
  (forall b, In b (v_branches v') -> exited b) ->
  v_branch v' = None \/ v_error v' = true \/
  exists k b i e c, nth_error (v_branches v) k = Some b /\ on_line b i /\
    nth_error l i = Some e /\ price ver e c /\ (b_budget b < c)%Z.
Proof. exact end_complete. Qed.
Print Assumptions C32_no_branch_complete_partial.

Example C32_nonvacuous : exists v v', reach [IntExpr 1; ReturnExpr] 8 v /\ step v = Ret v' /\
  v_branch v <> None /\ v_branch v' = None.
Proof.
  do 2 eexists. split; [in_session [Step]|]. split; [vm_compute; reflexivity|].
  split; [discriminate|reflexivity].
Qed.

(* ------------------------------------------------------------------------------------------ *)
(* C33, full statement without the hypothesis on negative lines: false *)
Theorem C33_refuted : exists l ver v lns, reach l ver v /\ set_breakpoints lns v = Panic.
Proof.
  exists [IntExpr 1], 8%N. eexists. exists [(-1)%Z]. split; [in_session (@nil click)|]. reflexivity.
Qed.
Print Assumptions C33_refuted.

Theorem C33_verified_partial : forall v lns,
  (forall z, In z lns -> (0 <= z)%Z) ->
  exists ns, set_breakpoints lns v = Ret (set_bps ns v, ns) /\
    forall i, In i ns <->
      In (Z.of_nat i) lns /\ exists e, nth_error (v_listing v) i = Some e /\ is_nop e = false.
Proof. exact breakpoints_verified. Qed.
Print Assumptions C33_verified_partial.

Theorem C33_reported : forall l ver v v' id,
  reach l ver v -> step v = Ret v' ->
  reported v' id <->
  exists b i, has_branch v' id b /\ on_line b i /\ In i (v_bps v) /\ advanced v v' id.
Proof. exact breakpoints_reported. Qed.
Print Assumptions C33_reported.

Theorem C33_run_stops : forall fuel v v',
  run_vm fuel v = Ret v' -> finished v' \/ exists id, reported v' id.
Proof. exact run_stops. Qed.
Print Assumptions C33_run_stops.

Example C33_nonvacuous : exists v ns, reach forking 8 v /\
  set_breakpoints [3; 2; 77; 8]%Z v = Ret (set_bps ns v, ns) /\ ns = [3; 8] /\
  exists v' v'', run_vm 10 (set_bps ns v) = Ret v' /\ reported v' 1 /\ ~ reported v' 2 /\
    v_branch v' <> None /\ clicks [Step; Switch 2; Step; Step] v' = Ret v'' /\ reported v'' 2.
Proof.
  do 2 eexists. split; [in_session (@nil click)|]. split; [vm_compute; reflexivity|].
  split; [reflexivity|]. do 2 eexists. split; [vm_compute; reflexivity|].
  split; [eexists; left; reflexivity|].
  split; [intros [ls H]; vm_compute in H; intuition discriminate|]. split; [discriminate|].
  split; [vm_compute; reflexivity|]. eexists. cbn. auto.
Qed.

(* ------------------------------------------------------------------------------------------ *)
(* C34: whenever both ways of running reach an end, it is the same end; they do without the
   endless instruction *)
Theorem C34_same_end : forall l ver v v' fuel w,
  reach l ver v -> continued v v' -> run_vm fuel (set_bps [] v) = Ret w -> same_execution v' w.
Proof. exact breakpoints_harmless. Qed.
Print Assumptions C34_same_end.

Theorem C34_continue_ends : forall l ver v,
  no_dupn_255 l -> reach l ver v -> exists v', continued v v'.
Proof. exact continue_ends. Qed.
Print Assumptions C34_continue_ends.

Example C34_nonvacuous : exists v v1 v2 w, reach forking 8 v /\
  v_bps v = [8; 4] /\ run_vm 50 v = Ret v1 /\ ~ finished v1 /\ continued v1 v2 /\
  run_vm 50 (set_bps [] v) = Ret w /\ length (v_branches w) = 4.
Proof.
  do 4 eexists. split; [in_session [Breakpoints [8; 4]%Z]|]. split; [reflexivity|].
  split; [vm_compute; reflexivity|]. split; [intros [H|H]; discriminate|].
  split.
  { do 4 (eapply (continued_more _ 50); [intros [H|H]; discriminate H|vm_compute; reflexivity|]).
    apply continued_end. left. reflexivity. }
  split; vm_compute; reflexivity.
Qed.

(* ------------------------------------------------------------------------------------------ *)
(* C35 *)
Theorem C35_failures_contained : forall l ver v,
  reach l ver v ->
  step v <> Panic /\ (forall fuel, run_vm fuel v <> Panic) /\
  (no_dupn_255 l -> exists v', step v = Ret v').
Proof. exact failures_contained. Qed.
Print Assumptions C35_failures_contained.

Theorem C35_failure_reported : forall l ver v k b i e v',
  reach l ver v -> before l v k b i e -> step v = Ret v' ->
  (v_error v' = true <-> fails v k e).
Proof. exact failure_reported. Qed.
Print Assumptions C35_failure_reported.

Theorem C35_failure_stops : forall fuel v, v_error v = true -> run_vm fuel v = Ret v.
Proof. exact failure_stops. Qed.
Print Assumptions C35_failure_stops.

Example C35_nonvacuous : exists v v', reach [IntExpr 1; Op0 LenExpr] 8 v /\
  step v = Ret v' /\ v_error v' = true.
Proof. do 2 eexists. split; [in_session [Step]|]. split; vm_compute; reflexivity. Qed.

(* ------------------------------------------------------------------------------------------ *)
(* C36 *)
Theorem C36_jump_successors : forall l ver v k b i e v' own others,
  reach l ver v -> before l v k b i e -> executes ver v b e v' ->
  successors l i e own others ->
  exists b', nth_error (v_branches v') k = Some b' /\ arrives l own b' /\
    Forall2 (arrives l) others (added v v') /\
    Forall (fun nb => b_stack nb = b_stack b' /\ b_budget nb = b_budget b' /\
                      b_trace nb = b_trace b') (added v v') /\
    returns b' = match e with CallSubExpr _ => Some i :: returns b | _ => returns b end.
Proof. exact jump_successors. Qed.
Print Assumptions C36_jump_successors.

(* every jump of every program has exactly one list of possible successors *)
Theorem C36_successors_determined : forall l i e, jumps e = true ->
  (exists own others, successors l i e own others) /\
  forall own others own' others',
    successors l i e own others -> successors l i e own' others' -> own = own' /\ others = others'.
Proof.
  intros l i e H. split; [apply successors_exist; exact H|].
  intros own others own' others'. apply successors_unique.
Qed.
Print Assumptions C36_successors_determined.

(* callsub pushes the line to return to, everything but retsub leaves the pending calls alone *)
Theorem C36_frames_kept : forall l ver v k b i e v',
  reach l ver v -> before l v k b i e -> executes ver v b e v' ->
  e <> RetSubExpr ->
  exists b', nth_error (v_branches v') k = Some b' /\
    returns b' = match e with CallSubExpr _ => Some i :: returns b | _ => returns b end.
Proof. exact frames_kept. Qed.
Print Assumptions C36_frames_kept.

(* Missing: retsub on a branch that was forked inside the subroutine (see C36_refuted). *)
Theorem C36_retsub_returns_partial : forall l ver v k b i v' r rest,
  reach l ver v -> before l v k b i RetSubExpr -> executes ver v b RetSubExpr v' ->
  returns b = Some r :: rest ->
  exists b', nth_error (v_branches v') k = Some b' /\ added v v' = [] /\
    arrives l (Some (S r)) b' /\ returns b' = rest.
Proof. exact retsub_returns. Qed.
Print Assumptions C36_retsub_returns_partial.

(* C36 is false for retsub: a branch forked inside a subroutine forgets the pending calls
   (vm.go:261-276), its retsub runs into the line below *)
Definition forking_sub : listing :=
  [CallSubExpr (bs "f"); IntExpr 1; ReturnExpr;
   LabelExpr (bs "f"); IntExpr 1; BzExpr (bs "g"); RetSubExpr;
   LabelExpr (bs "g"); RetSubExpr; ErrExpr].

Theorem C36_refuted : exists l ver v k b v' b',
  reach l ver v /\ before l v k b 8 RetSubExpr /\
  b_trace b = [CallSubExpr (bs "f"); IntExpr 1; BzExpr (bs "g")] /\
  executes ver v b RetSubExpr v' /\ nth_error (v_branches v') k = Some b' /\
  nth_error l 0 = Some (CallSubExpr (bs "f")) /\ ~ arrives l (Some 1) b' /\ on_line b' 9.
Proof.
  exists forking_sub, 8%N. do 4 eexists. eexists.
  split; [in_session [Step; Step; Step; Switch 1]|].
  split; [constructor; reflexivity|]. split; [reflexivity|].
  split; [split; [vm_compute; reflexivity|]; split; [reflexivity|];
          exists 1%Z; split; [right; split; reflexivity|vm_compute; discriminate]|].
  split; [reflexivity|]. split; [reflexivity|]. split; [|reflexivity].
  intros [j [Hj [Hm H]]].
  assert (j = 1).
  { destruct j as [|[|j]]; [lia|reflexivity|]. destruct (Hm 1) as [e [He Hn]]; [lia|].
    injection He as <-. discriminate. }
  subst j. destruct H as [_ H]. discriminate.
Qed.
Print Assumptions C36_refuted.

Example C36_nonvacuous : exists v b v', reach forking_sub 8 v /\
  before forking_sub v 0 b 6 RetSubExpr /\ executes 8 v b RetSubExpr v' /\ returns b = [Some 0].
Proof.
  do 3 eexists. split; [in_session [Step; Step; Step]|].
  split; [constructor; reflexivity|].
  split; [split; [vm_compute; reflexivity|]; split; [reflexivity|];
          exists 1%Z; split; [right; split; reflexivity|vm_compute; discriminate]|].
  reflexivity.
Qed.

(* C59, full statement: a subroutine with proto A R replaces its A arguments by R results
   (langspec.json, retsub).  It is false: values the subroutine leaves below its results are
   not removed, and the arguments stay in their place (expr.go:1646-1673). *)
Definition sub_with_local : listing :=
  [IntExpr 1; CallSubExpr (bs "f"); ReturnExpr;
   LabelExpr (bs "f"); ProtoExpr 1 1; IntExpr 2; IntExpr 3; RetSubExpr].
Definition num (n : N) : value := Val TUint64 (Some (SUint64 n)).

Theorem C59_refuted : exists l ver v v1 b b1,
  reach l ver v /\ before l v 0 b 1 (CallSubExpr (bs "f")) /\ b_stack b = [num 1] /\
  clicks [Step; Step; Step; Step; Step] v = Ret v1 /\ v_error v1 = false /\
  nth_error (v_branches v1) 0 = Some b1 /\ on_line b1 2 /\
  b_stack b1 = [num 3; num 1] /\ b_stack b1 <> [num 3].
Proof.
  exists sub_with_local, 8%N. do 4 eexists. split; [in_session [Step]|].
  split; [constructor; reflexivity|]. split; [reflexivity|]. split; [vm_compute; reflexivity|].
  repeat (split; [reflexivity|]). discriminate.
Qed.
Print Assumptions C59_refuted.

(* Missing: subroutines that leave other values above their arguments. *)
Theorem C59_retsub_partial : forall l ver v k b i v' f fs rs args s,
  reach l ver v -> before l v k b i RetSubExpr -> executes ver v b RetSubExpr v' ->
  b_frames b = f :: fs -> b_stack b = rs ++ args ++ s ->
  length rs = N.to_nat (fr_returns f) -> length args = N.to_nat (fr_args f) ->
  exists b', nth_error (v_branches v') k = Some b' /\ b_stack b' = rs ++ s.
Proof. exact retsub_stack. Qed.
Print Assumptions C59_retsub_partial.

Definition proper_sub : listing :=
  [IntExpr 1; IntExpr 2; CallSubExpr (bs "f"); ReturnExpr;
   LabelExpr (bs "f"); ProtoExpr 1 1; IntExpr 3; RetSubExpr].
Example C59_nonvacuous : exists v b v' f, reach proper_sub 8 v /\
  before proper_sub v 0 b 7 RetSubExpr /\ executes 8 v b RetSubExpr v' /\
  b_frames b = [f] /\ b_stack b = [num 3] ++ [num 2] ++ [num 1] /\
  fr_returns f = 1%N /\ fr_args f = 1%N.
Proof.
  do 4 eexists. split; [in_session [Step; Step; Step; Step; Step]|]. split; [constructor; reflexivity|].
  split; [split; [vm_compute; reflexivity|]; split; [reflexivity|];
          exists 1%Z; split; [right; split; reflexivity|vm_compute; discriminate]|].
  repeat split; reflexivity.
Qed.

(* ------------------------------------------------------------------------------------------ *)
(* C37.  Missing: dup2 and bury (refuted below), dig on stacks deeper than 256 values
   (refuted below), dupn 255 (C28_refuted); select pushes a value of unknown type. *)
Theorem C37_stack_ops_partial : forall l ver v k b i e,
  reach l ver v -> before l v k b i e -> (1 <= b_budget b)%Z ->
  right_stack_op e (length (b_stack b)) ->
  exists v', step v = Ret v' /\
    match stack_spec e (b_stack b) with
    | Some s => v_error v' = false /\
                exists b', nth_error (v_branches v') k = Some b' /\ b_stack b' = s
    | None => v_error v' = true
    end.
Proof. exact stack_ops. Qed.
Print Assumptions C37_stack_ops_partial.

Example C37_nonvacuous :
  stack_spec (CoverExpr 2) [num 3; num 2; num 1; num 0] = Some [num 2; num 1; num 3; num 0] /\
  stack_spec (UncoverExpr 2) [num 3; num 2; num 1; num 0] = Some [num 1; num 3; num 2; num 0] /\
  exists v b, reach [IntExpr 1; IntExpr 2; DigExpr 1] 8 v /\
    before [IntExpr 1; IntExpr 2; DigExpr 1] v 0 b 2 (DigExpr 1) /\
    right_stack_op (DigExpr 1) (length (b_stack b)) /\
    stack_spec (DigExpr 1) (b_stack b) = Some [num 1; num 2; num 1].
Proof.
  split; [reflexivity|]. split; [reflexivity|]. do 2 eexists. split; [in_session [Step; Step]|].
  split; [constructor; reflexivity|]. split; [cbn; lia|reflexivity].
Qed.

Definition wrong_stack (l : listing) (i : nat) (e : expr) : Prop :=
  exists ver v b v' b' s, reach l ver v /\ before l v 0 b i e /\
    stack_spec e (b_stack b) = Some s /\ executes ver v b e v' /\
    nth_error (v_branches v') 0 = Some b' /\ b_stack b' <> s.

(* dup2 pushes B A B A instead of A B A B (expr.go:3350-3359) *)
Theorem C37_dup2_refuted : wrong_stack [IntExpr 1; IntExpr 2; Op0 Dup2Expr] 2 (Op0 Dup2Expr).
Proof.
  exists 8%N. do 5 eexists. split; [in_session [Step; Step]|]. split; [constructor; reflexivity|].
  split; [reflexivity|].
  split; [split; [vm_compute; reflexivity|]; split; [reflexivity|];
          exists 1%Z; split; [right; split; reflexivity|vm_compute; discriminate]|].
  split; [reflexivity|discriminate].
Qed.
Print Assumptions C37_dup2_refuted.

(* bury counts from the bottom of the stack (expr.go:1849-1854, vm.go:129-138) *)
Definition burying : listing := [IntExpr 1; IntExpr 2; IntExpr 3; IntExpr 4; BuryExpr 1].
Theorem C37_bury_refuted : wrong_stack burying 4 (BuryExpr 1).
Proof.
  exists 8%N. do 5 eexists. split; [in_session [Step; Step; Step; Step]|].
  split; [constructor; reflexivity|]. split; [reflexivity|].
  split; [split; [vm_compute; reflexivity|]; split; [reflexivity|];
          exists 1%Z; split; [right; split; reflexivity|vm_compute; discriminate]|].
  split; [reflexivity|discriminate].
Qed.
Print Assumptions C37_bury_refuted.

(* dig computes the position in 8 bits (expr.go:3193-3198) *)
Definition digging : listing :=
  [IntExpr 1; DupNExpr 254; IntExpr 2; DupNExpr 254; DigExpr 0].
Theorem C37_dig_refuted : wrong_stack digging 4 (DigExpr 0).
Proof.
  exists 8%N. do 5 eexists. split; [in_session [Step; Step; Step; Step]|].
  split; [constructor; reflexivity|]. split; [reflexivity|].
  split; [split; [vm_compute; reflexivity|]; split; [reflexivity|];
          exists 1%Z; split; [right; split; reflexivity|vm_compute; discriminate]|].
  split; [reflexivity|]. discriminate.
Qed.
Print Assumptions C37_dig_refuted.

(* ------------------------------------------------------------------------------------------ *)
(* C38.  Missing: the five instructions that have no Execute method (refuted below). *)
Theorem C38_effect_sizes_partial : forall l ver v k b i e v' a r,
  reach l ver v -> before l v k b i e -> executes ver v b e v' ->
  lang_spec e = Some (a, r) -> unexecuted e = false ->
  exists b', nth_error (v_branches v') k = Some b' /\ added v v' = [] /\
    length (b_stack b') + length a = length (b_stack b) + length r.
Proof. exact effect_sizes. Qed.
Print Assumptions C38_effect_sizes_partial.

Example C38_nonvacuous : exists v b v', reach hashes 8 v /\
  before hashes v 0 b 3 (Op0 LenExpr) /\ executes 8 v b (Op0 LenExpr) v' /\
  lang_spec (Op0 LenExpr) = Some ([TBytes], [TUint64]).
Proof.
  do 3 eexists. split; [in_session [Step; Step; Step]|]. split; [constructor; reflexivity|].
  split; [|reflexivity].
  split; [vm_compute; reflexivity|]. split; [reflexivity|].
  exists 1%Z; split; [right; split; reflexivity|vm_compute; discriminate].
Qed.

Definition wrong_size (e : expr) : Prop :=
  exists l ver v b v' b' a r, reach l ver v /\ (exists i, before l v 0 b i e) /\
    executes ver v b e v' /\ lang_spec e = Some (a, r) /\ length a <= length (b_stack b) /\
    nth_error (v_branches v') 0 = Some b' /\
    length (b_stack b') + length a <> length (b_stack b) + length r.

Theorem C38_refuted :
  wrong_size (Op0 Extract64BitsExpr) /\ wrong_size (Op0 BminusExpr) /\
  wrong_size (Op0 BytesBitOrExpr) /\ wrong_size (AddrExpr (bs "A")) /\ wrong_size (ItxnaExpr 0 0).
Proof.
  repeat split;
  match goal with |- wrong_size ?e => exists [ByteExpr (bs "a") 0; ByteExpr (bs "b") 0; e] end;
  exists 8%N; do 6 eexists;
  (split; [in_session [Step; Step]|]);
  (split; [exists 2; constructor; reflexivity|]);
  (split; [split; [vm_compute; reflexivity|]; split; [reflexivity|];
           eexists; split; [first [left; reflexivity|right; split; reflexivity]|vm_compute; discriminate]|]);
  (split; [reflexivity|]); (split; [cbn; lia|]); (split; [reflexivity|]); cbn; lia.
Qed.
Print Assumptions C38_refuted.

(* ------------------------------------------------------------------------------------------ *)
(* C60: operands of the types langspec.json asks for never make an instruction fail, and the
   results have the types it promises.  Missing: the instructions refuted below, those without
   Execute method, and those that depend on more than their operands. *)
Theorem C60_effect_types_partial : forall l ver v k b i e c a r xs s,
  reach l ver v -> before l v k b i e ->
  lang_spec e = Some (a, r) -> unexecuted e = false -> looks_elsewhere e = false ->
  mistyped e = false -> valid_immediate e ->
  cost_of e ver b = Ret [c] \/ (cost_of e ver b = Ret [] /\ c = 1%Z) -> (c <= b_budget b)%Z ->
  b_stack b = rev xs ++ s -> Forall2 fits a xs ->
  exists v' b' ys, step v = Ret v' /\ v_error v' = false /\
    nth_error (v_branches v') k = Some b' /\ b_stack b' = rev ys ++ s /\ Forall2 typed r ys.
Proof. exact effect_types. Qed.
Print Assumptions C60_effect_types_partial.

Example C60_nonvacuous : exists v b xs, reach hashes 8 v /\
  before hashes v 0 b 3 (Op0 LenExpr) /\ b_stack b = rev xs ++ [] /\ Forall2 fits [TBytes] xs.
Proof.
  do 2 eexists. eexists [_]. split; [in_session [Step; Step; Step]|].
  split; [constructor; reflexivity|]. split; [reflexivity|].
  constructor; [right; right; reflexivity|constructor].
Qed.

(* an instruction that fails although its operands have the right types *)
Definition rejects (e : expr) (args : list expr) : Prop :=
  exists ver v b v' a r xs, let l := args ++ [e] in
    reach l ver v /\ before l v 0 b (length args) e /\ lang_spec e = Some (a, r) /\
    b_stack b = rev xs /\ Forall2 fits a xs /\ step v = Ret v' /\ v_error v' = true.

Theorem C60_refuted :
  rejects (Op0 BitLenExpr) [IntExpr 5] /\
  rejects (Op0 GetBitExpr) [ByteExpr (bs "a") 0; IntExpr 1] /\
  rejects (Op0 SetBitExpr) [ByteExpr (bs "a") 0; IntExpr 1; IntExpr 1] /\
  rejects (Op0 AppOptedInExpr) [ByteExpr (bs "a") 0; IntExpr 1].
Proof.
  split; [|split; [|split]].
  - exists 8%N. do 5 eexists. eexists [_]. split; [in_session [Step]|].
    split; [constructor; reflexivity|]. split; [reflexivity|]. split; [reflexivity|].
    split; [repeat (constructor; [unfold fits; cbn; auto|]); constructor|]. split; vm_compute; reflexivity.
  - exists 8%N. do 5 eexists. eexists [_; _]. split; [in_session [Step; Step]|].
    split; [constructor; reflexivity|]. split; [reflexivity|]. split; [reflexivity|].
    split; [repeat (constructor; [unfold fits; cbn; auto|]); constructor|]. split; vm_compute; reflexivity.
  - exists 8%N. do 5 eexists. eexists [_; _; _]. split; [in_session [Step; Step; Step]|].
    split; [constructor; reflexivity|]. split; [reflexivity|]. split; [reflexivity|].
    split; [repeat (constructor; [unfold fits; cbn; auto|]); constructor|]. split; vm_compute; reflexivity.
  - exists 8%N. do 5 eexists. eexists [_; _]. split; [in_session [Step; Step]|].
    split; [constructor; reflexivity|]. split; [reflexivity|]. split; [reflexivity|].
    split; [repeat (constructor; [unfold fits; cbn; auto|]); constructor|]. split; vm_compute; reflexivity.
Qed.
Print Assumptions C60_refuted.

(* pushints pushes byte strings (expr.go:2208-2214) *)
Theorem C60_pushints_refuted : exists v v' b',
  reach [PushIntsExpr [5%N]] 8 v /\ step v = Ret v' /\
  nth_error (v_branches v') 0 = Some b' /\
  lang_spec (PushIntsExpr [5%N]) = Some ([], [TUint64]) /\ map v_T (b_stack b') = [TBytes].
Proof.
  do 3 eexists. split; [in_session (@nil click)|]. split; [vm_compute; reflexivity|].
  repeat split; reflexivity.
Qed.
Print Assumptions C60_pushints_refuted.
