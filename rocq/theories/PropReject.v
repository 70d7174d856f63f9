(* Property C110: the debugger executes an instruction only on operands of the right types. *)
From Verif Require Import Base Expr Fields VmOps Vm VmSpec VmInv VmThms VmStack LangSpec VmTypes RejectSpec RejectProofs PropVm.

(* False in full: extract_uint64, b- and b| run on the empty stack, because they have no Execute
   method and are skipped (vm.go:479-480). *)
Theorem C110_refuted :
  Forall (fun e => exists v b v' a, reach [e] 8 v /\ before [e] v 0 b 0 e /\ executes 8 v b e v' /\
    demanded e = Some a /\ ~ served a (b_stack b))
  [Op0 Extract64BitsExpr; Op0 BminusExpr; Op0 BytesBitOrExpr].
Proof.
  repeat apply Forall_cons; try apply Forall_nil; (do 4 eexists; (split; [in_session (@nil click)|]);
    (split; [constructor; reflexivity|]);
    (split; [split; [vm_compute; reflexivity|split; [reflexivity|]];
             eexists; split; [first [right; split; reflexivity|left; reflexivity]|vm_compute; discriminate]|]);
    (split; [reflexivity|]); intros [xs [s [E F]]]; apply Forall2_len in F; cbn in *;
    apply (f_equal (@length _)) in E; rewrite app_length, rev_length in E; cbn in E; lia).
Qed.
Print Assumptions C110_refuted.

(* Any other instruction that is executed found on the stack as many operands as langspec.json
   demands, of the types it demands. *)
Theorem C110_executed_partial : forall l ver v k b i e v' a,
  reach l ver v -> before l v k b i e -> executes ver v b e v' ->
  demanded e = Some a -> ignores_operands e = false -> served a (b_stack b).
Proof. exact executes_asks. Qed.
Print Assumptions C110_executed_partial.

(* If the operands are missing or of the wrong types and the branch can pay for the instruction,
   the step ends in an error. *)
Theorem C110_rejected_partial : forall l ver v k b i e a,
  reach l ver v -> before l v k b i e -> demanded e = Some a -> ignores_operands e = false ->
  (forall c, cost_of e ver b = Ret [c] \/ (cost_of e ver b = Ret [] /\ c = 1%Z) -> (c <= b_budget b)%Z) ->
  ~ served a (b_stack b) -> exists v', step v = Ret v' /\ v_error v' = true.
Proof. exact unserved_fails. Qed.
Print Assumptions C110_rejected_partial.

(* With C60: the instructions that depend on their operands only are executed exactly when the
   operands are right. *)
Theorem C110_exact : forall l ver v k b i e c a r,
  reach l ver v -> before l v k b i e -> lang_spec e = Some (a, r) ->
  unexecuted e = false -> looks_elsewhere e = false -> mistyped e = false -> valid_immediate e ->
  cost_of e ver b = Ret [c] \/ (cost_of e ver b = Ret [] /\ c = 1%Z) -> (c <= b_budget b)%Z ->
  (exists v', step v = Ret v' /\ v_error v' = false) <-> served a (b_stack b).
Proof.
  intros l ver v k b i e c a r R B L U K T V C P. split.
  - intros [v' [E N]]. refine (executes_asks l ver v k b i e v' a R B _ _ _).
    + split; [exact E|]. split; [exact N|]. exists c. split; assumption.
    + destruct e; try discriminate; cbn [demanded]; rewrite L; reflexivity.
    + destruct e; try reflexivity. destruct o; try reflexivity; discriminate.
  - intros [xs [s [E F]]].
    destruct (effect_types l ver v k b i e c a r xs s R B L U K T V C P E F) as [v' [b' [ys [S [N _]]]]].
    eauto.
Qed.
Print Assumptions C110_exact.

(* int 1; byte "a"; + *)
Definition one_plus_a : listing := [IntExpr 1; ByteExpr (bs "a") 0; Op0 PlusExpr].

Example C110_nonvacuous : exists v b, reach one_plus_a 8 v /\
  before one_plus_a v 0 b 2 (Op0 PlusExpr) /\ demanded (Op0 PlusExpr) = Some [TUint64; TUint64] /\
  ~ served [TUint64; TUint64] (b_stack b) /\
  (forall c, cost_of (Op0 PlusExpr) 8 b = Ret [c] \/ (cost_of (Op0 PlusExpr) 8 b = Ret [] /\ c = 1%Z) -> (c <= b_budget b)%Z).
Proof.
  do 2 eexists. split; [in_session [Step; Step]|]. split; [constructor; reflexivity|]. split; [reflexivity|].
  split.
  - intros [xs [s [E F]]]. inversion F as [|? x ? ? F1 F2]; subst. inversion F2 as [|? y ? ? F3 F4]; subst.
    inversion F4; subst. cbn in E. injection E as <- <- _.
    destruct F3 as [F3|[F3|F3]]; discriminate.
  - intros c [H|[_ ->]]; [discriminate|]. vm_compute. discriminate.
Qed.

Definition one_plus_two : listing := [IntExpr 1; IntExpr 2; Op0 PlusExpr].

Example C110_executed_nonvacuous : exists v b v', reach one_plus_two 8 v /\
  before one_plus_two v 0 b 2 (Op0 PlusExpr) /\ executes 8 v b (Op0 PlusExpr) v'.
Proof.
  do 3 eexists. split; [in_session [Step; Step]|]. split; [constructor; reflexivity|].
  split; [vm_compute; reflexivity|split; [reflexivity|]].
  eexists; split; [right; split; reflexivity|vm_compute; discriminate].
Qed.
