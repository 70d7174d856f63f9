(* The reason given for a stop is the right one. *)
From Verif Require Import Base Expr Process Vm VmSpec Dbg DbgSpec DbgProofs PropProcess PropDbg CountProofs PropCount MarkProofs PropMarks.

Definition sets (m : dmessage) : bool := match m with DRequest _ (RSetBreakpoints _) => true | _ => false end.
(* what each reason claims, of the request and of the machine afterwards *)
Definition right (r : request) (v : vm) (why : reason) (t : option nat) : Prop :=
  match why with
  | ByEntry => exists a, r = RLaunch a
  | ByPause => r = RPause
  | ByStep => exists a, r = RNext a
  | ByException => v_error v = true
  | ByBreakpoint => exists id b i, t = Some id /\ has_branch v id b /\ on_line b i /\ In i (v_bps v)
  end.

(* at the end of the program a breakpoint is given as the reason, even if there is none *)
Theorem C127_refuted : exists ms s o q r o' s' v p why t hits,
  after env0 choose 100 ms s o /\ existsb sets ms = false /\
  handle env0 choose 100 s (DRequest q r) = (o', Ret s') /\ s_vm s' = Some (v, p) /\ stops o' = [EStopped why t hits] /\ ~ right r v why t.
Proof.
  exists [initialize; launch looping]. do 2 eexists. exists 4%Z, (RContinue (Args 0%Z)). do 7 eexists.
  split; [vm_compute; reflexivity|]. split; [reflexivity|]. split; [vm_compute; reflexivity|]. split; [reflexivity|]. split; [reflexivity|].
  intros [id [b [i [E _]]]]. discriminate E.
Qed.

(* otherwise the reason is right; and at the end every thread has left the program *)
Theorem C127_partial en pick fuel ms s o q r o' s' v p why t hits :
  after en pick fuel ms s o -> handle en pick fuel s (DRequest q r) = (o', Ret s') -> s_vm s' = Some (v, p) ->
  In (EStopped why t hits) (stops o') ->
  right r v why t \/ (exists a, r = RContinue a) /\ why = ByBreakpoint /\ t = None /\ v_branch v = None /\ forall b, In b (v_branches v) -> exited b.
Proof.
  intros A H V I. destruct (controls r) eqn:C.
  2:{ pose proof (C63_only_then en pick fuel s q r C) as N. rewrite H in N. cbn [fst] in N. rewrite N in I. destruct I. }
  destruct (C63_stops en pick fuel ms s o q r o' s' v p A C H V) as [ev [S T]]. rewrite S in I. destruct I as [->|[]].
  inversion T; subst.
  - left. assumption.
  - destruct r as [a|a| | | |a| | | | |a| |a|a|a|a|c]; try discriminate C; cbn [reason_of]; [left; eexists; reflexivity|left; reflexivity| |left; eexists; reflexivity].
    right. split; [eexists; reflexivity|]. auto.
  - destruct r as [a|a| | | |a| | | | |a| |a|a|a|a|c]; try discriminate C; cbn [reason_of]; [left; eexists; reflexivity|left; reflexivity| |left; eexists; reflexivity].
    exfalso. match goal with Y : forall a, RContinue _ <> RContinue a |- _ => exact (Y _ eq_refl) end.
  - left. do 3 eexists. split; [reflexivity|]. split; [split; [eassumption|reflexivity]|]. split; eassumption.
Qed.

(* without a breakpoint on an instruction, a continue runs every thread to its end, or to an instruction that fails *)
Theorem C127_none en pick fuel q0 ln cn ms s o v p q a o' s' :
  forallb (fun m => negb (says m)) ms = true -> after en pick fuel (counting q0 ln cn ms) s o -> s_vm s = Some (v, p) ->
  (forall i, ~ marked v ln (fold_left asks ms []) i) ->
  handle en pick fuel s (DRequest q (RContinue (Args a))) = (o', Ret s') ->
  exists v', s_vm s' = Some (v', p) /\
    (stops o' = [EStopped ByException None []] /\ v_error v' = true \/
     stops o' = [EStopped ByBreakpoint None []] /\ forall b, In b (v_branches v') -> exited b).
Proof.
  intros N A V M H.
  assert (B : v_bps v = []).
  { destruct (v_bps v) as [|i l] eqn:E; [reflexivity|]. exfalso. apply (M i). apply (C123_exact en pick fuel q0 ln cn ms s o v p N A V i). rewrite E. left. reflexivity. }
  pose proof (after_runs _ _ _ _ _ _ A) as R.
  assert (K : kept (v_bps v) (v_listing v) p (s_vm s)) by (exists v; auto).
  pose proof (handle_quiet en pick fuel _ _ _ s (DRequest q (RContinue (Args a))) eq_refl R K) as K'. rewrite H in K'. destruct K' as [v' [V' [B' _]]].
  exists v'. split; [exact V'|].
  destruct (C63_stops en pick fuel _ s o q (RContinue (Args a)) o' s' v' p A eq_refl H V') as [ev [S T]]. rewrite S. inversion T; subst.
  - left. auto.
  - right. auto.
  - exfalso. match goal with Y : forall a, RContinue _ <> RContinue a |- _ => exact (Y _ eq_refl) end.
  - exfalso. match goal with Y : In _ (v_bps v') |- _ => rewrite B', B in Y; destruct Y end.
Qed.
(* entry, step, breakpoint and exception *)
Example C127_ex : exists s o v p o' s' v', after env0 choose 100 [initialize; launch looping; DRequest 3 (RSetBreakpoints (Args (here, [4%Z])))] s o /\ s_vm s = Some (v, p) /\
  handle env0 choose 100 s (DRequest 4 (RContinue (Args 0%Z))) = (o', Ret s') /\ s_vm s' = Some (v', p) /\
  stops (o ++ o') = [EStopped ByEntry (Some 0) []; EStopped ByBreakpoint (Some 0) [3]] /\ right (RContinue (Args 0%Z)) v' ByBreakpoint (Some 0).
Proof.
  do 7 eexists. split; [vm_compute; reflexivity|]. split; [reflexivity|]. split; [vm_compute; reflexivity|]. split; [reflexivity|]. split; [reflexivity|].
  exists 0. do 2 eexists. split; [reflexivity|]. split; [split; [left; reflexivity|reflexivity]|]. split; [reflexivity|left; reflexivity].
Qed.
(* a breakpoint on a label, and a program that fails *)
Example C127_none_ex : exists s o v p, after env0 choose 100 (counting 1 None None [launch ["int 1"; "a:"; "byte 0x00"; "+"]%string; DRequest 3 (RSetBreakpoints (Args (here, [2%Z])))]) s o /\
  s_vm s = Some (v, p) /\ v_bps v = [] /\ stops (fst (handle env0 choose 100 s (DRequest 4 (RContinue (Args 0%Z))))) = [EStopped ByException None []].
Proof. do 4 eexists. split; [vm_compute; reflexivity|]. split; [reflexivity|]. split; [reflexivity|]. vm_compute. reflexivity. Qed.
Print Assumptions C127_refuted.
Print Assumptions C127_partial.
Print Assumptions C127_none.
