(* The breakpoints in force are those last set in the file. *)
From Verif Require Import Base Expr Process Vm VmSpec Dbg DbgSpec DbgProofs PropProcess PropDbg CountProofs PropCount MarkProofs.
Local Open Scope Z_scope.

(* the lines the client last asked for in the file, since the launch *)
Definition asks_in (file : str) (acc : list Z) (m : dmessage) : list Z :=
  match m with
  | DRequest _ (RLaunch (Args (_, Some _))) => []
  | DRequest _ (RSetBreakpoints (Args (src, lines))) => if seqb (ds_path src) file then lines else acc
  | _ => acc
  end.
Definition set_in (file : str) (ms : list dmessage) : list Z := fold_left (asks_in file) ms [].
(* an instruction that stands on one of the lines, counted from the first *)
Definition marked (v : vm) (ln : option bool) (lines : list Z) (i : nat) : Prop :=
  exists l, In l lines /\ l - first ln = Z.of_nat i /\ instruction_at v (Z.of_nat i).

(* clearing the breakpoints of another file clears those of the program *)
Theorem C123_refuted : exists ms s o v p,
  forallb (fun m => negb (says m)) ms = true /\ after env0 choose 100 (counting 1 None None ms) s o /\ s_vm s = Some (v, p) /\
  ~ (forall i, In i (v_bps v) <-> marked v None (set_in p ms) i).
Proof.
  exists [launch looping; DRequest 3 (RSetBreakpoints (Args (here, [4]))); DRequest 4 (RSetBreakpoints (Args (DSource [] (bs "b.teal"), [])))].
  do 4 eexists. split; [reflexivity|]. split; [vm_compute; reflexivity|]. split; [reflexivity|]. intros H. apply (proj2 (H 3%nat)).
  exists 4. split; [left; reflexivity|]. split; [reflexivity|]. split; [discriminate|]. eexists. split; [reflexivity|exact I].
Qed.
(* what is in force is what was asked for last, in whatever file *)
Theorem C123_exact en pick fuel q ln cn ms s o v p :
  forallb (fun m => negb (says m)) ms = true -> after en pick fuel (counting q ln cn ms) s o -> s_vm s = Some (v, p) ->
  forall i, In i (v_bps v) <-> marked v ln (fold_left asks ms []) i.
Proof.
  intros N A V. unfold after, counting in A. cbn [converse handle] in A. unfold reply, notify, done in A. cbv zeta in A.
  match type of A with (let (_, _) := converse _ _ _ ?x _ in _) = _ => set (s0 := x) in A; assert (E : s_lz s0 = first ln) by (destruct ln as [[|]|]; reflexivity) end.
  destruct (converse en pick fuel s0 ms) as [o' e] eqn:C. injection A as _ ->.
  pose proof (converse_marks en pick fuel ms N (first ln) [] s0 o' s) as H. rewrite V in H. apply H; [exact I|exact E|exact I|exact C].
Qed.
(* so it is right when no other file has been spoken of *)
Theorem C123_partial en pick fuel q ln cn ms s o v p :
  forallb (fun m => negb (says m)) ms = true -> after en pick fuel (counting q ln cn ms) s o -> s_vm s = Some (v, p) ->
  (forall q src lines, In (DRequest q (RSetBreakpoints (Args (src, lines)))) ms -> ds_path src = p) ->
  forall i, In i (v_bps v) <-> marked v ln (set_in p ms) i.
Proof.
  intros N A V F. replace (set_in p ms) with (fold_left asks ms []); [exact (C123_exact en pick fuel q ln cn ms s o v p N A V)|].
  unfold set_in. clear -F. generalize (@nil Z). induction ms as [|m ms IH]; intros acc; [reflexivity|]. cbn [fold_left].
  rewrite IH by (intros; eapply F; right; eassumption). f_equal.
  destruct m as [q' [a|a| | | |[| |[src lines]]| | | | |a| |a|a|a|a|x]|]; try reflexivity. cbn [asks asks_in].
  rewrite (F q' src lines (or_introl eq_refl)). rewrite (proj2 (seqb_eq p p) eq_refl). reflexivity.
Qed.
(* and the program stops by a breakpoint only on a line asked for *)
Theorem C123_stops en pick fuel q0 ln cn ms s o q a o' s' v p t hits :
  forallb (fun m => negb (says m)) ms = true -> after en pick fuel (counting q0 ln cn ms) s o ->
  handle en pick fuel s (DRequest q (RContinue a)) = (o', Ret s') -> s_vm s' = Some (v, p) ->
  (forall q src lines, In (DRequest q (RSetBreakpoints (Args (src, lines)))) ms -> ds_path src = p) ->
  stops o' = [EStopped ByBreakpoint (Some t) hits] ->
  hits <> [] /\ forall h, In h hits -> marked v ln (set_in p ms) h.
Proof.
  intros N A H V F S.
  assert (A' : after en pick fuel (counting q0 ln cn (ms ++ [DRequest q (RContinue a)])) s' (o ++ o')).
  { unfold after, counting in *. rewrite app_comm_cons. clear -A H. revert A. generalize opened. generalize (DRequest q0 (RInitialize (Args (ln, cn))) :: ms). intros l s0. revert s0 o.
    induction l as [|m l IH]; intros s0 o A; cbn [app converse] in *; [injection A as <- <-; rewrite H; rewrite app_nil_r; reflexivity|].
    destruct (handle en pick fuel s0 m) as [o1 [s1| |]]; try discriminate A. destruct (converse en pick fuel s1 l) as [o2 e] eqn:C. injection A as <- ->.
    rewrite (IH _ _ C). rewrite app_assoc. reflexivity. }
  assert (N' : forallb (fun m => negb (says m)) (ms ++ [DRequest q (RContinue a)]) = true) by (rewrite forallb_app, N; reflexivity).
  assert (F' : forall q' src lines, In (DRequest q' (RSetBreakpoints (Args (src, lines)))) (ms ++ [DRequest q (RContinue a)]) -> ds_path src = p).
  { intros q' src lines I. apply in_app_or in I as [I|[I|[]]]; [exact (F _ _ _ I)|discriminate I]. }
  assert (E : set_in p (ms ++ [DRequest q (RContinue a)]) = set_in p ms) by (unfold set_in; rewrite fold_left_app; reflexivity).
  destruct a as [| |id]; [cbn [handle] in H; injection H as <- _; discriminate S| |];
    (match type of H with handle _ _ _ _ (DRequest _ ?r) = _ => destruct (C63_stops en pick fuel _ s o q r o' s' v p A eq_refl H V) as [ev [S' T]] end; rewrite S in S'; injection S' as <-; inversion T; subst;
     [match goal with Y : forall a, RContinue _ <> RContinue a |- _ => exfalso; exact (Y _ eq_refl) end
     |split; [assumption|]; intros h Hin; match goal with Hh : forall h, In h hits -> h = _ |- _ => rewrite (Hh h Hin) end; rewrite <- E;
      match goal with Hi : In ?i (v_bps v) |- _ => exact (proj1 (C123_partial en pick fuel q0 ln cn _ s' _ v p N' A' V F' i) Hi) end]).
Qed.
(* a second request replaces the first; the program stops on line 4 and not before on line 8, which is gone; line 7 is a label *)
Definition marking : list dmessage :=
  [launch looping; DRequest 3 (RSetBreakpoints (Args (here, [4; 8]))); DRequest 4 (RSetBreakpoints (Args (here, [7; 4])))].
Example C123_ex : set_in (bs "a.teal") marking = [7; 4] /\
  exists s o v, after env0 choose 100 (counting 1 None None marking) s o /\ s_vm s = Some (v, bs "a.teal") /\ v_bps v = [3%nat] /\
  stops (fst (handle env0 choose 100 s (DRequest 5 (RContinue (Args 0))))) = [EStopped ByBreakpoint (Some 0%nat) [3%nat]].
Proof. split; [reflexivity|]. do 3 eexists. split; [vm_compute; reflexivity|]. split; [reflexivity|]. split; vm_compute; reflexivity. Qed.
Example C123_hyps : forallb (fun m => negb (says m)) marking = true /\
  forall q src lines, In (DRequest q (RSetBreakpoints (Args (src, lines)))) marking -> ds_path src = bs "a.teal".
Proof. split; [reflexivity|]. intros q src lines [H|[H|[H|[]]]]; try discriminate H; injection H as _ <- _; reflexivity. Qed.
Print Assumptions C123_refuted.
Print Assumptions C123_exact.
Print Assumptions C123_partial.
Print Assumptions C123_stops.
