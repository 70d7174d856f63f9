(* Whether a session goes on after an instruction has failed. *)
From Verif Require Import Base Expr Process VmOps Vm VmProofs VmSkip VmStep VmExec VmSpec VmInv VmThms Dbg DbgSpec DbgProofs PropProcess PropDbg.

(* a next request takes a thread past the instruction that failed: the first attempt has taken a value off the stack, and
   the second finds the operands it needs (vm.go:217-236, 439) *)
Definition surplus : list string := ["#pragma version 8"; "byte 0x00"; "int 0"; "int 0"; "getbyte"; "int 1"; "return"]%string.
Definition nexts (from n : nat) : list dmessage := map (fun i => DRequest (Z.of_nat i) (RNext (Args 0%Z))) (seq from n).
Theorem C128_refuted : exists ms s o v p b i q o' s' v' b',
  after env0 choose 100 ms s o /\ s_vm s = Some (v, p) /\ v_error v = true /\ has_branch v 0 b /\ on_line b i /\ nth_error (v_listing v) i = Some (Op0 GetByteExpr) /\
  handle env0 choose 100 s (DRequest q (RNext (Args 0%Z))) = (o', Ret s') /\ s_vm s' = Some (v', p) /\ v_error v' = false /\
  stops o' = [EStopped ByStep (Some 0) []] /\ has_branch v' 0 b' /\ on_line b' (S i).
Proof.
  exists (launch surplus :: nexts 3 4). do 6 eexists. exists 9%Z. do 4 eexists.
  split; [vm_compute; reflexivity|]. split; [reflexivity|]. split; [reflexivity|]. split; [split; [left; reflexivity|reflexivity]|]. split; [reflexivity|]. split; [reflexivity|].
  split; [vm_compute; reflexivity|]. split; [reflexivity|]. split; [reflexivity|]. split; [reflexivity|]. split; [split; [left; reflexivity|reflexivity]|]. reflexivity.
Qed.

(* neither a launch nor a step *)
Definition no_step (m : dmessage) : bool :=
  match m with DRequest _ (RLaunch (Args (_, Some _)) | RNext (Args _)) => false | _ => true end.
Section Failed.
Variables (en : env) (pick : list nat -> nat) (fuel : nat) (B : list branch) (S0 : list value) (p : str).
Definition stuck (o : option (vm * str)) : Prop := exists v, o = Some (v, p) /\ v_branches v = B /\ v_scratch v = S0 /\ v_error v = true.
(* and what is said about it is an exception, or the answer to a pause *)
Definition said (ev : devent) : Prop := ev = EStopped ByException None [] \/ exists t, ev = EStopped ByPause t [].
Definition stays (x : outcome) : Prop := (match snd x with Ret s1 => stuck (s_vm s1) | _ => True end) /\ Forall said (stops (fst x)).
Lemma stays_done s : stuck (s_vm s) -> stays (done s).
Proof. intros H. split; [exact H|constructor]. Qed.
Lemma stays_crash : stays crash.
Proof. split; [exact I|constructor]. Qed.
Lemma stays_reply q c b k t : stays (k (set_seq (S (s_seq t)) t)) -> stays (reply q c b k t).
Proof. unfold reply. destruct (k _) as [o r]. exact (fun H => H). Qed.
Lemma stays_notify r t0 h k t : said (EStopped r t0 h) -> stays (k (set_seq (S (s_seq t)) t)) -> stays (notify (EStopped r t0 h) k t).
Proof. unfold notify. destruct (k _) as [o e]. intros H [A C]. split; [exact A|]. constructor; [exact H|exact C]. Qed.
Lemma handle_stays s m : no_step m = true -> stuck (s_vm s) -> stays (handle en pick fuel s m).
Proof.
  intros N H. destruct m as [q r|]; [|apply stays_done; exact H]. destruct H as [v [Ev [Hb [Hs He]]]].
  assert (H : stuck (s_vm s)) by (exists v; auto). pose proof (stays_done s H) as D.
  assert (Dr : forall q c b, stays (reply q c b done s)) by (intros; apply stays_reply, stays_done; exact H).
  destruct r as [a|a| | | |a| | | | |a| |a|a|a|a|x]; cbn [handle]; try exact D; try apply Dr.
  - destruct a as [| |[l c]]; [exact D|apply stays_crash|]. apply stays_reply. unfold notify. cbn. split; [exact H|constructor].
  - destruct a as [| |[path [t|]]]; [exact D|apply stays_crash|discriminate N|exact D].
  - destruct a as [| |[src ls]]; [exact D| |]; rewrite Ev; [apply stays_crash|]. unfold set_breakpoints. destruct (bind_lines _ _) as [ns| |]; cbn [bindr]; [|apply stays_crash|apply stays_crash].
    apply stays_reply, stays_done. cbn. rewrite Ev. exists (set_bps ns v). auto.
  - apply stays_reply. cbn [set_seq s_vm]. rewrite Ev. unfold stopped. destruct (current_thread v); [|apply stays_crash|apply stays_crash].
    apply stays_notify; [right; eexists; reflexivity|]. apply stays_done. exact H.
  - assert (G : forall a, stays (resume pick fuel a (set_seq (S (s_seq s)) s))).
    { intros id. unfold resume. cbn [s_vm set_seq]. rewrite Ev.
      assert (Er : run_vm fuel v = Ret v) by (destruct fuel; cbn [run_vm]; destruct (v_branch v); rewrite ?He; reflexivity). rewrite Er. cbv zeta. rewrite He.
      apply stays_notify; [left; reflexivity|]. apply stays_done. cbn. rewrite Ev. exists v. auto. }
    destruct a as [| |id]; [exact D|apply stays_reply, G|apply stays_reply, G].
  - destruct a as [| |id]; [exact D| |discriminate N]. apply stays_reply. unfold advance. cbn [s_vm set_seq]. rewrite Ev. apply stays_crash.
  - destruct a as [| |[[rf st] ct]]; [exact D|apply stays_crash|]. destruct (variables _ _ _ _); [apply Dr|apply stays_crash|apply stays_crash].
  - destruct a as [| |a]; [exact D| |]; rewrite Ev; [apply stays_crash|]. destruct (for_branches _ _ _); [apply Dr|apply stays_crash|apply stays_crash].
  - destruct a as [| |a]; [exact D| |]; rewrite Ev; [apply stays_crash|]. destruct (for_branches _ _ _); [apply Dr|apply stays_crash|apply stays_crash].
Qed.
Lemma stops_app a b : stops (a ++ b) = stops a ++ stops b.
Proof. unfold stops. apply flat_map_app. Qed.
Lemma converse_stays ms : forallb no_step ms = true -> forall s, stuck (s_vm s) -> stays (converse en pick fuel s ms).
Proof.
  induction ms as [|m ms IH]; intros N s H; [apply stays_done; exact H|]. cbn [forallb converse] in *. apply andb_prop in N as [A C].
  pose proof (handle_stays s m A H) as [K1 K2]. destruct (handle en pick fuel s m) as [o1 [s'| |]]; cbn [fst snd] in *; [|split; [exact I|exact K2]|split; [exact I|exact K2]].
  pose proof (IH C s' K1) as [L1 L2]. destruct (converse en pick fuel s' ms) as [o2 e]. cbn [fst snd] in *. split; [exact L1|]. cbn [fst]. rewrite stops_app. apply Forall_app. auto.
Qed.
End Failed.
(* without a next request or a launch nothing moves any more, however often the client continues *)
Theorem C128_partial en pick fuel s v p ms o s' :
  s_vm s = Some (v, p) -> v_error v = true -> forallb no_step ms = true -> converse en pick fuel s ms = (o, Ret s') ->
  (exists v', s_vm s' = Some (v', p) /\ v_branches v' = v_branches v /\ v_scratch v' = v_scratch v /\ v_error v' = true) /\
  forall ev, In ev (stops o) -> ev = EStopped ByException None [] \/ exists t, ev = EStopped ByPause t [].
Proof.
  intros V E N C. pose proof (converse_stays en pick fuel (v_branches v) (v_scratch v) p ms N s) as H. rewrite C in H. cbn [fst snd] in H.
  destruct H as [A F]; [exists v; auto|]. split; [exact A|]. intros ev I. rewrite Forall_forall in F. exact (F ev I).
Qed.
(* the machine stays before the instruction that failed, so that this is what a next request tries again *)
Theorem C128_where l ver v k b i e v' : reach l ver v -> before l v k b i e -> step v = Ret v' -> v_error v' = true ->
  exists b', before l v' k b' i e /\ b_id b' = b_id b.
Proof.
  intros R B E Er. pose proof (reach_wf _ _ _ R) as W. pose proof (step_stepped _ _ _ _ _ _ _ W B) as St. rewrite E in St. destruct B as [B1 B2 B3 B4].
  inversion St as [Hp Hr|c Hcost Hc1 Hc2 Hr|c v3 Hcost Hc Hex Hr|c v3 Hcost Hc Hex Hr
                  |c v3 b3 b4 t4 ok v5 b5 Hcost Hc Hex Hb3 Hsk Hvs P5 Hb5 Hr]; clear St; try discriminate; subst v'.
  - exists b. split; [constructor; assumption|reflexivity].
  - cbn in Er. discriminate.
  - pose proof (nth_put_same k b (pay e c b) (reset v) B2) as Hpay.
    destruct (execute_panic_line e _ _ _ _ Hpay Hex) as [b3 [Hb3 L3]].
    pose proof (Ext_execute e k _ _ _ Hex) as X. destruct X as [[X1 [X2 [X3 [X4 [X5 [X6 X7]]]]]] X].
    destruct (X _ Hpay) as [b3' [new [A1 [A2 _]]]].
    assert (Q : b3' = b3).
    { rewrite A1, nth_error_app1, nth_upd_nth_same, Hpay in Hb3 by (rewrite upd_nth_length; eapply nth_error_lt; exact Hpay). cbn in Hb3. congruence. }
    subst b3'. exists b3. split; [|exact A2]. constructor; cbn; [rewrite X3; exact B1|exact Hb3|rewrite L3; exact B3|exact B4].
  - exfalso. pose proof (Ext_execute e k _ _ _ Hex) as X. destruct X as [[X1 [X2 [X3 [X4 [X5 [X6 X7]]]]]] _].
    destruct P5 as [[U1 [U2 [U3 [U4 [U5 U6]]]]] _]. cbn in *. congruence.
Qed.
Example C128_ex : exists s o v p o' s', after env0 choose 100 (launch surplus :: nexts 3 4) s o /\ s_vm s = Some (v, p) /\ v_error v = true /\
  converse env0 choose 100 s [DRequest 7 (RContinue (Args 0%Z)); DRequest 8 RPause; DRequest 9 (RContinue (Args 0%Z))] = (o', Ret s') /\
  stops o' = [EStopped ByException None []; EStopped ByPause (Some 0) []; EStopped ByException None []].
Proof. do 6 eexists. split; [vm_compute; reflexivity|]. split; [reflexivity|]. split; [reflexivity|]. split; [vm_compute; reflexivity|]. reflexivity. Qed.
Example C128_where_ex : exists v b v', reach [IntExpr 1; Op0 LenExpr] 8 v /\ before [IntExpr 1; Op0 LenExpr] v 0 b 1 (Op0 LenExpr) /\
  step v = Ret v' /\ v_error v' = true.
Proof.
  do 3 eexists. split.
  { eexists. split; [vm_compute; reflexivity|]. eapply later_command; [apply later_now|]. apply cmd_step. vm_compute. reflexivity. }
  split; [constructor; reflexivity|]. split; [vm_compute; reflexivity|]. reflexivity.
Qed.
Print Assumptions C128_refuted.
Print Assumptions C128_partial.
Print Assumptions C128_where.
