(* The breakpoints in force. *)
From Verif Require Import Base Expr Process Vm VmSkip VmInv VmSpec VmThms Dbg DbgSpec DbgProofs CountProofs.

(* the lines asked for: a launch begins with none, a request replaces them *)
Definition asks (acc : list Z) (m : dmessage) : list Z :=
  match m with
  | DRequest _ (RLaunch (Args (_, Some _))) => []
  | DRequest _ (RSetBreakpoints (Args (_, lines))) => lines
  | _ => acc
  end.
(* the breakpoints of the machine are the instructions on these lines *)
Definition bound (lz : Z) (lines : list Z) (o : option (vm * str)) : Prop :=
  match o with
  | None => True
  | Some (v, _) => forall i, In i (v_bps v) <-> exists l, In l lines /\ (l - lz = Z.of_nat i)%Z /\ instruction_at v (Z.of_nat i)
  end.

Lemma bound_like lz lines v p w p' : v_bps w = v_bps v -> v_listing w = v_listing v -> bound lz lines (Some (v, p)) -> bound lz lines (Some (w, p')).
Proof. intros B L H i. unfold instruction_at in *. rewrite B, L. apply H. Qed.

Lemma step_marks l ver v w : wf l ver v -> step v = Ret w -> v_bps w = v_bps v /\ v_listing w = v_listing v.
Proof. intros W E. destruct (step_spec_facts _ _ _ _ W E) as [k [b [b' [new [_ [_ [_ [_ [_ [_ [L [_ [B _]]]]]]]]]]]]]. auto. Qed.
Lemma run_marks l ver : forall fuel v w, reach l ver v -> run_vm fuel v = Ret w -> v_bps w = v_bps v /\ v_listing w = v_listing v.
Proof.
  induction fuel as [|fuel IH]; intros v w R E; cbn [run_vm] in E.
  - destruct (v_branch v); [|injection E as <-; auto]. destruct (v_error v); [injection E as <-; auto|discriminate].
  - destruct (v_branch v); [|injection E as <-; auto]. destruct (v_error v); [injection E as <-; auto|].
    destruct (step v) as [v1| |] eqn:Es; try discriminate. cbn [bindr] in E. destruct (step_marks _ _ _ _ (reach_wf _ _ _ R) Es) as [B L].
    destruct (v_trig v1); [|injection E as <-; auto].
    destruct (IH v1 w) as [B' L']; [eapply reach_command; [exact R|apply cmd_step; exact Es]|exact E|]. split; congruence.
Qed.
Lemma switch_marks id v : v_bps (switch_z id v) = v_bps v /\ v_listing (switch_z id v) = v_listing v.
Proof. unfold switch_z, switch_vm. destruct (id <? 0)%Z; [auto|]. destruct (find_branch _ _ _); auto. Qed.
Lemma new_marks l ver v : new_vm l ver = Ret v -> v_bps v = [].
Proof.
  unfold new_vm. intros E.
  match type of E with vm_skip_nops ?w = _ => destruct (vm_skip_nops_spec w) as [v1 [E1 P]]; [cbn; lia|] end.
  rewrite E in E1. injection E1 as <-. destruct P as [[_ [_ [_ [_ [P _]]]]] _]. exact P.
Qed.
Lemma bind_marks l lns : forall ns, bind_lines l lns = Ret ns -> forall z, In z lns -> (0 <= z)%Z.
Proof.
  induction lns as [|n lns IH]; intros ns E z H; [destruct H|destruct H as [<-|H]]; cbn [bind_lines] in E.
  - destruct (n >=? Z.of_nat (length l))%Z eqn:G; [lia|]. destruct (n <? 0)%Z eqn:F; [discriminate|lia].
  - destruct (n >=? Z.of_nat (length l))%Z; [exact (IH _ E _ H)|]. destruct (n <? 0)%Z; [discriminate|].
    destruct (index l (Z.to_nat n)); try discriminate. cbn [bindr] in E. destruct (bind_lines l lns) as [ms| |]; try discriminate. exact (IH _ eq_refl _ H).
Qed.
Lemma set_marks lz lines v w ns p : set_breakpoints (map (fun l => l - lz)%Z lines) v = Ret (w, ns) -> bound lz lines (Some (w, p)).
Proof.
  intros E. assert (Hz : forall z, In z (map (fun l => (l - lz)%Z) lines) -> (0 <= z)%Z).
  { unfold set_breakpoints in E. destruct (bind_lines _ _) as [ms| |] eqn:F; try discriminate. exact (bind_marks _ _ _ F). }
  destruct (breakpoints_verified v _ Hz) as [ns' [E' Hn]]. rewrite E in E'. injection E' as -> ->. intros i. cbn [v_bps set_bps]. rewrite Hn, in_map_iff. split.
  - intros [[l [Q Hin]] X]. exists l. split; [exact Hin|]. split; [exact Q|]. apply nop_spec. split; [lia|]. rewrite Nat2Z.id. exact X.
  - intros [l [Hin [Q X]]]. apply nop_spec in X. rewrite Nat2Z.id in X. split; [eauto|apply X].
Qed.

Section Marks.
Variables (en : env) (pick : list nat -> nat) (fuel : nat).
Definition holds (lz : Z) (lines : list Z) (x : outcome) : Prop := match snd x with Ret s1 => bound lz lines (s_vm s1) | _ => True end.
Lemma holds_reply lz lines q c b k t : holds lz lines (k (set_seq (S (s_seq t)) t)) -> holds lz lines (reply q c b k t).
Proof. unfold reply. destruct (k _) as [o r]. exact (fun H => H). Qed.
Lemma holds_notify lz lines e k t : holds lz lines (k (set_seq (S (s_seq t)) t)) -> holds lz lines (notify e k t).
Proof. unfold notify. destruct (k _) as [o r]. exact (fun H => H). Qed.
Lemma holds_stopped lz lines r v t : bound lz lines (s_vm t) -> holds lz lines (stopped r v t).
Proof. intros A. unfold stopped. destruct (current_thread v); [|exact I|exact I]. apply holds_notify. exact A. Qed.

Lemma handle_marks lz lines s m : runs en (s_vm s) -> s_lz s = lz -> bound lz lines (s_vm s) -> holds lz (asks lines m) (handle en pick fuel s m).
Proof.
  intros R L H. destruct m as [q r|]; [|exact H].
  destruct r as [a|a| | | |a| | | | |a| |a|a|a|a|x]; cbn [handle asks]; try exact H.
  - destruct a as [| |[ln cn]]; [exact H|exact I|]. apply holds_reply, holds_notify. exact H.
  - destruct a as [| |[path [src|]]]; [exact H|exact I| |exact H].
    destruct (process en src) as [r| |]; cbn [bindr]; [|exact I|exact I].
    destruct (new_vm (r_listing r) (r_version r)) as [v| |] eqn:Ev; [|exact I|exact I].
    apply holds_reply, holds_notify, holds_stopped. cbn [s_vm set_seq bound]. rewrite (new_marks _ _ _ Ev). intros i. split; [intros []|intros [l [[] _]]].
  - destruct a as [| |[src ls]]; [exact H| |]; (destruct (s_vm s) as [[v p]|] eqn:Ev; [|unfold holds, reply; cbn; rewrite ?Ev; exact I]); [exact I|].
    destruct (set_breakpoints _ v) as [[w ns]| |] eqn:Eb; [|exact I|exact I]. apply holds_reply. unfold holds, done. cbn [snd set_seq s_vm set_machine]. rewrite Ev.
    rewrite L in Eb. exact (set_marks _ _ _ _ _ _ Eb).
  - apply holds_reply. cbn [set_seq s_vm]. destruct (s_vm s) as [[v p]|] eqn:Ev; [|exact I]. apply holds_stopped. cbn [set_seq s_vm]. rewrite Ev. exact H.
  - assert (G : forall a, holds lz lines (resume pick fuel a (set_seq (S (s_seq s)) s))).
    { intros id. unfold resume. cbn [s_vm set_seq]. destruct (s_vm s) as [[v p]|] eqn:Ev; [|unfold holds; cbn; rewrite ?Ev; exact I].
      destruct (run_vm fuel v) as [w| |] eqn:Er; [|exact I|exact I].
      assert (Q : bound lz lines (s_vm (set_machine w (set_seq (S (s_seq s)) s)))).
      { cbn [set_machine s_vm set_seq]. rewrite Ev. destruct R as [src [r [_ Rr]]]. destruct (run_marks _ _ _ _ _ Rr Er) as [B L']. exact (bound_like _ _ _ _ _ _ B L' H). }
      destruct (v_error w); [apply holds_notify; exact Q|]. destruct (v_trig w); [destruct (v_branch w); [exact Q|apply holds_notify; exact Q]|].
      destruct id; [exact I|exact I|apply holds_notify; exact Q]. }
    destruct a as [| |id]; [exact H|apply holds_reply, G|apply holds_reply, G].
  - destruct a as [| |id]; [exact H| |]; apply holds_reply; unfold advance; cbn [s_vm set_seq]; (destruct (s_vm s) as [[v p]|] eqn:Ev; [|exact I]); [exact I|].
    destruct (step (switch_z id v)) as [w| |] eqn:Es; [|exact I|exact I].
    assert (Q : bound lz lines (s_vm (set_machine w (set_seq (S (s_seq s)) s)))).
    { cbn [set_machine s_vm set_seq]. rewrite Ev. destruct R as [src [r [_ Rr]]].
      destruct (step_marks _ _ _ _ (reach_wf _ _ _ (reach_switch _ _ id _ Rr)) Es) as [B L'], (switch_marks id v) as [B' L'']. eapply bound_like; [| |exact H]; congruence. }
    cbv zeta. destruct (v_error w); [apply holds_notify; exact Q|apply holds_stopped; exact Q].
  - destruct a as [| |[[rf st] ct]]; [exact H|exact I|]. destruct (variables _ _ _ _); [exact H|exact I|exact I].
  - destruct a as [| |a]; [exact H| |]; (destruct (s_vm s) as [[v p]|] eqn:Ev; [|unfold holds, reply; cbn; rewrite ?Ev; exact I]); [exact I|].
    destruct (for_branches _ _ _); [|exact I|exact I]. unfold holds, reply. cbn. rewrite Ev. exact H.
  - destruct a as [| |a]; [exact H| |]; (destruct (s_vm s) as [[v p]|] eqn:Ev; [|unfold holds, reply; cbn; rewrite ?Ev; exact I]); [exact I|].
    destruct (for_branches _ _ _); [|exact I|exact I]. unfold holds, reply. cbn. rewrite Ev. exact H.
Qed.

Lemma converse_marks ms : forallb (fun m => negb (says m)) ms = true -> forall lz lines s o s1, runs en (s_vm s) -> s_lz s = lz -> bound lz lines (s_vm s) ->
  converse en pick fuel s ms = (o, Ret s1) -> bound lz (fold_left asks ms lines) (s_vm s1).
Proof.
  induction ms as [|m ms IH]; intros N lz lines s o s1 R L H E; [injection E as _ <-; exact H|]. cbn [forallb converse fold_left] in *. apply andb_prop in N as [A B]. apply Bool.negb_true_iff in A.
  pose proof (handle_marks lz lines s m R L H) as K. pose proof (handle_runs en pick fuel s m R) as K'. destruct (handle en pick fuel s m) as [o1 [s'| |]] eqn:F; try discriminate E.
  destruct (converse en pick fuel s' ms) as [o' e] eqn:C. injection E as <- ->. unfold holds in K. cbn [snd] in K.
  eapply IH; [exact B|exact (K' _ eq_refl)| |exact K|exact C]. destruct (kept_handle _ _ _ _ _ _ _ A F) as [X _]. congruence.
Qed.
End Marks.

(* messages that leave the breakpoints alone *)
Definition quiet (m : dmessage) : bool :=
  match m with DRequest _ (RLaunch (Args (_, Some _)) | RSetBreakpoints (Args _) | RInitialize (Args _)) => false | _ => true end.
Section Quiet.
Variables (en : env) (pick : list nat -> nat) (fuel : nat) (B : list nat) (L : listing) (p : str).
Definition kept (o : option (vm * str)) : Prop := exists v, o = Some (v, p) /\ v_bps v = B /\ v_listing v = L.
Definition keeps_on (x : outcome) : Prop := match snd x with Ret s1 => kept (s_vm s1) | _ => True end.
Lemma keeps_reply' q c b k t : keeps_on (k (set_seq (S (s_seq t)) t)) -> keeps_on (reply q c b k t).
Proof. unfold reply. destruct (k _) as [o r]. exact (fun H => H). Qed.
Lemma keeps_notify' e k t : keeps_on (k (set_seq (S (s_seq t)) t)) -> keeps_on (notify e k t).
Proof. unfold notify. destruct (k _) as [o r]. exact (fun H => H). Qed.
Lemma keeps_stopped' r v t : kept (s_vm t) -> keeps_on (stopped r v t).
Proof. intros A. unfold stopped. destruct (current_thread v); [|exact I|exact I]. apply keeps_notify'. exact A. Qed.

Lemma handle_quiet s m : quiet m = true -> runs en (s_vm s) -> kept (s_vm s) -> keeps_on (handle en pick fuel s m).
Proof.
  intros N R H. destruct m as [q r|]; [|exact H]. destruct H as [v [Ev [Hb Hl]]].
  assert (H : kept (s_vm s)) by (exists v; auto). rewrite Ev in R. destruct R as [src [r0 [_ R]]].
  destruct r as [a|a| | | |a| | | | |a| |a|a|a|a|x]; cbn [handle]; try exact H.
  - destruct a as [| |x]; [exact H|exact I|discriminate N].
  - destruct a as [| |[path [t|]]]; [exact H|exact I|discriminate N|exact H].
  - destruct a as [| |x]; [exact H| |discriminate N]. rewrite Ev. exact I.
  - apply keeps_reply'. cbn [set_seq s_vm]. rewrite Ev. apply keeps_stopped'. exact H.
  - assert (G : forall a, keeps_on (resume pick fuel a (set_seq (S (s_seq s)) s))).
    { intros id. unfold resume. cbn [s_vm set_seq]. rewrite Ev. destruct (run_vm fuel v) as [w| |] eqn:Er; [|exact I|exact I].
      assert (Q : kept (s_vm (set_machine w (set_seq (S (s_seq s)) s)))).
      { cbn [set_machine s_vm set_seq]. rewrite Ev. destruct (run_marks _ _ _ _ _ R Er) as [X Y]. exists w. repeat split; congruence. }
      destruct (v_error w); [apply keeps_notify'; exact Q|]. destruct (v_trig w); [destruct (v_branch w); [exact Q|apply keeps_notify'; exact Q]|].
      destruct id; [exact I|exact I|apply keeps_notify'; exact Q]. }
    destruct a as [| |id]; [exact H|apply keeps_reply', G|apply keeps_reply', G].
  - destruct a as [| |id]; [exact H| |]; apply keeps_reply'; unfold advance; cbn [s_vm set_seq]; rewrite Ev; [exact I|].
    destruct (step (switch_z id v)) as [w| |] eqn:Es; [|exact I|exact I].
    assert (Q : kept (s_vm (set_machine w (set_seq (S (s_seq s)) s)))).
    { cbn [set_machine s_vm set_seq]. rewrite Ev.
      destruct (step_marks _ _ _ _ (reach_wf _ _ _ (reach_switch _ _ id _ R)) Es) as [X Y], (switch_marks id v) as [X' Y']. exists w. repeat split; congruence. }
    cbv zeta. destruct (v_error w); [apply keeps_notify'; exact Q|apply keeps_stopped'; exact Q].
  - destruct a as [| |[[rf st] ct]]; [exact H|exact I|]. destruct (variables _ _ _ _); [exact H|exact I|exact I].
  - destruct a as [| |a]; [exact H| |]; rewrite Ev; [exact I|]. destruct (for_branches _ _ _); [exact H|exact I|exact I].
  - destruct a as [| |a]; [exact H| |]; rewrite Ev; [exact I|]. destruct (for_branches _ _ _); [exact H|exact I|exact I].
Qed.
Lemma converse_quiet ms : forallb quiet ms = true -> forall s o s1, runs en (s_vm s) -> kept (s_vm s) -> converse en pick fuel s ms = (o, Ret s1) -> kept (s_vm s1).
Proof.
  induction ms as [|m ms IH]; intros N s o s1 R H E; [injection E as _ <-; exact H|]. cbn [forallb converse] in *. apply andb_prop in N as [A C].
  pose proof (handle_quiet s m A R H) as K. pose proof (handle_runs en pick fuel s m R) as K'. destruct (handle en pick fuel s m) as [o1 [s'| |]] eqn:F; try discriminate E.
  destruct (converse en pick fuel s' ms) as [o' e] eqn:D. injection E as <- ->. exact (IH C s' o' s1 (K' _ eq_refl) K D).
Qed.
End Quiet.
