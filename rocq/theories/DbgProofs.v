(* Proofs about the debug adapter (C49-C53, C62, C63). *)
From Verif Require Import Base Expr Fields Codec Print Process ProcessSpec ProcessProofs ProcessDoc RoundTripSpec RoundTripFit
  VmOps Vm VmProofs VmSkip VmStep VmSpec VmInv VmThms VmHits VmSim Dbg DbgSpec.
From Coq Require Import ZifyBool ZifyNat ZifyN.

(* ------------------------------------------------------------------------------------------ *)
(* machines *)

Lemma new_vm_total l ver : exists v, new_vm l ver = Ret v.
Proof.
  unfold new_vm. match goal with |- context[vm_skip_nops ?w] => destruct (vm_skip_nops_spec w) as [v [E _]]; [cbn; lia|] end.
  eauto.
Qed.

Lemma reach_new l ver v : new_vm l ver = Ret v -> reach l ver v.
Proof. intros E. exists v. split; [exact E|constructor]. Qed.

Lemma reach_command l ver v v' : reach l ver v -> command v v' -> reach l ver v'.
Proof. intros [v0 [E L]] C. exists v0. split; [exact E|]. eapply later_command; eauto. Qed.

Lemma reach_switch l ver id v : reach l ver v -> reach l ver (switch_z id v).
Proof.
  intros R. unfold switch_z. destruct (id <? 0)%Z; [exact R|]. eapply reach_command; [exact R|apply cmd_switch].
Qed.

(* a run ends where it began or with a step *)
Lemma run_last l ver : forall fuel v v', reach l ver v -> run_vm fuel v = Ret v' ->
  (v' = v /\ finished v) \/ exists u, reach l ver u /\ step u = Ret v'.
Proof.
  induction fuel as [|fuel IH]; intros v v' R E; cbn [run_vm] in E.
  - destruct (v_branch v) eqn:Eb; [|injection E as <-; left; split; [reflexivity|left; exact Eb]].
    destruct (v_error v) eqn:Ee; [|discriminate]. injection E as <-. left. split; [reflexivity|right; exact Ee].
  - destruct (v_branch v) eqn:Eb; [|injection E as <-; left; split; [reflexivity|left; exact Eb]].
    destruct (v_error v) eqn:Ee; [injection E as <-; left; split; [reflexivity|right; exact Ee]|].
    destruct (step v) as [v1| |] eqn:Es; try discriminate. cbn [bindr] in E.
    destruct (v_trig v1).
    + assert (R1 : reach l ver v1) by (eapply reach_command; [exact R|apply cmd_step; exact Es]).
      destruct (IH _ _ R1 E) as [[-> F]|X]; [|auto]. right. eauto.
    + injection E as <-. right. eauto.
Qed.

(* a machine without a branch reports nothing *)
Definition calm (v : vm) : Prop := v_branch v = None -> v_trig v = [].

Lemma step_calm l ver v v' : reach l ver v -> step v = Ret v' -> calm v'.
Proof.
  intros R E Hn. destruct (v_trig v') as [|[id ls] t] eqn:Et; [reflexivity|]. exfalso.
  destruct (hits_true _ _ _ _ id ls R E) as [_ [b [i [[Hb _] [Hl _]]]]]; [rewrite Et; left; reflexivity|].
  pose proof (step_wf _ _ _ _ (reach_wf _ _ _ R) E) as W. pose proof (wf_branch _ _ _ W) as Q. rewrite Hn in Q.
  specialize (Q b Hb). unfold on_line in Hl. congruence.
Qed.

Lemma new_calm l ver v : new_vm l ver = Ret v -> v_trig v = [].
Proof.
  unfold new_vm. match goal with |- vm_skip_nops ?w = _ -> _ => set (v0 := w) end. intros E.
  destruct (vm_skip_nops_spec v0) as [v1 [E1 P]]; [cbn; lia|]. rewrite E in E1. injection E1 as <-.
  assert (H : honest anywhere v).
  { eapply (honest_skip_loop _ _ v0); [| |exact E].
    - intros i []. 
    - apply honest_nil. reflexivity. }
  destruct P as [[_ [_ [_ [_ [Pb _]]]]] _]. destruct H as [S H].
  destruct (v_trig v) as [|[id [|ln ls]] t] eqn:Et; [reflexivity| |].
  - exfalso. apply (S id []); [left; reflexivity|reflexivity].
  - exfalso. destruct (H id ln) as [Hin _]; [exists (ln :: ls); cbn; auto|]. rewrite Pb in Hin. exact Hin.
Qed.

Lemma reach_calm l ver v : reach l ver v -> calm v.
Proof.
  intros [v0 [E0 L]]. pose proof (reach_new _ _ _ E0) as R0.
  assert (G : reach l ver v /\ calm v); [|tauto].
  induction L as [|v1 v2 L IH C]; [split; [exact R0|intros _; eapply new_calm; exact E0]|].
  destruct IH as [R1 K]. split; [eapply reach_command; eassumption|].
  destruct C as [v2 Es|v2 fuel Er|id|lns v2 ns Eb].
  - eapply step_calm; eassumption.
  - destruct (run_last _ _ _ _ _ R1 Er) as [[-> _]|[u [Ru Eu]]]; [exact K|]. eapply step_calm; eassumption.
  - unfold switch_vm. destruct (find_branch _ _ _); [|exact K]. intros Q; discriminate.
  - unfold set_breakpoints in Eb. destruct (bind_lines _ _); try discriminate. injection Eb as <- <-. exact K.
Qed.

(* the trace holds instructions of the program *)
Definition traces_in (l : listing) (v : vm) : Prop := forall b e, In b (v_branches v) -> In e (b_trace b) -> In e l.

Lemma step_traces l ver v v' : wf l ver v -> traces_in l v -> step v = Ret v' -> traces_in l v'.
Proof.
  intros W T E. destruct (step_spec_facts _ _ _ _ W E) as [k [b [b' [new [Hb [F2 [_ [_ [_ [_ [_ [_ [_ [_ [_ [_ A]]]]]]]]]]]]]]]].
  assert (Tb : forall e, In e (b_trace b) -> In e l) by (intros e He; eapply T; [eapply nth_error_In; exact Hb|exact He]).
  assert (Tb' : forall e, In e (b_trace b') -> In e l).
  { destruct A; subst; auto.
    - intros x Hx. apply Tb. congruence.
    - intros x Hx.
      match goal with H : b_trace b' = _ |- _ => rewrite H in Hx end. apply in_app_or in Hx. destruct Hx as [Hx|[<- | []]]; [auto|].
      eapply nth_error_In; eassumption. }
  assert (Tn : forall nb e, In nb new -> In e (b_trace nb) -> In e l).
  { intros nb e Hn He. destruct A as [A1 A2 A3 A4 A5 A6|c x i A1 A2 A3 A4 A5 A6 A7 A8 A9 A10 A11|c x i A1 A2 A3 A4 A5 A6 A7 A8 A9 A10 A11 A12 A13]; subst; try contradiction.
    rewrite Forall_forall in A9. destruct (A9 nb Hn) as [_ [Q _]]. rewrite Q in He. auto. }
  intros c e Hc He. destruct (Forall2_In_r _ _ _ _ F2 Hc) as [d [Hd S]].
  destruct S as [_ [_ [_ [_ [St _]]]]]. rewrite St in He. apply in_app_or in Hd. destruct Hd as [Hd|Hd].
  - apply In_upd_nth in Hd. destruct Hd as [->|Hd]; [auto|]. eapply T; eassumption.
  - eapply Tn; eassumption.
Qed.

Lemma reach_traces l ver v : reach l ver v -> traces_in l v.
Proof.
  intros [v0 [E0 L]]. pose proof (reach_new _ _ _ E0) as R0.
  assert (G : reach l ver v /\ traces_in l v); [|tauto].
  assert (T0 : traces_in l v0).
  { intros b e Hb He. unfold new_vm in E0.
    match type of E0 with vm_skip_nops ?w = _ => destruct (vm_skip_nops_spec w) as [v1 [E1 P]]; [cbn; lia|] end.
    rewrite E0 in E1. injection E1 as <-. destruct P as [_ [_ [F2 _]]].
    destruct (Forall2_In_r _ _ _ _ F2 Hb) as [d [Hd S]]. destruct S as [_ [_ [_ [_ [St _]]]]]. rewrite St in He.
    destruct Hd as [<- | []]. destruct He. }
  induction L as [|v1 v2 L IH C]; [auto|].
  destruct IH as [R1 K]. split; [eapply reach_command; eassumption|].
  destruct C as [v2 Es|v2 fuel Er|id|lns v2 ns Eb].
  - eapply step_traces; [|exact K|exact Es]. apply (reach_wf _ _ _ R1).
  - clear L R0 T0 E0. revert v1 R1 K Er. induction fuel as [|fuel IH]; intros v1 R1 K Er; cbn [run_vm] in Er;
      (destruct (v_branch v1); [|injection Er as <-; exact K]); (destruct (v_error v1); [injection Er as <-; exact K|]); [discriminate|].
    destruct (step v1) as [w| |] eqn:Es; try discriminate. cbn [bindr] in Er.
    assert (Kw : traces_in l w) by (eapply step_traces; [apply (reach_wf _ _ _ R1)|exact K|exact Es]).
    destruct (v_trig w); [|injection Er as <-; exact Kw].
    eapply IH; [|exact Kw|exact Er]. eapply reach_command; [exact R1|apply cmd_step; exact Es].
  - unfold switch_vm. destruct (find_branch _ _ _); exact K.
  - unfold set_breakpoints in Eb. destruct (bind_lines _ _); try discriminate. injection Eb as <- <-. exact K.
Qed.

(* ------------------------------------------------------------------------------------------ *)
(* C49: numbers *)
Definition numbered (n : nat) (x : outcome) : Prop :=
  map number (fst x) = seq (S n) (length (fst x)) /\
  forall s, snd x = Ret s -> s_seq s = n + length (fst x).

Lemma num_done s : numbered (s_seq s) (done s).
Proof. split; [reflexivity|]. intros s' E. injection E as <-. cbn. lia. Qed.
Lemma num_none n : numbered n crash /\ numbered n ([], OutOfFuel).
Proof. split; (split; [reflexivity|intros s E; discriminate]). Qed.
Lemma num_reply q c b k s :
  numbered (S (s_seq s)) (k (set_seq (S (s_seq s)) s)) -> numbered (s_seq s) (reply q c b k s).
Proof.
  unfold reply. destruct (k _) as [o r]. intros [H1 H2]. split; cbn in *.
  - rewrite H1. reflexivity.
  - intros s' E. rewrite (H2 s' E). lia.
Qed.
Lemma num_notify e k s :
  numbered (S (s_seq s)) (k (set_seq (S (s_seq s)) s)) -> numbered (s_seq s) (notify e k s).
Proof.
  unfold notify. destruct (k _) as [o r]. intros [H1 H2]. split; cbn in *.
  - rewrite H1. reflexivity.
  - intros s' E. rewrite (H2 s' E). lia.
Qed.
Lemma num_stopped r v s : numbered (s_seq s) (stopped r v s).
Proof.
  unfold stopped. destruct (current_thread v); [|apply num_none|apply num_none].
  apply num_notify. apply (num_done (set_seq (S (s_seq s)) s)).
Qed.
(* the number of a state whose other fields have changed *)
Lemma num_same n x s : n = s_seq s -> numbered (s_seq s) x -> numbered n x.
Proof. intros -> H. exact H. Qed.

Ltac num :=
  cbv zeta;
  repeat first
    [ apply num_none
    | match goal with |- numbered ?n (done ?s) => apply (num_same n (done s) s eq_refl), num_done end
    | match goal with |- numbered ?n (stopped ?r ?v ?s) => apply (num_same n (stopped r v s) s eq_refl), num_stopped end
    | match goal with |- numbered ?n (reply ?q ?c ?b ?k ?s) => apply (num_same n (reply q c b k s) s eq_refl), num_reply end
    | match goal with |- numbered ?n (notify ?e ?k ?s) => apply (num_same n (notify e k s) s eq_refl), num_notify end
    | match goal with |- numbered _ (match ?x with _ => _ end) => destruct x end
    | progress cbv beta ].

Lemma handle_numbered en pick fuel s m : numbered (s_seq s) (handle en pick fuel s m).
Proof.
  destruct m as [q r|]; [|apply num_done]. destruct r; cbn [handle]; unfold resume, advance; try (num; fail).
Qed.

Lemma converse_numbered en pick fuel : forall ms s, numbered (s_seq s) (converse en pick fuel s ms).
Proof.
  induction ms as [|m ms IH]; intros s; [apply num_done|]. cbn [converse].
  pose proof (handle_numbered en pick fuel s m) as H. destruct (handle en pick fuel s m) as [o [s1| |]].
  - destruct H as [H1 H2]. specialize (H2 s1 eq_refl). specialize (IH s1). cbn in H1, H2. rewrite H2 in IH.
    destruct (converse en pick fuel s1 ms) as [o' e]. destruct IH as [I1 I2]. cbn in I1, I2. split; cbn.
    + rewrite map_app, app_length, seq_app, H1, I1. f_equal.
    + intros s' E. rewrite (I2 s' E), app_length. lia.
  - destruct H as [H1 _]. split; [exact H1|discriminate].
  - destruct H as [H1 _]. split; [exact H1|discriminate].
Qed.

(* responses *)
Lemma sublist_nil {A} (l : list A) : sublist [] l.
Proof. induction l; constructor; assumption. Qed.
Lemma sublist_app {A} (a b c d : list A) : sublist a b -> sublist c d -> sublist (a ++ c) (b ++ d).
Proof. intros H K. induction H; cbn; [exact K|constructor; assumption|constructor; assumption]. Qed.

(* nothing but events *)
Definition only_events (x : outcome) : Prop := answered (fst x) = [].
Definition one_response (q : Z) (c : str) (x : outcome) : Prop := answered (fst x) = [(q, c)].

Lemma oe_done s : only_events (done s).
Proof. reflexivity. Qed.
Lemma oe_notify e k s : only_events (k (set_seq (S (s_seq s)) s)) -> only_events (notify e k s).
Proof. unfold notify, only_events. destruct (k _) as [o r]. cbn. auto. Qed.
Lemma oe_stopped r v s : only_events (stopped r v s).
Proof. unfold stopped. destruct (current_thread v); [apply oe_notify|..]; reflexivity. Qed.
Lemma or_reply q c b k s : only_events (k (set_seq (S (s_seq s)) s)) -> one_response q c (reply q c b k s).
Proof. unfold reply, only_events, one_response. destruct (k _) as [o r]. cbn. intros ->. reflexivity. Qed.

Ltac oe :=
  cbv zeta;
  repeat first
    [ reflexivity | apply oe_stopped | apply oe_notify | apply or_reply
    | match goal with |- only_events (match ?x with _ => _ end) => destruct x end
    | progress cbv beta ].

(* a request is answered once or the handler fails or it is not understood *)
Lemma handle_answers en pick fuel s q r :
  one_response q (command_of r) (handle en pick fuel s (DRequest q r)) \/
  (fst (handle en pick fuel s (DRequest q r)) = [] /\
   (snd (handle en pick fuel s (DRequest q r)) = Ret s /\ understood r = false \/
    understood r = true /\
    (snd (handle en pick fuel s (DRequest q r)) = Panic \/ snd (handle en pick fuel s (DRequest q r)) = OutOfFuel))).
Proof.
  assert (B : forall A (x : arguments A), x = BadArgs \/ x <> BadArgs) by (intros A [| |a]; auto; right; discriminate).
  destruct r as [a|a| | | |a| | | | |a| |a|a|a|a|c]; cbn [handle command_of]; unfold resume, advance;
    try (left; oe; fail); try (destruct a as [| |a]; [right; auto 6|..]); try (right; cbn; auto 8; fail); try (left; oe; fail).
  - destruct a as [li co]. left. oe.
  - destruct a as [path [src|]]; [|right; auto 6].
    destruct (letr r := process en src in new_vm (r_listing r) (r_version r)); [left; oe|right; cbn; auto 8|right; cbn; auto 8].
  - destruct (s_vm s) as [[v p]|]; [right; cbn; auto 8|left; oe].
  - destruct a as [src lines]. destruct (s_vm s) as [[v p]|]; [|left; oe].
    destruct (set_breakpoints _ v) as [[v' ns]| |]; [left; oe|right; cbn; auto 8|right; cbn; auto 8].
  - destruct a as [[ref start] count]. destruct (variables _ _ _ _); [left; oe|right; cbn; auto 8|right; cbn; auto 8].
  - destruct (s_vm s) as [[v p]|]; [right; cbn; auto 8|left; oe].
  - destruct (s_vm s) as [[v p]|]; [|left; oe].
    destruct (for_branches _ _ _); [left; oe|right; cbn; auto 8|right; cbn; auto 8].
  - destruct (s_vm s) as [[v p]|]; [right; cbn; auto 8|left; oe].
  - destruct (s_vm s) as [[v p]|]; [|left; oe].
    destruct (for_branches _ _ _); [left; oe|right; cbn; auto 8|right; cbn; auto 8].
Qed.

Lemma handle_sublist en pick fuel s m : sublist (answered (fst (handle en pick fuel s m))) (asked [m]).
Proof.
  destruct m as [q r|]; [|constructor]. destruct (handle_answers en pick fuel s q r) as [H|[H _]]; rewrite H; cbn.
  - apply sub_keep, sub_nil.
  - apply sublist_nil.
Qed.

Lemma converse_sublist en pick fuel : forall ms s, sublist (answered (fst (converse en pick fuel s ms))) (asked ms).
Proof.
  induction ms as [|m ms IH]; intros s; [constructor|]. cbn [converse].
  pose proof (handle_sublist en pick fuel s m) as H. destruct (handle en pick fuel s m) as [o [s1| |]].
  - specialize (IH s1). destruct (converse en pick fuel s1 ms) as [o' e]. cbn [fst] in H, IH |- *.
    unfold answered. rewrite flat_map_app. change (asked (m :: ms)) with (asked ([m] ++ ms)).
    unfold asked. rewrite flat_map_app. apply sublist_app; assumption.
  - cbn [fst] in H |- *. rewrite <- (app_nil_r (answered o)). change (asked (m :: ms)) with (asked ([m] ++ ms)).
    unfold asked. rewrite flat_map_app. apply sublist_app; [exact H|apply sublist_nil].
  - cbn [fst] in H |- *. rewrite <- (app_nil_r (answered o)). change (asked (m :: ms)) with (asked ([m] ++ ms)).
    unfold asked. rewrite flat_map_app. apply sublist_app; [exact H|apply sublist_nil].
Qed.

Theorem messages_numbered en pick fuel ms o e : converse en pick fuel opened ms = (o, e) ->
  map number o = seq 1 (length o) /\ sublist (answered o) (asked ms).
Proof.
  intros E. pose proof (converse_numbered en pick fuel ms opened) as [H _].
  pose proof (converse_sublist en pick fuel ms opened) as K. rewrite E in H, K. auto.
Qed.

(* ------------------------------------------------------------------------------------------ *)
(* the machine of a session *)
Definition runs (en : env) (o : option (vm * str)) : Prop :=
  match o with
  | None => True
  | Some (v, _) => exists src r, process en src = Ret r /\ reach (r_listing r) (r_version r) v
  end.

Definition keeps_running (en : env) (x : outcome) : Prop := forall s, snd x = Ret s -> runs en (s_vm s).

Lemma kr_done en s : runs en (s_vm s) -> keeps_running en (done s).
Proof. intros H s' E. injection E as <-. exact H. Qed.
Lemma kr_none en : keeps_running en crash /\ keeps_running en ([], OutOfFuel).
Proof. split; intros s E; discriminate. Qed.
Lemma kr_reply en q c b k s : keeps_running en (k (set_seq (S (s_seq s)) s)) -> keeps_running en (reply q c b k s).
Proof. unfold reply, keeps_running. destruct (k _) as [o r]. cbn. auto. Qed.
Lemma kr_notify en e k s : keeps_running en (k (set_seq (S (s_seq s)) s)) -> keeps_running en (notify e k s).
Proof. unfold notify, keeps_running. destruct (k _) as [o r]. cbn. auto. Qed.
Lemma kr_stopped en r v s : runs en (s_vm s) -> keeps_running en (stopped r v s).
Proof.
  intros H. unfold stopped. destruct (current_thread v); [|apply kr_none|apply kr_none].
  apply kr_notify, kr_done. exact H.
Qed.

Ltac kr :=
  cbv zeta;
  repeat first
    [ apply kr_none | apply kr_reply | apply kr_notify
    | match goal with |- keeps_running _ (match ?x with _ => _ end) => destruct x end
    | progress cbv beta ].

Lemma runs_set en v v' p s : s_vm s = Some (v, p) -> runs en (s_vm s) ->
  (forall l ver, reach l ver v -> reach l ver v') -> runs en (s_vm (set_machine v' s)).
Proof.
  intros E H K. unfold set_machine. cbn. rewrite E in *. destruct H as [src [r [Er R]]]. exists src, r. split; [exact Er|]. apply K, R.
Qed.

Lemma handle_runs en pick fuel s m : runs en (s_vm s) -> keeps_running en (handle en pick fuel s m).
Proof.
  intros H. destruct m as [q r|]; [|apply kr_done, H].
  destruct r as [a|a| | | |a| | | | |a| |a|a|a|a|c]; cbn [handle];
    try (kr; apply kr_done; exact H).
  - (* launch *)
    destruct a as [| |[path [src|]]]; try (kr; apply kr_done; exact H).
    destruct (process en src) as [r| |] eqn:Ep; cbn [bindr]; [|kr|kr].
    destruct (new_vm (r_listing r) (r_version r)) as [v| |] eqn:Ev; [|kr|kr].
    kr. apply kr_stopped. cbn. exists src, r. split; [exact Ep|]. apply reach_new, Ev.
  - (* setBreakpoints *)
    destruct a as [| |[src lines]]; [apply kr_done, H|..];
      (destruct (s_vm s) as [[v p]|] eqn:Ev; [|apply kr_reply, kr_done; cbn; rewrite Ev; exact I]); [kr|].
    destruct (set_breakpoints _ v) as [[v' ns]| |] eqn:Eb; [|kr|kr].
    kr. apply kr_done. change (runs en (s_vm (set_machine v' s))).
    eapply runs_set; [exact Ev|rewrite Ev; exact H|]. intros l ver R. eapply reach_command; [exact R|].
    eapply cmd_breakpoints; exact Eb.
  - (* pause *)
    apply kr_reply. cbn [s_vm set_seq]. destruct (s_vm s) as [[v p]|] eqn:Ev; [|kr].
    apply kr_stopped. cbn. rewrite Ev. exact H.
  - (* continue *)
    assert (G : forall a, keeps_running en (reply q "continue" BContinue (resume pick fuel a) s)).
    { intros id. apply kr_reply. unfold resume. cbn [s_vm set_seq].
      destruct (s_vm s) as [[v p]|] eqn:Ev; [|apply kr_done; cbn; rewrite Ev; exact I].
      destruct (run_vm fuel v) as [v'| |] eqn:Er; [|kr|kr].
      assert (Q : runs en (s_vm (set_machine v' (set_seq (S (s_seq s)) s)))).
      { eapply runs_set; [exact Ev|cbn; rewrite Ev; exact H|]. intros l ver R. eapply reach_command; [exact R|].
        eapply cmd_run; exact Er. }
      kr; apply kr_done; exact Q. }
    destruct a as [| |id]; [apply kr_done, H|apply G|apply G].
  - (* next *)
    destruct a as [| |id]; [apply kr_done, H|..]; apply kr_reply; unfold advance; cbn [s_vm set_seq];
      (destruct (s_vm s) as [[v p]|] eqn:Ev; [|kr]); [kr|].
    destruct (step (switch_z id v)) as [v'| |] eqn:Es; [|kr|kr].
    assert (Q : runs en (s_vm (set_machine v' (set_seq (S (s_seq s)) s)))).
    { eapply runs_set; [exact Ev|cbn; rewrite Ev; exact H|]. intros l ver R. eapply reach_command; [apply reach_switch; exact R|].
      apply cmd_step. exact Es. }
    cbv zeta. destruct (v_error v'); [apply kr_notify, kr_done; exact Q|apply kr_stopped; exact Q].
  - (* scopes *)
    destruct a as [| |id]; [apply kr_done, H|..]; destruct (s_vm s) as [[v p]|] eqn:Ev; kr;
      apply kr_done; cbn; rewrite Ev; exact H.
  - (* stackTrace *)
    destruct a as [| |id]; [apply kr_done, H|..]; destruct (s_vm s) as [[v p]|] eqn:Ev; kr;
      apply kr_done; cbn; rewrite Ev; exact H.
Qed.

Lemma converse_runs en pick fuel : forall ms s o s', runs en (s_vm s) -> converse en pick fuel s ms = (o, Ret s') -> runs en (s_vm s').
Proof.
  induction ms as [|m ms IH]; intros s o s' H E; cbn [converse] in E.
  - injection E as _ <-. exact H.
  - pose proof (handle_runs en pick fuel s m H) as K. destruct (handle en pick fuel s m) as [o1 [s1| |]]; try discriminate.
    specialize (K s1 eq_refl). destruct (converse en pick fuel s1 ms) as [o2 e] eqn:E2. injection E as _ ->.
    eapply IH; [exact K|exact E2].
Qed.

Lemma after_runs en pick fuel ms s o : after en pick fuel ms s o -> runs en (s_vm s).
Proof. intros H. eapply converse_runs; [|exact H]. exact I. Qed.

(* ------------------------------------------------------------------------------------------ *)
(* loops over branches and lists *)
Lemma for_none {A} id (f : branch -> res (list A)) l :
  (forall b, In b l -> has_id id b = false) -> for_branches id f l = Ret [].
Proof.
  induction l as [|b l IH]; intros H; [reflexivity|]. cbn [for_branches]. rewrite (H b (or_introl eq_refl)).
  cbn [bindr]. rewrite IH by (intros; apply H; right; assumption). reflexivity.
Qed.

Lemma has_id_spec b c : has_id (Z.of_nat (b_id b)) c = true <-> b_id c = b_id b.
Proof. unfold has_id. rewrite Z.eqb_eq. lia. Qed.

Lemma for_one {A} (f : branch -> res (list A)) b l : NoDup (map b_id l) -> In b l ->
  for_branches (Z.of_nat (b_id b)) f l = f b.
Proof.
  induction l as [|c l IH]; intros N Hb; [contradiction|]. inversion N as [|? ? Nc Nl]; subst. cbn [for_branches].
  destruct Hb as [->|Hb].
  - rewrite (proj2 (has_id_spec b b) eq_refl). rewrite (for_none _ f l).
    + destruct (f b); cbn; rewrite ?app_nil_r; reflexivity.
    + intros c Hc. destruct (has_id _ c) eqn:E; [|reflexivity]. exfalso. apply has_id_spec in E. apply Nc.
      rewrite <- E. apply in_map, Hc.
  - destruct (has_id _ c) eqn:E.
    + exfalso. apply has_id_spec in E. apply Nc. rewrite E. apply in_map, Hb.
    + cbn [bindr]. rewrite IH by assumption. destruct (f b); reflexivity.
Qed.

Lemma for_panic {A} id (f : branch -> res (list A)) l : (forall b, f b <> OutOfFuel) ->
  for_branches id f l <> OutOfFuel /\
  (for_branches id f l = Panic <-> exists b, In b l /\ has_id id b = true /\ f b = Panic).
Proof.
  intros Hf. induction l as [|c l [IH1 IH2]]; cbn [for_branches].
  - split; [discriminate|]. split; [discriminate|intros [b [[] _]]].
  - destruct (has_id id c) eqn:E.
    + destruct (f c) as [x| |] eqn:Ec; cbn [bindr].
      * destruct (for_branches id f l) as [y| |] eqn:El; cbn [bindr].
        -- split; [discriminate|]. split; [discriminate|]. intros [b [[->|Hb] [Hi Hp]]]; [congruence|].
           assert (Ret y = Panic); [|discriminate]. apply IH2. eauto.
        -- split; [discriminate|]. split; [|reflexivity]. intros _. destruct (proj1 IH2 eq_refl) as [b [Hb X]].
           exists b. split; [right; exact Hb|exact X].
        -- congruence.
      * split; [discriminate|]. split; [|reflexivity]. intros _. exists c. split; [left; reflexivity|auto].
      * exfalso. exact (Hf c Ec).
    + cbn [bindr]. destruct (for_branches id f l) as [y| |] eqn:El; cbn [bindr].
      * split; [discriminate|]. split; [discriminate|]. intros [b [[->|Hb] [Hi Hp]]]; [congruence|].
        assert (Ret y = Panic); [|discriminate]. apply IH2. eauto.
      * split; [discriminate|]. split; [|reflexivity]. intros _. destruct (proj1 IH2 eq_refl) as [b [Hb X]].
        exists b. split; [right; exact Hb|exact X].
      * congruence.
Qed.

Lemma items_panic {A} (l : list A) : forall n i,
  items l n i <> OutOfFuel /\
  (items l n i = Panic <-> exists j, (i <= j < i + Z.of_nat n)%Z /\ ~ (0 <= j < Z.of_nat (length l))%Z).
Proof.
  induction n as [|n IH]; intros i; cbn [items].
  - split; [discriminate|]. split; [discriminate|]. intros [j [H _]]. lia.
  - destruct (Z.ltb_spec i 0).
    + split; [discriminate|]. split; [|reflexivity]. intros _. exists i. lia.
    + unfold index. destruct (nth_error l (Z.to_nat i)) as [x|] eqn:Ex; cbn [bindr].
      * destruct (IH (i + 1)%Z) as [IH1 IH2]. assert (Hi : Z.to_nat i < length l) by (apply nth_error_Some; congruence).
        destruct (items l n (i + 1)) as [y| |]; cbn [bindr].
        -- split; [discriminate|]. split; [discriminate|]. intros [j [H1 H2]].
           assert (Ret y = Panic); [|discriminate]. apply IH2. exists j.
           assert (j <> i) by lia. lia.
        -- split; [discriminate|]. split; [|reflexivity]. intros _. destruct (proj1 IH2 eq_refl) as [j [H1 H2]].
           exists j. lia.
        -- congruence.
      * split; [discriminate|]. split; [|reflexivity]. intros _. apply nth_error_None in Ex. exists i. lia.
Qed.

Lemma window_panic {A} (l : list A) start count :
  window l start count <> OutOfFuel /\
  (window l start count = Panic <-> out_of_range (length l) (first_asked start) (last_asked (length l) start count)).
Proof.
  unfold window. fold (first_asked start).
  change (match count with Some c => (first_asked start + c)%Z | None => Z.of_nat (length l) end) with (last_asked (length l) start count).
  destruct (items_panic l (Z.to_nat (last_asked (length l) start count - first_asked start)) (first_asked start)) as [H1 H2].
  split; [exact H1|]. rewrite H2. unfold out_of_range. split; intros [j [J1 J2]]; exists j; lia.
Qed.

Lemma items_all {A} (l : list A) : forall pre,
  items (pre ++ l) (length l) (Z.of_nat (length pre)) = Ret (combine (map Z.of_nat (seq (length pre) (length l))) l).
Proof.
  induction l as [|x l IH]; intros pre; [reflexivity|]. cbn [items length seq map combine].
  destruct (Z.ltb_spec (Z.of_nat (length pre)) 0); [lia|]. rewrite Nat2Z.id. unfold index.
  rewrite nth_error_app2 by lia. rewrite Nat.sub_diag. cbn [nth_error bindr].
  specialize (IH (pre ++ [x])). rewrite <- app_assoc, app_length in IH. cbn [length app] in IH.
  replace (Z.of_nat (length pre) + 1)%Z with (Z.of_nat (length pre + 1)) by lia. rewrite IH. cbn [bindr].
  replace (length pre + 1) with (S (length pre)) by lia. reflexivity.
Qed.

Lemma window_all {A} (l : list A) : window l None None = Ret (combine (map Z.of_nat (seq 0 (length l))) l).
Proof.
  unfold window. replace (Z.to_nat (Z.of_nat (length l) - 0)) with (length l) by lia. apply (items_all l []).
Qed.

(* ------------------------------------------------------------------------------------------ *)
(* C50 *)
Lemma stack_shown s : let l := map (fun x => (dec_z (Z.of_nat (fst x)), value_text (snd x))) (combine (rev (seq 0 (length s))) s) in
  length l = length s /\ forall i x, nth_error s i = Some x ->
    nth_error l i = Some (dec_z (Z.of_nat (length s - 1 - i)), value_text x).
Proof.
  induction s as [|y s IH]; cbn [length].
  - split; [reflexivity|]. intros [|i] x H; discriminate.
  - rewrite seq_S, rev_app_distr. cbn [rev app combine map length fst snd Nat.add]. destruct IH as [IH1 IH2].
    split; [rewrite IH1; reflexivity|]. intros [|i] x H; cbn [nth_error] in *.
    + injection H as <-. do 3 f_equal. lia.
    + rewrite (IH2 i x H). do 4 f_equal. lia.
Qed.

Lemma scratch_shown v : forall l a, (forall i, nth_error l i = nth_error (v_scratch v) (a + i)) ->
  map (fun x => (dec_z (fst x), value_text (snd x)))
      (filter (fun x => negb (is_none (snd x))) (combine (map Z.of_nat (seq a (length l))) l)) =
  flat_map (slot_text v) (seq a (length l)).
Proof.
  induction l as [|x l IH]; intros a H; [reflexivity|]. cbn [length seq map combine filter flat_map snd].
  rewrite <- IH by (intros i; specialize (H (S i)); cbn [nth_error] in H; rewrite H; f_equal; lia).
  unfold slot_text. pose proof (H 0) as H0. cbn in H0. rewrite Nat.add_0_r in H0. rewrite <- H0. unfold is_none.
  destruct (v_T x); reflexivity.
Qed.

Lemma prints e en : immediates_fit en e = true -> exists t, print e = Ret t.
Proof.
  destruct e; intros H; cbn [print]; try (eexists; reflexivity); cbn in H; unfold bytes_text;
    apply N.eqb_eq in H; subst; cbn; eexists; reflexivity.
Qed.

Lemma trace_shown : forall l a, (forall e, In e l -> exists t, print e = Ret t) ->
  exists r, print_items (combine (map Z.of_nat (seq a (length l))) l) = Ret r /\ length r = length l /\
    forall i e, nth_error l i = Some e -> exists t, print e = Ret t /\ nth_error r i = Some (dec_z (Z.of_nat (a + i)), t).
Proof.
  induction l as [|x l IH]; intros a H.
  - exists []. split; [reflexivity|]. split; [reflexivity|]. intros [|i] e Q; discriminate.
  - destruct (IH (S a)) as [r [Er [Hl Hr]]]; [intros; apply H; right; assumption|].
    destruct (H x (or_introl eq_refl)) as [t Et].
    cbn [length seq map combine print_items]. rewrite Et. cbn [bindr]. rewrite Er. cbn [bindr].
    eexists. split; [reflexivity|]. split; [cbn; rewrite Hl; reflexivity|].
    intros [|i] e Q; cbn [nth_error] in Q |- *.
    + injection Q as <-. exists t. split; [exact Et|]. rewrite Nat.add_0_r. reflexivity.
    + destruct (Hr i e Q) as [u [Hu Hn]]. exists u. split; [exact Hu|]. rewrite Hn. do 4 f_equal. lia.
Qed.

Lemma runs_prints en v p b e : runs en (Some (v, p)) -> In b (v_branches v) -> In e (b_trace b) -> exists t, print e = Ret t.
Proof.
  intros [src [r [Ep R]]] Hb He. pose proof (reach_traces _ _ _ R b e Hb He) as Hin.
  pose proof (results_fit _ _ _ Ep) as F. rewrite Forall_forall in F. destruct (F e Hin) as [Q _].
  eapply prints; exact Q.
Qed.

Lemma runs_wf en v p : runs en (Some (v, p)) -> exists l ver, wf l ver v.
Proof. intros [src [r [Ep R]]]. eexists. eexists. eapply reach_wf; exact R. Qed.

Lemma wf_nodup l ver v : wf l ver v -> NoDup (map b_id (v_branches v)).
Proof. intros W. rewrite (wf_ids _ _ _ W). apply seq_NoDup. Qed.

Lemma ref_split id k : (0 <= k < 10)%Z -> ((k + 1 + 10 * Z.of_nat id >? 0) = true)%Z /\
  ((k + 1 + 10 * Z.of_nat id - 1) / 10 = Z.of_nat id)%Z /\ ((k + 1 + 10 * Z.of_nat id - 1) mod 10 = k)%Z.
Proof.
  intros H. split; [lia|]. split.
  - symmetry. apply (Z.div_unique _ 10 _ k); lia.
  - symmetry. apply (Z.mod_unique _ 10 (Z.of_nat id)); lia.
Qed.

Lemma variables_at v p b k ref start count l ver : wf l ver v -> In b (v_branches v) -> (0 <= k < 10)%Z ->
  ref = (k + 1 + 10 * Z.of_nat (b_id b))%Z ->
  variables (Some (v, p)) ref start count = branch_variables v k start count b.
Proof.
  intros W Hb Hk ->. unfold variables. destruct (ref_split (b_id b) k Hk) as [E1 [E2 E3]].
  rewrite E1, E2, E3. apply for_one; [eapply wf_nodup; exact W|exact Hb].
Qed.

Lemma data_shown en v p b sc : runs en (Some (v, p)) -> In b (v_branches v) -> In sc (branch_scopes b) ->
  exists l, variables (Some (v, p)) (sc_ref sc) None None = Ret l /\ scope_data v b (sc_name sc) l.
Proof.
  intros R Hb Hs. destruct (runs_wf _ _ _ R) as [li [ver W]].
  destruct Hs as [<- |[<- |[<- |[<- |[]]]]]; cbn [sc_ref sc_name].
  - rewrite (variables_at v p b 0 _ None None _ _ W Hb) by lia. eexists. split; [reflexivity|]. constructor.
  - rewrite (variables_at v p b 1 _ None None _ _ W Hb) by lia. eexists. split; [reflexivity|].
    destruct (stack_shown (b_stack b)) as [A B]. constructor; assumption.
  - rewrite (variables_at v p b 2 _ None None _ _ W Hb) by lia. unfold branch_variables. cbn [Z.eqb Pos.eqb].
    rewrite window_all. cbn [bindr]. eexists. split; [reflexivity|].
    rewrite (scratch_shown v (v_scratch v) 0) by reflexivity. rewrite (wf_scratch _ _ _ W). constructor.
  - rewrite (variables_at v p b 3 _ None None _ _ W Hb) by lia. unfold branch_variables. cbn [Z.eqb Pos.eqb].
    rewrite window_all. cbn [bindr].
    destruct (trace_shown (b_trace b) 0) as [r [Er [Hl Hr]]]; [intros e He; eapply runs_prints; eassumption|].
    exists r. split; [exact Er|]. constructor; assumption.
Qed.

Lemma scope_len v b nm l : scope_data v b nm l ->
  (nm = bs "Stack" -> length l = length (b_stack b)) /\ (nm = bs "Trace" -> length l = length (b_trace b)).
Proof.
  intros D. destruct D; split; intros E; try assumption; exfalso; vm_compute in E; discriminate E.
Qed.

Theorem scopes_shown en pick fuel ms s o v p b q :
  after en pick fuel ms s o -> s_vm s = Some (v, p) -> In b (v_branches v) ->
  exists scs,
    shown (handle en pick fuel s (DRequest q (RScopes (Args (Z.of_nat (b_id b)))))) q (RScopes NilArgs) (BScopes scs) /\
    map sc_name scs = [bs "State"; bs "Stack"; bs "Scratch"; bs "Trace"] /\
    map sc_indexed scs = [None; Some (length (b_stack b)); Some (length (v_scratch v)); Some (length (b_trace b))] /\
    forall sc q', In sc scs -> exists l,
      shown (handle en pick fuel s (DRequest q' (RVariables (Args (sc_ref sc, None, None))))) q' (RVariables NilArgs) (BVariables l) /\
      scope_data v b (sc_name sc) l /\ forall n, sc_indexed sc = Some n -> sc_name sc <> bs "Scratch" -> length l = n.
Proof.
  intros A Ev Hb. pose proof (after_runs _ _ _ _ _ _ A) as R. rewrite Ev in R. destruct (runs_wf _ _ _ R) as [li [ver W]].
  exists (branch_scopes b). split; [|split; [|split]].
  - unfold shown. cbn [handle]. rewrite Ev. rewrite (for_one _ b _ (wf_nodup _ _ _ W) Hb).
    eexists. eexists. reflexivity.
  - reflexivity.
  - rewrite (wf_scratch _ _ _ W). reflexivity.
  - intros sc q' Hs. destruct (data_shown en v p b sc R Hb Hs) as [l [E D]]. exists l. split; [|split; [exact D|]].
    + unfold shown. cbn [handle]. rewrite Ev, E. eexists. eexists. reflexivity.
    + intros n Hn Hx. destruct (scope_len _ _ _ _ D) as [D1 D2].
      destruct Hs as [<- |[<- |[<- |[<- |[]]]]]; cbn [sc_indexed sc_name] in *; try discriminate; injection Hn as <-.
      * apply D1; reflexivity.
      * congruence.
      * apply D2; reflexivity.
Qed.

Theorem refs_distinct (v : vm) b b' sc sc' : In sc (branch_scopes b) -> In sc' (branch_scopes b') -> sc_ref sc = sc_ref sc' ->
  b_id b = b_id b' /\ sc_name sc = sc_name sc'.
Proof.
  intros H H' E. destruct H as [<- |[<- |[<- |[<- |[]]]]], H' as [<- |[<- |[<- |[<- |[]]]]]; cbn [sc_ref sc_name] in *; (split; [lia|]);
    reflexivity || (exfalso; lia).
Qed.

(* ------------------------------------------------------------------------------------------ *)
(* C51: the requests that crash the adapter *)
Lemma snd_reply q c b k s : snd (reply q c b k s) = snd (k (set_seq (S (s_seq s)) s)).
Proof. unfold reply. destruct (k _); reflexivity. Qed.
Lemma snd_notify e k s : snd (notify e k s) = snd (k (set_seq (S (s_seq s)) s)).
Proof. unfold notify. destruct (k _); reflexivity. Qed.

Lemma thread_known l ver v : wf l ver v -> (v_branch v = None /\ current_thread v = Ret None) \/
  exists k b, v_branch v = Some k /\ nth_error (v_branches v) k = Some b /\ current_thread v = Ret (Some (b_id b)).
Proof.
  intros W. unfold current_thread. destruct (v_branch v) as [k|] eqn:E; [right|left; auto].
  pose proof (wf_branch _ _ _ W) as Q. rewrite E in Q. pose proof (wf_cur _ _ _ W) as C. rewrite <- Q in C.
  destruct (nth_error (v_branches v) k) as [b|] eqn:Eb; [|apply nth_error_None in Eb; lia].
  exists k, b. split; [reflexivity|]. split; [exact Eb|]. unfold index. rewrite Eb. reflexivity.
Qed.

Lemma snd_stopped l ver r v s : wf l ver v -> exists s', snd (stopped r v s) = Ret s'.
Proof.
  intros W. unfold stopped. destruct (thread_known _ _ _ W) as [[_ E]|[k [b [_ [_ E]]]]]; rewrite E, snd_notify; eexists; reflexivity.
Qed.

Lemma lint_fuel lts es : lint_diags lts es <> OutOfFuel.
Proof.
  induction es as [|e es IH]; cbn [lint_diags]; [discriminate|]. unfold lint_diag, index.
  destruct (nth_error lts _); cbn [bindr]; [|discriminate]. destruct (lint_diags lts es); cbn; [discriminate|discriminate|congruence].
Qed.
Lemma process_fuel en src : process en src <> OutOfFuel.
Proof.
  destruct (process_spec en src) as [ts [errs [raw [_ [_ [_ [_ H]]]]]]].
  destruct (lint_diags _ _) eqn:E.
  - destruct H as [r [-> _]]. discriminate.
  - rewrite H. discriminate.
  - exfalso. exact (lint_fuel _ _ E).
Qed.

Lemma bind_fails l : forall lns,
  bind_lines l lns <> OutOfFuel /\ (bind_lines l lns = Panic <-> exists z, In z lns /\ (z < 0)%Z).
Proof.
  induction lns as [|z lns [IH1 IH2]]; cbn [bind_lines].
  - split; [discriminate|]. split; [discriminate|intros [z [[] _]]].
  - rewrite Z.geb_leb. destruct (Z.leb_spec (Z.of_nat (length l)) z).
    + split; [exact IH1|]. rewrite IH2. split; intros [y [Hy Ly]]; exists y; (split; [|exact Ly]); [right; exact Hy|].
      destruct Hy as [<- |Hy]; [lia|exact Hy].
    + destruct (Z.ltb_spec z 0).
      * split; [discriminate|]. split; [|reflexivity]. intros _. exists z. split; [left; reflexivity|lia].
      * unfold index. destruct (nth_error l (Z.to_nat z)) eqn:E; [|apply nth_error_None in E; lia]. cbn [bindr].
        destruct (bind_lines l lns) as [ns| |]; cbn [bindr].
        -- split; [discriminate|]. split; [discriminate|]. intros [y [[<- |Hy] Ly]]; [lia|].
           assert (Ret ns = Panic); [|discriminate]. apply IH2. eauto.
        -- split; [discriminate|]. split; [|reflexivity]. intros _. destruct (proj1 IH2 eq_refl) as [y [Hy Ly]].
           exists y. split; [right; exact Hy|exact Ly].
        -- congruence.
Qed.

Lemma print_items_total l : (forall i e, In (i, e) l -> exists t, print e = Ret t) -> exists r, print_items l = Ret r.
Proof.
  induction l as [|[i e] l IH]; intros H; cbn [print_items]; [eexists; reflexivity|].
  destruct (H i e (or_introl eq_refl)) as [t ->]. destruct IH as [r ->]; [intros; eapply H; right; eassumption|]. eexists. reflexivity.
Qed.
Lemma items_in {A} (l : list A) : forall n i r, items l n i = Ret r -> forall j x, In (j, x) r -> In x l.
Proof.
  induction n as [|n IH]; intros i r E j x Hx; cbn [items] in E; [injection E as <-; destruct Hx|].
  destruct (i <? 0)%Z; [discriminate|]. unfold index in E. destruct (nth_error l (Z.to_nat i)) as [y|] eqn:Ey; [|discriminate].
  cbn [bindr] in E. destruct (items l n (i + 1)) as [q| |] eqn:Eq; try discriminate. injection E as <-.
  destruct Hx as [Hx|Hx]; [injection Hx as <- <-; eapply nth_error_In; exact Ey|eapply IH; eassumption].
Qed.

Lemma branch_variables_fails en v p b i start count : runs en (Some (v, p)) -> In b (v_branches v) ->
  branch_variables v i start count b <> OutOfFuel /\
  (branch_variables v i start count b = Panic <->
   i = 2%Z /\ out_of_range 256 (first_asked start) (last_asked 256 start count) \/
   i = 3%Z /\ out_of_range (length (b_trace b)) (first_asked start) (last_asked (length (b_trace b)) start count)).
Proof.
  intros R Hb. destruct (runs_wf _ _ _ R) as [l [ver W]]. unfold branch_variables.
  destruct (Z.eqb_spec i 0); [split; [discriminate|split; [discriminate|lia]]|].
  destruct (Z.eqb_spec i 1); [split; [discriminate|split; [discriminate|lia]]|].
  destruct (Z.eqb_spec i 2).
  - destruct (window_panic (v_scratch v) start count) as [H1 H2]. rewrite (wf_scratch _ _ _ W) in H2.
    destruct (window (v_scratch v) start count); cbn [bindr].
    + split; [discriminate|]. split; [discriminate|]. intros [[_ X]|[X _]]; [|lia]. apply H2 in X. discriminate.
    + split; [discriminate|]. split; [|reflexivity]. intros _. left. split; [assumption|]. apply H2. reflexivity.
    + congruence.
  - destruct (Z.eqb_spec i 3); [|split; [discriminate|split; [discriminate|lia]]].
    destruct (window_panic (b_trace b) start count) as [H1 H2].
    destruct (window (b_trace b) start count) as [x| |] eqn:Ew; cbn [bindr].
    + destruct (print_items_total x) as [t ->].
      { intros j ex He. eapply runs_prints; [exact R|exact Hb|]. unfold window in Ew. eapply items_in; eassumption. }
      split; [discriminate|]. split; [discriminate|]. intros [[X _]|[_ X]]; [lia|]. apply H2 in X. discriminate.
    + split; [discriminate|]. split; [|reflexivity]. intros _. right. split; [assumption|]. apply H2. reflexivity.
    + congruence.
Qed.

Lemma for_fails {A} id (f : branch -> res (list A)) l : (forall b, In b l -> f b <> OutOfFuel) ->
  for_branches id f l <> OutOfFuel /\
  (for_branches id f l = Panic <-> exists b, In b l /\ has_id id b = true /\ f b = Panic).
Proof.
  intros Hf. set (g := fun b => match f b with OutOfFuel => Panic | x => x end).
  assert (E : for_branches id f l = for_branches id g l).
  { revert Hf. induction l as [|c l IH]; intros Hf; [reflexivity|]. cbn [for_branches].
    rewrite IH by (intros; apply Hf; right; assumption). 
    assert (Q : g c = f c) by (unfold g; specialize (Hf c (or_introl eq_refl)); destruct (f c); congruence).
    rewrite Q. reflexivity. }
  rewrite E. destruct (for_panic id g l) as [H1 H2]; [intros b; unfold g; destruct (f b); discriminate|].
  split; [exact H1|]. rewrite H2. split; intros [b [Hb [Hi Hp]]]; exists b; (split; [exact Hb|split; [exact Hi|]]).
  - unfold g in Hp. specialize (Hf b Hb). destruct (f b); congruence.
  - unfold g. rewrite Hp. reflexivity.
Qed.

Lemma variables_fail en v p ref start count : runs en (Some (v, p)) ->
  variables (Some (v, p)) ref start count <> OutOfFuel /\
  (variables (Some (v, p)) ref start count = Panic <->
   exists b, In b (v_branches v) /\
     (ref = (3 + 10 * Z.of_nat (b_id b))%Z /\ out_of_range 256 (first_asked start) (last_asked 256 start count) \/
      ref = (4 + 10 * Z.of_nat (b_id b))%Z /\
      out_of_range (length (b_trace b)) (first_asked start) (last_asked (length (b_trace b)) start count))).
Proof.
  intros R. unfold variables. rewrite Z.gtb_ltb. destruct (Z.ltb_spec 0 ref).
  2:{ split; [discriminate|]. split; [discriminate|]. intros [b [_ [[X _]|[X _]]]]; lia. }
  pose proof (Z.div_mod (ref - 1) 10 ltac:(lia)) as D. pose proof (Z.mod_pos_bound (ref - 1) 10 ltac:(lia)) as M.
  set (id := ((ref - 1) / 10)%Z) in *. set (k := ((ref - 1) mod 10)%Z) in *. clearbody id k.
  destruct (for_fails id (branch_variables v k start count) (v_branches v)) as [H1 H2].
  { intros b Hb. apply (branch_variables_fails en v p b k start count R Hb). }
  split; [exact H1|]. rewrite H2. split.
  - intros [b [Hb [Hi Hp]]]. exists b. split; [exact Hb|]. apply (branch_variables_fails en v p b k start count R Hb) in Hp.
    unfold has_id in Hi. apply Z.eqb_eq in Hi. destruct Hp as [[X Y]|[X Y]]; [left|right]; (split; [lia|exact Y]).
  - intros [b [Hb X]]. exists b. split; [exact Hb|].
    assert (Y : has_id id b = true).
    { unfold has_id. apply Z.eqb_eq. destruct X as [[X _]|[X _]]; lia. }
    split; [exact Y|]. unfold has_id in Y. apply Z.eqb_eq in Y.
    apply (branch_variables_fails en v p b k start count R Hb). destruct X as [[X Z]|[X Z]]; [left|right]; (split; [lia|exact Z]).
Qed.

Lemma for_ret {A} id (f : branch -> list A) l : exists r, for_branches id (fun b => Ret (f b)) l = Ret r.
Proof.
  induction l as [|c l [r E]]; cbn [for_branches]; [eexists; reflexivity|]. rewrite E. destruct (has_id id c); cbn; eexists; reflexivity.
Qed.

Ltac no_crash := split; [discriminate|intros X; inversion X; congruence].
Ltac yes_crash c := split; [intros _; eapply c; eassumption || eauto|reflexivity].

Theorem crash_exact en pick fuel s q r : runs en (s_vm s) ->
  (snd (handle en pick fuel s (DRequest q r)) = Panic <-> deadly en fuel s r).
Proof.
  intros R. destruct r as [a|a| | | |a| | | | |a| |a|a|a|a|c]; cbn [handle]; try (rewrite ?snd_reply; no_crash).
  - destruct a as [| |[li co]]; [no_crash|yes_crash deadly_initialize|]. rewrite snd_reply, snd_notify. no_crash.
  - destruct a as [| |[path [src|]]]; [no_crash|yes_crash deadly_launch| |no_crash].
    destruct (process en src) as [x| |] eqn:Ep; cbn [bindr].
    + destruct (new_vm_total (r_listing x) (r_version x)) as [v Ev]. rewrite Ev, snd_reply, snd_notify.
      destruct (snd_stopped _ _ ByEntry v
        (set_seq (S (s_seq (set_seq (S (s_seq s)) (Session (s_seq s) (s_lz s) (s_cz s) (Some (v, path))))))
            (set_seq (S (s_seq s)) (Session (s_seq s) (s_lz s) (s_cz s) (Some (v, path)))))
        (reach_wf _ _ _ (reach_new _ _ _ Ev))) as [s' Es]. cbn in Es |- *. rewrite Es. no_crash.
    + yes_crash deadly_program.
    + exfalso. exact (process_fuel _ _ Ep).
  - destruct a as [| |[src lines]]; [no_crash|..].
    + destruct (s_vm s) as [[v p]|] eqn:Ev; [yes_crash deadly_breakpoints|rewrite snd_reply; no_crash].
    + destruct (s_vm s) as [[v p]|] eqn:Ev; [|rewrite snd_reply; no_crash].
      unfold set_breakpoints. destruct (bind_fails (v_listing v) (map (fun ln => (ln - s_lz s)%Z) lines)) as [H1 H2].
      destruct (bind_lines _ _) as [ns| |]; cbn [bindr]; [|..].
      * rewrite snd_reply. split; [discriminate|]. intros X. inversion X as [| | | |v' p' ? ? ln Hv Hin Hlt| | | | | | | | |]; subst.
        assert (Ret ns = Panic); [|discriminate]. apply H2. exists (ln - s_lz s)%Z. split; [|lia].
        apply (in_map (fun z => (z - s_lz s)%Z)) in Hin. exact Hin.
      * split; [intros _|reflexivity]. destruct (proj1 H2 eq_refl) as [z [Hz Lz]]. apply in_map_iff in Hz.
        destruct Hz as [ln [<- Hin]]. eapply deadly_line; [exact Ev|exact Hin|lia].
      * congruence.
  - rewrite snd_reply. cbn [s_vm set_seq]. destruct (s_vm s) as [[v p]|] eqn:Ev; [|yes_crash deadly_pause].
    destruct (runs_wf _ _ _ R) as [l [ver W]]. destruct (snd_stopped _ _ ByPause v (set_seq (S (s_seq s)) s) W) as [s' ->]. no_crash.
  - destruct a as [| |id]; [no_crash|..]; rewrite snd_reply; unfold resume; cbn [s_vm set_seq].
    + destruct (s_vm s) as [[v p]|] eqn:Ev; [|no_crash].
      destruct (run_vm fuel v) as [v'| |] eqn:Er.
      * cbv zeta. destruct (v_error v') eqn:Ee; [rewrite snd_notify; no_crash|].
        destruct (v_trig v') as [|t ts] eqn:Et.
        -- destruct (v_branch v'); [|rewrite snd_notify]; no_crash.
        -- split; [intros _|reflexivity]. eapply deadly_continue; [exact Ev|exact Er|exact Ee|congruence].
      * exfalso. destruct R as [src [x [_ R]]]. destruct (failures_contained _ _ _ R) as [_ [F _]]. exact (F _ Er).
      * no_crash.
    + destruct (s_vm s) as [[v p]|] eqn:Ev; [|no_crash].
      destruct (run_vm fuel v) as [v'| |] eqn:Er.
      * cbv zeta. destruct (v_error v') eqn:Ee; [rewrite snd_notify; no_crash|].
        destruct (v_trig v') as [|t ts] eqn:Et.
        -- destruct (v_branch v'); [|rewrite snd_notify]; no_crash.
        -- rewrite snd_notify. no_crash.
      * exfalso. destruct R as [src [x [_ R]]]. destruct (failures_contained _ _ _ R) as [_ [F _]]. exact (F _ Er).
      * no_crash.
  - destruct a as [| |id]; [no_crash|..]; rewrite snd_reply; unfold advance; cbn [s_vm set_seq].
    + destruct (s_vm s) as [[v p]|] eqn:Ev; yes_crash deadly_next.
    + destruct (s_vm s) as [[v p]|] eqn:Ev; [|yes_crash deadly_early_next].
      destruct R as [src [x [_ R]]]. pose proof (reach_switch _ _ id _ R) as R'.
      destruct (step (switch_z id v)) as [v'| |] eqn:Es.
      * cbv zeta. destruct (v_error v'); [rewrite snd_notify; no_crash|].
        destruct (snd_stopped _ _ ByStep v' (set_machine v' (set_seq (S (s_seq s)) s)) (step_wf _ _ _ _ (reach_wf _ _ _ R') Es)) as [s' E].
        rewrite E. no_crash.
      * exfalso. destruct (failures_contained _ _ _ R') as [F _]. congruence.
      * no_crash.
  - destruct a as [| |[[ref start] count]]; [no_crash|yes_crash deadly_variables|].
    destruct (s_vm s) as [[v p]|] eqn:Ev.
    + destruct (variables_fail en v p ref start count R) as [H1 H2].
      destruct (variables (Some (v, p)) ref start count) as [l| |].
      * rewrite snd_reply. split; [discriminate|]. intros X.
        assert (Y : Ret l = Panic); [|discriminate]. apply H2.
        inversion X; subst; try congruence;
          match goal with H : s_vm s = Some (?v', _) |- _ => rewrite Ev in H; injection H as <- <- end; eauto 6.
      * split; [intros _|reflexivity]. destruct (proj1 H2 eq_refl) as [b [Hb [[-> Y]|[-> Y]]]];
          [eapply deadly_scratch|eapply deadly_trace]; eassumption.
      * congruence.
    + unfold variables. destruct (ref >? 0)%Z; rewrite snd_reply; no_crash.
  - destruct a as [| |id]; [no_crash|..]; (destruct (s_vm s) as [[v p]|] eqn:Ev; [|rewrite snd_reply; no_crash]).
    + yes_crash deadly_scopes.
    + destruct (for_ret id branch_scopes (v_branches v)) as [l ->]. rewrite snd_reply. no_crash.
  - destruct a as [| |id]; [no_crash|..]; (destruct (s_vm s) as [[v p]|] eqn:Ev; [|rewrite snd_reply; no_crash]).
    + yes_crash deadly_stack.
    + destruct (for_ret id (fun b => trace_frames (b_id b) (s_lz s) (s_cz s) p (b_line b) (b_name b) (b_frames b)) (v_branches v)) as [l ->].
      rewrite snd_reply. no_crash.
Qed.

Theorem crashes en pick fuel ms : snd (converse en pick fuel opened ms) = Panic <->
  exists ms1 q r ms2 s o, ms = ms1 ++ DRequest q r :: ms2 /\ after en pick fuel ms1 s o /\ deadly en fuel s r.
Proof.
  unfold after. assert (R : runs en (s_vm opened)) by exact I. revert R. generalize opened as s0.
  induction ms as [|m ms IH]; intros s0 R; cbn [converse].
  - split; [discriminate|]. intros [ms1 [q [r [ms2 [s [o [E _]]]]]]]. destruct ms1; discriminate.
  - pose proof (handle_runs en pick fuel s0 m R) as K. unfold keeps_running in K.
    destruct (handle en pick fuel s0 m) as [o1 [s1| |]] eqn:Eh.
    + specialize (K s1 eq_refl). specialize (IH s1 K). destruct (converse en pick fuel s1 ms) as [o2 e] eqn:Ec.
      cbn [snd] in IH |- *. rewrite IH. split.
      * intros [ms1 [q [r [ms2 [s [o [-> [E D]]]]]]]]. exists (m :: ms1), q, r, ms2, s, (o1 ++ o).
        split; [reflexivity|]. split; [|exact D]. cbn [converse]. rewrite Eh, E. reflexivity.
      * intros [ms1 [q [r [ms2 [s [o [E [C D]]]]]]]]. destruct ms1 as [|m1 ms1].
        -- exfalso. injection E as -> ->. injection C as <- <-. apply (crash_exact en pick fuel s0 q r R) in D.
           rewrite Eh in D. discriminate.
        -- injection E as <- ->. cbn [converse] in C. rewrite Eh in C.
           destruct (converse en pick fuel s1 ms1) as [o3 e3] eqn:E3. injection C as <- ->.
           exists ms1, q, r, ms2, s, o3. auto.
    + cbn [snd]. split; [intros _|reflexivity]. destruct m as [q r|]; [|discriminate].
      exists [], q, r, ms, s0, []. split; [reflexivity|]. split; [reflexivity|].
      apply (crash_exact en pick fuel s0 q r R). rewrite Eh. reflexivity.
    + cbn [snd]. split; [discriminate|]. intros [ms1 [q [r [ms2 [s [o [E [C D]]]]]]]]. destruct ms1 as [|m1 ms1].
      * injection E as -> ->. injection C as <- <-. apply (crash_exact en pick fuel s0 q r R) in D. rewrite Eh in D. discriminate.
      * injection E as <- ->. cbn [converse] in C. rewrite Eh in C. discriminate.
Qed.

(* no request hangs the adapter unless the program has dupn 255 *)
Theorem no_hang en pick fuel ms s o q r : after en pick fuel ms s o ->
  (forall v p, s_vm s = Some (v, p) -> no_dupn_255 (v_listing v)) ->
  exists n, forall fuel', n <= fuel' -> snd (handle en pick fuel' s (DRequest q r)) <> OutOfFuel.
Proof.
  intros A N. pose proof (after_runs _ _ _ _ _ _ A) as R.
  destruct r as [a|a| | | |a| | | | |a| |a|a|a|a|c]; cbn [handle]; try (exists 0; intros; rewrite ?snd_reply; discriminate).
  - exists 0; intros _ _. destruct a as [| |[li co]]; rewrite ?snd_reply, ?snd_notify; discriminate.
  - exists 0; intros _ _. destruct a as [| |[path [src|]]]; try discriminate.
    destruct (process en src) as [x| |] eqn:Ep; cbn [bindr]; [|discriminate|exfalso; exact (process_fuel _ _ Ep)].
    destruct (new_vm_total (r_listing x) (r_version x)) as [v Ev]. rewrite Ev, snd_reply, snd_notify.
    unfold stopped. destruct (current_thread v); rewrite ?snd_notify; discriminate.
  - exists 0; intros _ _. destruct a as [| |[src lines]]; [discriminate|..]; (destruct (s_vm s) as [[v p]|]; [|rewrite snd_reply; discriminate]); [discriminate|].
    destruct (set_breakpoints _ v) as [[v' ns]| |]; rewrite ?snd_reply; discriminate.
  - exists 0; intros _ _. rewrite snd_reply. cbn [s_vm set_seq]. destruct (s_vm s) as [[v p]|]; [|discriminate].
    unfold stopped. destruct (current_thread v); rewrite ?snd_notify; discriminate.
  - destruct a as [| |id]; [exists 0; intros; discriminate|..];
      (destruct (s_vm s) as [[v p]|] eqn:Ev;
         [|exists 0; intros; rewrite snd_reply; unfold resume; cbn [s_vm set_seq]; rewrite Ev; discriminate]);
      (destruct R as [src [x [_ R]]]; pose proof (N v p eq_refl) as Nv; rewrite (wf_listing _ _ _ (reach_wf _ _ _ R)) in Nv;
       destruct (run_terminates _ _ _ Nv R) as [n [v' H]]; exists n; intros f' Hf; rewrite snd_reply; unfold resume;
       cbn [s_vm set_seq]; rewrite Ev, (H f' Hf); cbv zeta; destruct (v_error v'); [rewrite snd_notify; discriminate|];
       destruct (v_trig v'); [destruct (v_branch v')|]; rewrite ?snd_notify; discriminate).
  - exists 0; intros _ _. destruct a as [| |id]; [discriminate|..]; rewrite snd_reply; unfold advance; cbn [s_vm set_seq];
      (destruct (s_vm s) as [[v p]|] eqn:Ev; [|discriminate]); [discriminate|].
    destruct R as [src [x [_ R]]]. pose proof (N v p eq_refl) as Nv. rewrite (wf_listing _ _ _ (reach_wf _ _ _ R)) in Nv.
    destruct (failures_contained _ _ _ (reach_switch _ _ id _ R)) as [_ [_ F]]. destruct (F Nv) as [v' E]. rewrite E. cbv zeta.
    destruct (v_error v'); [rewrite snd_notify; discriminate|]. unfold stopped. destruct (current_thread v'); rewrite ?snd_notify; discriminate.
  - exists 0; intros _ _. destruct a as [| |[[ref start] count]]; [discriminate|discriminate|].
    destruct (variables _ _ _ _); rewrite ?snd_reply; discriminate.
  - exists 0; intros _ _. destruct a as [| |id]; [discriminate|..]; (destruct (s_vm s) as [[v p]|]; [|rewrite snd_reply; discriminate]); [discriminate|].
    destruct (for_branches _ _ _); rewrite ?snd_reply; discriminate.
  - exists 0; intros _ _. destruct a as [| |id]; [discriminate|..]; (destruct (s_vm s) as [[v p]|]; [|rewrite snd_reply; discriminate]); [discriminate|].
    destruct (for_branches _ _ _); rewrite ?snd_reply; discriminate.
Qed.

(* ------------------------------------------------------------------------------------------ *)
(* C52 *)
Lemma nop_spec v i : instruction_at v i <->
  (0 <= i)%Z /\ exists e, nth_error (v_listing v) (Z.to_nat i) = Some e /\ is_nop e = false.
Proof.
  unfold instruction_at. split; intros [H [e [E Q]]]; (split; [exact H|]); exists e; (split; [exact E|]);
    destruct e; try reflexivity; try contradiction; try discriminate; exact I.
Qed.

Theorem breakpoint_reply en pick fuel ms s o v p q src lines :
  after en pick fuel ms s o -> s_vm s = Some (v, p) -> (forall ln, In ln lines -> (s_lz s <= ln)%Z) ->
  exists n es s' v',
    handle en pick fuel s (DRequest q (RSetBreakpoints (Args (src, lines)))) =
      ([Response n q "setBreakpoints" (BBreakpoints es)], Ret s') /\
    Forall2 (fun ln e => db_line e = ln /\ db_source e = src /\ (db_verified e = true <-> instruction_at v (ln - s_lz s)))
      lines es /\
    s_vm s' = Some (v', p) /\ v_listing v' = v_listing v /\
    forall i, In i (v_bps v') <-> exists ln, In ln lines /\ (ln - s_lz s = Z.of_nat i)%Z /\ instruction_at v (Z.of_nat i).
Proof.
  intros A Ev Hl. cbn [handle]. rewrite Ev.
  destruct (breakpoints_verified v (map (fun ln => (ln - s_lz s)%Z) lines)) as [ns [E Hn]].
  { intros z Hz. apply in_map_iff in Hz. destruct Hz as [ln [<- Hin]]. specialize (Hl ln Hin). lia. }
  assert (Hn' : forall i, In i ns <-> exists ln, In ln lines /\ (ln - s_lz s = Z.of_nat i)%Z /\ instruction_at v (Z.of_nat i)).
  { intros i. rewrite Hn, in_map_iff. split.
    - intros [[ln [Q Hin]] X]. exists ln. split; [exact Hin|]. split; [exact Q|]. apply nop_spec. split; [lia|]. rewrite Nat2Z.id. exact X.
    - intros [ln [Hin [Q X]]]. apply nop_spec in X. rewrite Nat2Z.id in X. split; [eauto|apply X]. }
  rewrite E. unfold reply. cbn [done].
  eexists. eexists. eexists. exists (set_bps ns v). split; [reflexivity|]. split; [|split; [|split; [reflexivity|exact Hn']]].
  - unfold breakpoint_entries.
    assert (G : forall ls, (forall ln, In ln ls -> In ln lines) ->
      Forall2 (fun ln e => db_line e = ln /\ db_source e = src /\ (db_verified e = true <-> instruction_at v (ln - s_lz s))) ls
        (map (fun ln => let id := (ln - s_lz s)%Z in DBreakpoint id (existsb (fun n => (Z.of_nat n =? id)%Z) ns) (id + s_lz s)%Z src) ls)).
    { induction ls as [|ln ls IH]; intros Hs; cbn [map]; constructor; [|apply IH; intros; apply Hs; right; assumption].
      cbn [db_line db_source db_verified]. split; [lia|]. split; [reflexivity|]. rewrite existsb_exists. split.
      - intros [i [Hi Q]]. apply Z.eqb_eq in Q. apply Hn' in Hi. destruct Hi as [_ [_ [_ X]]]. rewrite <- Q. exact X.
      - intros X. exists (Z.to_nat (ln - s_lz s)). pose proof X as [Y _]. rewrite Z2Nat.id by exact Y.
        split; [|apply Z.eqb_refl]. apply Hn'. exists ln. rewrite Z2Nat.id by exact Y. split; [apply Hs; left; reflexivity|]. auto. }
    apply G. auto.
  - unfold set_machine. cbn. rewrite Ev. reflexivity.
Qed.

(* ------------------------------------------------------------------------------------------ *)
(* C53 *)
Lemma trace_frames_spec id lz cz path : forall fs line name,
  map (fun f => (sf_name f, sf_line f)) (trace_frames id lz cz path line name fs) =
  map (fun x => (fst x, line_z (snd x) + lz)%Z) ((name, line) :: map (fun f => (fr_name f, fr_return f)) fs) /\
  forall f, In f (trace_frames id lz cz path line name fs) -> sf_id f = id /\ sf_path f = path.
Proof.
  induction fs as [|f fs IH]; intros line name; cbn [trace_frames map fst snd].
  - split; [reflexivity|]. intros f [<- | []]. auto.
  - destruct (IH (fr_return f) (fr_name f)) as [I1 I2]. split.
    + cbn [sf_name sf_line]. f_equal. exact I1.
    + intros x [<- |Hx]; [auto|]. apply I2, Hx.
Qed.

Theorem stack_shown_dap en pick fuel ms s o v p b q :
  after en pick fuel ms s o -> s_vm s = Some (v, p) -> In b (v_branches v) ->
  exists fs,
    shown (handle en pick fuel s (DRequest q (RStackTrace (Args (Z.of_nat (b_id b)))))) q (RStackTrace NilArgs) (BStackTrace fs 1) /\
    map (fun f => (sf_name f, sf_line f)) fs = map (fun x => (fst x, line_number (snd x) + s_lz s)%Z) (call_chain b) /\
    length fs = S (length (b_frames b)) /\
    forall f, In f fs -> sf_id f = b_id b /\ sf_path f = p.
Proof.
  intros A Ev Hb. pose proof (after_runs _ _ _ _ _ _ A) as R. rewrite Ev in R. destruct (runs_wf _ _ _ R) as [li [ver W]].
  destruct (trace_frames_spec (b_id b) (s_lz s) (s_cz s) p (b_frames b) (b_line b) (b_name b)) as [T1 T2].
  eexists. split; [|split; [exact T1|split; [|exact T2]]].
  - unfold shown. cbn [handle]. rewrite Ev. rewrite (for_one _ b _ (wf_nodup _ _ _ W) Hb). eexists. eexists. reflexivity.
  - apply (f_equal (@length _)) in T1. cbn [map length] in T1. rewrite !map_length in T1. exact T1.
Qed.

(* ------------------------------------------------------------------------------------------ *)
(* C63 *)
Lemma new_no_error l ver v : new_vm l ver = Ret v -> v_error v = false.
Proof.
  unfold new_vm. intros E.
  match type of E with vm_skip_nops ?w = _ => destruct (vm_skip_nops_spec w) as [v1 [E1 P]]; [cbn; lia|] end.
  rewrite E in E1. injection E1 as <-. destruct P as [[_ [_ [_ [_ [_ P]]]]] _]. exact P.
Qed.

Lemma stopped_spec l ver r x v s o s' : wf l ver v -> (r <> RPause -> v_error v = false) -> (forall a, r <> RContinue a) ->
  x = reason_of r -> stopped x v s = (o, Ret s') ->
  s_vm s' = s_vm s /\ exists ev, stops o = [ev] /\ truthful v r ev.
Proof.
  intros W He Hc -> E. unfold stopped in E.
  destruct (thread_known _ _ _ W) as [[Hb Et]|[k [b [Hb [Hn Et]]]]]; rewrite Et in E; unfold notify, done in E;
    injection E as <- <-; (split; [reflexivity|]); eexists; (split; [reflexivity|]).
  - apply true_end; [exact He|exact Hb|]. pose proof (wf_branch _ _ _ W) as Q. rewrite Hb in Q. exact Q.
  - eapply true_thread; eassumption.
Qed.

Lemma stops_app a b : stops (a ++ b) = stops a ++ stops b.
Proof. apply flat_map_app. Qed.
Lemma reply_split q c b k s o s' : reply q c b k s = (o, Ret s') ->
  exists o1, k (set_seq (S (s_seq s)) s) = (o1, Ret s') /\ stops o = stops o1.
Proof. unfold reply. destruct (k _) as [o1 e]. intros E. injection E as <- ->. exists o1. split; reflexivity. Qed.

Lemma stopped_thread_in pick t id : t <> [] -> In (stopped_thread pick t id) (map fst t).
Proof.
  intros H. unfold stopped_thread. destruct (existsb _ t) eqn:E.
  - apply existsb_exists in E. destruct E as [x [Hx Q]]. apply Z.eqb_eq in Q. rewrite <- Q, Nat2Z.id. apply in_map, Hx.
  - apply nth_In. rewrite map_length. apply Nat.mod_upper_bound. destruct t; [congruence|discriminate].
Qed.
Lemma hit_lines_in t id : In id (map fst t) -> In (id, hit_lines t id) t.
Proof.
  induction t as [|[i ls] t IH]; intros H; [contradiction|]. cbn [hit_lines map fst] in *.
  destruct (Nat.eqb_spec i id); [left; subst; reflexivity|]. right. apply IH. destruct H as [H|H]; [congruence|exact H].
Qed.

Lemma resume_spec pick fuel l ver a s o s' v p : s_vm s = Some (v, p) -> reach l ver v -> resume pick fuel a s = (o, Ret s') ->
  exists v', s_vm s' = Some (v', p) /\ exists ev, stops o = [ev] /\ truthful v' (RContinue a) ev.
Proof.
  intros Ev R E. unfold resume in E. rewrite Ev in E. destruct (run_vm fuel v) as [v'| |] eqn:Er; [|discriminate|discriminate].
  cbv zeta in E. destruct (v_error v') eqn:Ee.
  - unfold notify, done in E. injection E as <- <-. exists v'. split; [cbn; rewrite Ev; reflexivity|].
    eexists. split; [reflexivity|]. apply true_exception; [discriminate|exact Ee].
  - pose proof (run_stops _ _ _ Er) as St. pose proof (reach_command _ _ _ _ R (cmd_run _ _ _ Er)) as R'.
    destruct (v_trig v') as [|t0 t] eqn:Et.
    + destruct (v_branch v') as [k|] eqn:Eb.
      * exfalso. destruct St as [[X|X]|[id [ls X]]]; try congruence. rewrite Et in X. exact X.
      * unfold notify, done in E. injection E as <- <-. exists v'. split; [cbn; rewrite Ev; reflexivity|].
        eexists. split; [reflexivity|]. apply (true_end v' (RContinue a)); [auto|exact Eb|]. eapply end_sound; eassumption.
    + destruct a as [| |id]; [discriminate|discriminate|]. unfold notify, done in E. injection E as <- <-.
      exists v'. split; [cbn; rewrite Ev; reflexivity|].
      exists (EStopped ByBreakpoint (Some (stopped_thread pick (t0 :: t) id)) (hit_lines (t0 :: t) (stopped_thread pick (t0 :: t) id))).
      split; [reflexivity|].
      pose proof (stopped_thread_in pick (t0 :: t) id ltac:(discriminate)) as Hin. apply hit_lines_in in Hin.
      rewrite <- Et in Hin |- *.
      destruct (run_last _ _ _ _ _ R Er) as [[-> Hf]|[u [Ru Eu]]].
      * exfalso. destruct Hf as [Hf|Hf]; [|congruence]. pose proof (reach_calm _ _ _ R' Hf). congruence.
      * destruct (hits_true _ _ _ _ _ _ Ru Eu Hin) as [Hne [b [i [[Hb Hid] [Hl [Hbp Hall]]]]]].
        rewrite <- Hid in *. eapply true_hit; eauto.
Qed.

Theorem stop_event en pick fuel ms s o q r o' s' v p :
  after en pick fuel ms s o -> controls r = true -> handle en pick fuel s (DRequest q r) = (o', Ret s') ->
  s_vm s' = Some (v, p) -> exists ev, stops o' = [ev] /\ truthful v r ev.
Proof.
  intros A C E Ev'. pose proof (after_runs _ _ _ _ _ _ A) as R.
  destruct r as [a|a| | | |a| | | | |a| |a|a|a|a|c]; try discriminate C; cbn [handle] in E.
  - destruct a as [| |[path [src|]]]; try discriminate C.
    destruct (process en src) as [x| |]; cbn [bindr] in E; try discriminate.
    destruct (new_vm (r_listing x) (r_version x)) as [v0| |] eqn:En; try discriminate.
    apply reply_split in E. destruct E as [o1 [E ->]]. unfold notify in E.
    match type of E with (let (_, _) := ?z in _) = _ => destruct z as [o2 e2] eqn:E2 end. injection E as <- ->.
    change (stops (Event _ (EProcess path) :: o2)) with (stops o2).
    destruct (stopped_spec (r_listing x) (r_version x) (RLaunch (Args (path, Some src))) ByEntry _ _ _ _
                (reach_wf _ _ _ (reach_new _ _ _ En)) (fun _ => new_no_error _ _ _ En) ltac:(discriminate) eq_refl E2) as [Q H].
    rewrite Q in Ev'. cbn in Ev'. injection Ev' as <- <-. exact H.
  - apply reply_split in E. destruct E as [o1 [E ->]]. cbn [s_vm set_seq] in E.
    destruct (s_vm s) as [[v0 p0]|] eqn:Ev; [|discriminate]. destruct (runs_wf _ _ _ R) as [l [ver W]].
    destruct (stopped_spec l ver RPause ByPause _ _ _ _ W ltac:(congruence) ltac:(discriminate) eq_refl E) as [Q H].
    rewrite Q in Ev'. cbn in Ev'. rewrite Ev in Ev'. injection Ev' as <- <-. exact H.
  - destruct a as [| |id]; [discriminate C|..]; apply reply_split in E; destruct E as [o1 [E ->]];
      (destruct (s_vm s) as [[v0 p0]|] eqn:Ev;
        [|unfold resume in E; cbn [s_vm set_seq] in E; rewrite Ev in E; injection E as <- <-; cbn in Ev'; congruence]);
      destruct R as [src [x [_ R]]];
      (eapply resume_spec in E; [|cbn [s_vm set_seq]; exact Ev|exact R]); destruct E as [v' [Q H]]; rewrite Ev' in Q;
      injection Q as <- <-; exact H.
  - destruct a as [| |id]; [discriminate C|..]; apply reply_split in E; destruct E as [o1 [E ->]]; unfold advance in E;
      cbn [s_vm set_seq] in E; (destruct (s_vm s) as [[v0 p0]|] eqn:Ev; [|discriminate]); [discriminate|].
    destruct R as [src [x [_ R]]]. pose proof (reach_switch _ _ id _ R) as R'.
    destruct (step (switch_z id v0)) as [v1| |] eqn:Es; try discriminate.
    pose proof (step_wf _ _ _ _ (reach_wf _ _ _ R') Es) as W. cbv zeta in E.
    destruct (v_error v1) eqn:Ee.
    + unfold notify, done in E. injection E as <- <-. unfold set_machine in Ev'. cbn in Ev'. rewrite Ev in Ev'. injection Ev' as <- <-.
      eexists. split; [reflexivity|]. apply true_exception; [discriminate|exact Ee].
    + destruct (stopped_spec _ _ (RNext (Args id)) ByStep _ _ _ _ W (fun _ => Ee) ltac:(discriminate) eq_refl E) as [Q H].
      rewrite Q in Ev'. unfold set_machine in Ev'. cbn in Ev'. rewrite Ev in Ev'. injection Ev' as <- <-. exact H.
Qed.

(* requests that do not control the program are not followed by a stop *)
Theorem no_stop_event en pick fuel s q r : controls r = false -> stops (fst (handle en pick fuel s (DRequest q r))) = [].
Proof.
  intros C. destruct r as [a|a| | | |a| | | | |a| |a|a|a|a|c]; try discriminate C; cbn [handle]; try reflexivity.
  - destruct a as [| |[li co]]; reflexivity.
  - destruct a as [| |[path [src|]]]; reflexivity || discriminate C.
  - destruct a as [| |[src lines]]; [reflexivity|..]; (destruct (s_vm s) as [[v p]|]; [|reflexivity]); [reflexivity|].
    destruct (set_breakpoints _ v) as [[v' ns]| |]; reflexivity.
  - destruct a as [| |id]; [reflexivity|discriminate C|discriminate C].
  - destruct a as [| |id]; [reflexivity|discriminate C|discriminate C].
  - destruct a as [| |[[ref start] count]]; [reflexivity|reflexivity|]. destruct (variables _ _ _ _); reflexivity.
  - destruct a as [| |id]; [reflexivity|..]; (destruct (s_vm s) as [[v p]|]; [|reflexivity]); [reflexivity|].
    destruct (for_branches _ _ _); reflexivity.
  - destruct a as [| |id]; [reflexivity|..]; (destruct (s_vm s) as [[v p]|]; [|reflexivity]); [reflexivity|].
    destruct (for_branches _ _ _); reflexivity.
Qed.

(* ------------------------------------------------------------------------------------------ *)
(* C62 *)
Theorem answered_once en pick fuel s q r o s' : handle en pick fuel s (DRequest q r) = (o, Ret s') ->
  answered o = if understood r then [(q, command_of r)] else [].
Proof.
  intros E. destruct (handle_answers en pick fuel s q r) as [H|[H [[_ K]|[K [F|F]]]]]; rewrite E in *; cbn [fst snd] in *.
  - unfold one_response in H. cbn [fst] in H. rewrite H. destruct (understood r) eqn:U; [reflexivity|]. exfalso.
    destruct r as [a|a| | | |a| | | | |a| |a|a|a|a|c]; try discriminate U; cbn [handle] in E;
      try (destruct a as [| |a]; try discriminate U; injection E as <- <-; discriminate H).
    + destruct a as [| |[path [src|]]]; try discriminate U; injection E as <- <-; discriminate H.
    + injection E as <- <-; discriminate H.
  - rewrite H, K. reflexivity.
  - discriminate.
  - discriminate.
Qed.

Lemma answered_app a b : answered (a ++ b) = answered a ++ answered b.
Proof. apply flat_map_app. Qed.

Theorem all_answered en pick fuel ms s o : after en pick fuel ms s o ->
  answered o = flat_map (fun m => match m with DRequest q r => if understood r then [(q, command_of r)] else [] | DIgnored => [] end) ms.
Proof.
  unfold after. generalize opened as s0. revert o. induction ms as [|m ms IH]; intros o s0 E; cbn [converse] in E.
  - injection E as <- <-. reflexivity.
  - destruct (handle en pick fuel s0 m) as [o1 [s1| |]] eqn:Eh; [|discriminate|discriminate].
    destruct (converse en pick fuel s1 ms) as [o2 e] eqn:Ec. injection E as <- ->.
    rewrite answered_app, (IH _ _ Ec). cbn [flat_map]. f_equal. destruct m as [q r|].
    + eapply answered_once; exact Eh.
    + injection Eh as <- <-. reflexivity.
Qed.

(* the threads request lists each branch once *)
Theorem threads_shown en pick fuel ms s o v p q : after en pick fuel ms s o -> s_vm s = Some (v, p) ->
  exists ts, shown (handle en pick fuel s (DRequest q RThreads)) q RThreads (BThreads ts) /\
    map fst ts = seq 0 (length (v_branches v)) /\ forall id, (exists n, In (id, n) ts) <-> exists b, has_branch v id b.
Proof.
  intros A Ev. pose proof (after_runs _ _ _ _ _ _ A) as R. rewrite Ev in R. destruct (runs_wf _ _ _ R) as [li [ver W]].
  unfold shown. cbn [handle]. rewrite Ev. eexists. split; [eexists; eexists; reflexivity|]. split.
  - rewrite map_map. cbn [fst]. apply (wf_ids _ _ _ W).
  - intros id. split.
    + intros [n H]. apply in_map_iff in H. destruct H as [b [Q Hb]]. injection Q as <- <-. exists b. split; auto.
    + intros [b [Hb <-]]. eexists. apply in_map_iff. exists b. split; [reflexivity|exact Hb].
Qed.
