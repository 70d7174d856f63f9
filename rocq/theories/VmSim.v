(* Breakpoints do not change the execution; failures are contained. *)
From Verif Require Import Base Expr Fields VmOps Vm VmProofs VmSkip VmStep VmExec VmSpec VmInv VmThms.
From Coq Require Import ZifyBool ZifyNat ZifyN.

(* the same outcome up to breakpoints *)
Definition rsim (a b : res vm) : Prop :=
  match a, b with
  | Ret v, Ret w => sim v w
  | Panic, Panic => True
  | OutOfFuel, OutOfFuel => True
  | _, _ => False
  end.

Ltac sim_fields S :=
  let A1 := fresh "A" in let A2 := fresh "A" in let A3 := fresh "A" in let A4 := fresh "A" in
  let A5 := fresh "A" in let A6 := fresh "A" in let A7 := fresh "A" in let A8 := fresh "A" in
  destruct S as [A1 [A2 [A3 [A4 [A5 [A6 [A7 A8]]]]]]].

Lemma skip_loop_sim begin : forall fuel v w, sim v w -> rsim (skip_loop fuel begin v) (skip_loop fuel begin w).
Proof.
  induction fuel as [|fuel IH]; intros v w S; cbn [skip_loop]; [exact I|].
  assert (Eb : v_branches v = v_branches w) by apply S.
  assert (Ec : v_current v = v_current w) by apply S.
  assert (El : v_listing v = v_listing w) by apply S.
  rewrite <- Ec, <- Eb. destruct (nth_error (v_branches v) (v_current v)) as [b|].
  - destruct (b_line b).
    + rewrite <- El.
      destruct (skip_nops (v_listing v) (v_bps v) b (v_trig v)) as [[b1 t1] ok] eqn:Es.
      destruct (skip_nops_indep _ _ (v_bps w) _ _ (v_trig w) _ _ _ Es) as [t2 Es2]. rewrite Es2.
      destruct ok.
      * cbn [rsim]. sim_fields S. repeat split; cbn; congruence.
      * apply IH. sim_fields S. repeat split; cbn; congruence.
    + destruct (_ =? begin).
      * cbn [rsim]. sim_fields S. repeat split; cbn; congruence.
      * apply IH. sim_fields S. repeat split; cbn; congruence.
  - cbn [rsim]. sim_fields S. repeat split; cbn; congruence.
Qed.

Lemma vm_skip_sim v w : sim v w -> rsim (vm_skip_nops v) (vm_skip_nops w).
Proof.
  intros S. unfold vm_skip_nops. assert (Eb : v_branches v = v_branches w) by apply S.
  assert (Ec : v_current v = v_current w) by apply S. rewrite <- Eb, <- Ec. apply skip_loop_sim; exact S.
Qed.

Lemma Sim_charge op cost : Sim (charge op cost).
Proof.
  unfold charge. apply Sim_bind; [apply Sim_get_b|]. intros b.
  destruct (_ >=? _)%Z; [|apply Sim_mod_b].
  apply Sim_bind; [apply Sim_mod_b|]. intros _.
  apply Sim_bind; [apply Sim_execute|]. intros _.
  apply Sim_bind.
  { intros k v w v' r S E. assert (Eb : v_branches v = v_branches w) by apply S.
    assert (El : v_listing v = v_listing w) by apply S. rewrite <- Eb, <- El.
    destruct (nth_error (v_branches v) k) as [b1|]; [|injection E as <- <-; eauto].
    destruct (skip_nops (v_listing v) (v_bps v) b1 (v_trig v)) as [[b2 t1] ok] eqn:Es.
    destruct (skip_nops_indep _ _ (v_bps w) _ _ (v_trig w) _ _ _ Es) as [t2 Es2]. rewrite Es2.
    injection E as <- <-. eexists; split; [reflexivity|]. apply sim_trig, sim_put, S. }
  intros _. apply Sim_bind.
  { intros k v w v' r S E. pose proof (vm_skip_sim v w S) as Q.
    destruct (vm_skip_nops v) as [v1| |], (vm_skip_nops w) as [w1| |]; try contradiction;
      injection E as <- <-; eauto. }
  intros _ k v w v' r S E. assert (Eb : v_branches v = v_branches w) by apply S. rewrite <- Eb.
  destruct (nth_error (v_branches v) k) as [b1|]; injection E as <- <-; eauto using sim_trig.
Qed.

Lemma Sim_step_branch : Sim step_branch.
Proof.
  unfold step_branch. apply Sim_bind; [apply Sim_get_b|]. intros b k v w v' r S E.
  destruct (b_line b) as [i|].
  - assert (El : v_listing v = v_listing w) by apply S.
    assert (Ev : v_version v = v_version w) by apply S. rewrite <- El, <- Ev.
    revert E. eapply (Sim_bind (lift (index (v_listing v) i))); [apply Sim_lift| |exact S].
    intros op. apply Sim_bind; [apply Sim_lift|]. intros cs. apply Sim_each. intros c.
    apply Sim_charge.
  - eapply Sim_throw; eauto.
Qed.

Lemma step_sim v w : sim v w -> rsim (step v) (step w).
Proof.
  intros S. unfold step.
  assert (S1 : sim (set_trig [] (set_error false v)) (set_trig [] (set_error false w))).
  { sim_fields S. repeat split; cbn; congruence. }
  pose proof (vm_skip_sim _ _ S1) as Q.
  destruct (vm_skip_nops (set_trig [] (set_error false v))) as [v1| |],
           (vm_skip_nops (set_trig [] (set_error false w))) as [w1| |]; try contradiction.
  - cbn in Q. assert (Eb : v_branch v1 = v_branch w1) by apply Q. rewrite <- Eb.
    destruct (v_branch v1) as [k|]; [|exact Q].
    destruct (step_branch k v1) as [v2 r] eqn:E2.
    destruct (Sim_step_branch k v1 w1 v2 r Q E2) as [w2 [E3 S2]]. rewrite E3.
    destruct r; cbn; auto. sim_fields S2. repeat split; cbn; congruence.
  - cbn. sim_fields S1. repeat split; cbn in *; congruence.
  - exact I.
Qed.

(* ------------------------------------------------------------------------------------------ *)
(* runs as sequences of steps *)
Inductive steps : nat -> vm -> vm -> Prop :=
| steps_0 v : steps 0 v v
| steps_S n v v1 v' : ~ finished v -> step v = Ret v1 -> steps n v1 v' -> steps (S n) v v'.

Lemma steps_trans n m a b c : steps n a b -> steps m b c -> steps (n + m) a c.
Proof. intros H. induction H; intros Q; cbn; [exact Q|]. econstructor; eauto. Qed.

Lemma run_steps fuel v v' : run_vm fuel v = Ret v' -> exists n, steps n v v'.
Proof.
  revert v; induction fuel as [|fuel IH]; intros v E;
    (destruct (finished_dec v) as [Hf|Hf];
     [rewrite (run_finished _ _ Hf) in E; injection E as <-; exists 0; constructor|]).
  - cbn in E. unfold finished in Hf. destruct (v_branch v); [|tauto].
    destruct (v_error v); [tauto|discriminate].
  - rewrite (run_step _ _ Hf) in E. destruct (step v) as [v1| |] eqn:Es; try discriminate. cbn in E.
    destruct (v_trig v1).
    + destruct (IH _ E) as [n Hn]. exists (S n). econstructor; eauto.
    + injection E as <-. exists 1. econstructor; eauto. constructor.
Qed.

Lemma continued_steps v v' : continued v v' -> (exists n, steps n v v') /\ finished v'.
Proof.
  intros H. induction H as [v Hf|v fuel v1 v2 Hf E H [[n IH] IHf]].
  - split; [exists 0; constructor|exact Hf].
  - split; [|exact IHf]. destruct (run_steps _ _ _ E) as [m Hm]. exists (m + n).
    eapply steps_trans; eauto.
Qed.

Lemma finished_sim v w : sim v w -> finished v -> finished w.
Proof. intros S [H|H]; sim_fields S; [left|right]; congruence. Qed.

Lemma steps_same n v v' w m w' :
  sim v w -> steps n v v' -> finished v' -> steps m w w' -> finished w' -> sim v' w'.
Proof.
  intros S H. revert w m w' S. induction H as [v|n v v1 v' Hf E H IH]; intros w m w' S F' Hw Fw.
  - inversion Hw as [|? ? w1 ? Hnf E1 H1]; subst; [exact S|].
    exfalso. apply Hnf. eapply finished_sim; eauto.
  - inversion Hw as [|m0 ? w1 ? Hnf E1 H1]; subst.
    + exfalso. apply Hf. eapply finished_sim; [apply sim_sym; exact S|exact Fw].
    + pose proof (step_sim v w S) as Q. rewrite E, E1 in Q. eapply IH; eauto.
Qed.

(* without breakpoints nothing is reported and Run goes on to the end *)
Lemma step_no_bps l ver v v' :
  wf l ver v -> v_bps v = [] -> step v = Ret v' -> v_trig v' = [] /\ v_bps v' = [].
Proof.
  intros W Hb E. destruct (step_spec_facts _ _ _ _ W E)
    as [k [b [b' [new [F1 [F2 [F3 [F4 [F5 [F6 [F7 [F8 [F9 [F10 [F11 [F12 F13]]]]]]]]]]]]]]]].
  split; [|congruence].
  assert (N : forall j, ~ hit j (v_trig v')).
  { destruct F13 as [_ _ _ Hh _ _|c e i _ _ _ _ _ _ _ _ _ _ Hh|c e i _ _ _ _ _ _ _ _ _ _ _ _ Hh];
      try exact Hh.
    intros j Hj. apply Hh in Hj. rewrite Hb in Hj.
    destruct Hj as [[nb [_ [_ [i0 [_ []]]]]]|[_ [_ [i0 [_ []]]]]]. }
  destruct (v_trig v') as [|[j ls] ts]; [reflexivity|]. exfalso. apply (N j). exists ls. left; reflexivity.
Qed.

Lemma run_no_bps l ver fuel v v' :
  wf l ver v -> v_bps v = [] -> run_vm fuel v = Ret v' -> finished v'.
Proof.
  intros W Hb E. revert v W Hb E. induction fuel as [|fuel IH]; intros v W Hb E;
    (destruct (finished_dec v) as [Hf|Hf];
     [rewrite (run_finished _ _ Hf) in E; injection E as <-; exact Hf|]).
  - cbn in E. unfold finished in Hf. destruct (v_branch v); [|tauto].
    destruct (v_error v); [tauto|discriminate].
  - rewrite (run_step _ _ Hf) in E. destruct (step v) as [v1| |] eqn:Es; try discriminate. cbn in E.
    destruct (step_no_bps _ _ _ _ W Hb Es) as [T B]. rewrite T in E.
    eapply IH; [eapply step_wf; eauto|exact B|exact E].
Qed.

Lemma same_is_sim v w : same_execution v w <-> sim v w.
Proof. reflexivity. Qed.

Lemma clear_bps_wf l ver v : wf l ver v -> wf l ver (set_bps [] v).
Proof.
  intros [Wl Wv Wi Wn Wc Ws Wb Wa Wbr Wp]. constructor; cbn; auto. intros i [].
Qed.

Theorem breakpoints_harmless l ver v v' fuel w :
  reach l ver v -> continued v v' -> run_vm fuel (set_bps [] v) = Ret w -> same_execution v' w.
Proof.
  intros R C E. apply reach_wf in R. destruct (continued_steps _ _ C) as [[n Hn] F].
  destruct (run_steps _ _ _ E) as [m Hm].
  eapply (steps_same n v v' (set_bps [] v)); eauto.
  - repeat split.
  - eapply run_no_bps; [apply clear_bps_wf; exact R| |exact E]. reflexivity.
Qed.

(* pressing continue does come to an end *)
Theorem continue_ends l ver v :
  no_dupn_255 l -> reach l ver v -> exists v', continued v v'.
Proof.
  intros N R. apply reach_wf in R. revert R.
  remember (mass (width l) (v_branches v)) as m eqn:Em. revert v Em.
  induction m as [m IH] using (well_founded_induction lt_wf); intros v Em W.
  destruct (finished_dec v) as [Hf|Hf]; [exists v; constructor; exact Hf|].
  destruct (step_returns _ _ _ N W) as [v1 E1].
  pose proof (step_wf _ _ _ _ W E1) as W1.
  destruct (step_mass _ _ _ _ W E1) as [Hf1|Hm].
  - exists v1. eapply (continued_more v 1); [exact Hf| |constructor; exact Hf1].
    rewrite (run_step _ _ Hf), E1. cbn. destruct (v_trig v1); [|reflexivity].
    apply (run_finished 0 v1 Hf1).
  - destruct (IH _ ltac:(rewrite Em; exact Hm) v1 eq_refl W1) as [v' C].
    exists v'. destruct (v_trig v1) as [|t ts] eqn:Et.
    + inversion C as [Hf1|fuel v2 v3 Hf1 E2 C2]; subst.
      * eapply (continued_more v 1); [exact Hf| |constructor; exact Hf1].
        rewrite (run_step _ _ Hf), E1. cbn. rewrite Et. apply (run_finished 0 v' Hf1).
      * eapply (continued_more v (S fuel)); [exact Hf| |exact C2].
        rewrite (run_step _ _ Hf), E1. cbn. rewrite Et. exact E2.
    + eapply (continued_more v 1); [exact Hf| |exact C].
      rewrite (run_step _ _ Hf), E1. cbn. rewrite Et. reflexivity.
Qed.

(* ------------------------------------------------------------------------------------------ *)
(* C35 *)
Lemma step_no_panic l ver v : wf l ver v -> step v <> Panic.
Proof.
  intros W E. destruct (step_cases v (wf_cur _ _ _ W)) as [v1 [_ [P S]]]. rewrite E in S.
  inversion S as [Hn Hr|k b i e r Hk Hkc Hb Hl He Hnop St Hr].
  inversion St.
Qed.

Theorem failures_contained l ver v :
  reach l ver v ->
  step v <> Panic /\ (forall fuel, run_vm fuel v <> Panic) /\
  (no_dupn_255 l -> exists v', step v = Ret v').
Proof.
  intros R. apply reach_wf in R. split; [eapply step_no_panic; eauto|]. split.
  - intros fuel. revert v R. induction fuel as [|fuel IH]; intros v R;
      (destruct (finished_dec v) as [Hf|Hf]; [rewrite (run_finished _ _ Hf); discriminate|]).
    + cbn. destruct (v_branch v); [destruct (v_error v)|]; discriminate.
    + rewrite (run_step _ _ Hf). destruct (step v) as [v1| |] eqn:E; cbn; try discriminate.
      * destruct (v_trig v1); [|discriminate]. apply IH. eapply step_wf; eauto.
      * exfalso. eapply step_no_panic; eauto.
  - intros N. eapply step_returns; eauto.
Qed.

Theorem failure_stops fuel v : v_error v = true -> run_vm fuel v = Ret v.
Proof. intros H. apply run_finished. right; exact H. Qed.

(* an instruction that cannot be executed is reported, and its branch stays on its line *)
Definition fails (v : vm) (k : nat) (e : expr) : Prop :=
  exists b, nth_error (v_branches v) k = Some b /\
  (cost_of e (v_version v) b = Panic \/
   exists c, costs e (v_version v) b c /\ (c <= b_budget b)%Z /\
             snd (execute e k (put k (pay e c b) (reset v))) = Panic).

Theorem failure_reported l ver v k b i e v' :
  reach l ver v -> before l v k b i e -> step v = Ret v' ->
  (v_error v' = true <-> fails v k e).
Proof.
  intros R B E. apply reach_wf in R. pose proof (step_stepped _ _ _ _ _ _ _ R B) as S.
  rewrite E in S. destruct B as [B1 B2 B3 B4].
  inversion S as [Hp Hr|c Hcost Hc1 Hc2 Hr|c v3 Hcost Hc Hex Hr|c v3 Hcost Hc Hex Hr
                 |c v3 b3 b4 t4 ok v5 b5 Hcost Hc Hex Hb3 Hsk Hvs P5 Hb5 Hr]; try discriminate; cbn.
  - split; [|reflexivity]. intros _. exists b. cbn in Hp. auto.
  - split; [discriminate|]. intros [b' [Hb' [P|[c' [Q1 [Q2 Q3]]]]]]; rewrite B2 in Hb'; injection Hb' as <-.
    + cbn in Hcost. destruct Hcost as [Q|[Q _]]; congruence.
    + cbn in Hcost. assert (c = c') by (destruct Hcost as [U|[U ->]], Q1 as [U'|[U' ->]]; congruence).
      lia.
  - split; [|reflexivity]. intros _. exists b. split; [exact B2|]. right. exists c.
    split; [exact Hcost|]. split; [lia|]. rewrite Hex. reflexivity.
  - destruct (Ext_execute e k _ _ _ Hex) as [[_ [_ [_ [_ [_ [X6 _]]]]]] _]. cbn in X6.
    destruct P5 as [[_ [_ [_ [_ [_ U6]]]]] _]. cbn in U6.
    split; [congruence|]. intros [b' [Hb' [P|[c' [Q1 [Q2 Q3]]]]]]; rewrite B2 in Hb'; injection Hb' as <-.
    + cbn in Hcost. destruct Hcost as [Q|[Q _]]; congruence.
    + cbn in Hcost. assert (c = c') by (destruct Hcost as [U|[U ->]], Q1 as [U'|[U' ->]]; congruence).
      subst c'. rewrite Hex in Q3. discriminate.
Qed.
