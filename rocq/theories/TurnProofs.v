(* Proofs about whose turn it is. *)
From Verif Require Import Base Expr Fields VmOps Vm VmSpec VmProofs VmSkip VmExec VmStep VmInv VmThms TurnSpec.
From Coq Require Import ZifyBool ZifyNat ZifyN.

(* ------------------------------------------------------------------------------------------ *)
(* the ring *)
Lemma next_mod c n : c < n -> (if S c =? n then 0 else S c) = (c + 1) mod n.
Proof.
  intros H. destruct (Nat.eqb_spec (S c) n) as [E|E].
  - replace (c + 1) with n by lia. symmetry. apply Nat.mod_same. lia.
  - rewrite Nat.mod_small by lia. lia.
Qed.
Lemma mod_succ c d n : 0 < n -> ((c + 1) mod n + d) mod n = (c + S d) mod n.
Proof. intros H. rewrite Nat.add_mod_idemp_l by lia. f_equal. lia. Qed.

Lemma first_unique over c bs k k' : c < length bs -> first_from over c bs k -> first_from over c bs k' -> k = k'.
Proof.
  intros Hc [d [D [-> [A B]]]] [d' [D' [-> [A' B']]]].
  assert (L : forall x, exists b, nth_error bs ((c + x) mod length bs) = Some b).
  { intros x. destruct (nth_error bs ((c + x) mod length bs)) as [b|] eqn:E; [eauto|].
    apply nth_error_None in E. pose proof (Nat.mod_upper_bound (c + x) (length bs)). lia. }
  destruct (Nat.lt_trichotomy d d') as [T|[->|T]]; [|reflexivity|].
  - destruct (L d) as [b E]. destruct (A b E). exact (B' d b T E).
  - destruct (L d') as [b E]. destruct (A' b E). exact (B d' b T E).
Qed.

(* ------------------------------------------------------------------------------------------ *)
(* Vm.skipNops *)
Lemma skip_loop_keeps : forall fuel begin v v', skip_loop fuel begin v = Ret v' ->
  forall j b, nth_error (v_branches v) j = Some b -> b_line b = None -> nth_error (v_branches v') j = Some b.
Proof.
  induction fuel as [|fuel IH]; intros begin v v' H j b Hb Hl; [discriminate H|]. cbn [skip_loop] in H.
  destruct (nth_error (v_branches v) (v_current v)) as [b0|] eqn:E0; [|injection H as <-; exact Hb].
  destruct (b_line b0) as [i|] eqn:L0.
  - assert (Hj : v_current v <> j) by (intros X; subst j; rewrite E0 in Hb; congruence).
    destruct (skip_nops (v_listing v) (v_bps v) b0 (v_trig v)) as [[b1 t1] ok] eqn:Es.
    destruct ok.
    + injection H as <-. cbn. rewrite nth_upd_nth_other; assumption.
    + eapply IH; [exact H| |exact Hl]. cbn. rewrite !nth_upd_nth_other; assumption.
  - cbv zeta in H. destruct (_ =? begin); [injection H as <-; exact Hb|]. eapply IH; [exact H|exact Hb|exact Hl].
Qed.

Lemma skip_loop_length : forall fuel begin v v', skip_loop fuel begin v = Ret v' -> length (v_branches v') = length (v_branches v).
Proof.
  induction fuel as [|fuel IH]; intros begin v v' H; [discriminate H|]. cbn [skip_loop] in H.
  destruct (nth_error (v_branches v) (v_current v)) as [b0|] eqn:E0; [|injection H as <-; reflexivity].
  destruct (b_line b0) as [i|] eqn:L0.
  - destruct (skip_nops (v_listing v) (v_bps v) b0 (v_trig v)) as [[b1 t1] ok] eqn:Es.
    destruct ok.
    + injection H as <-. cbn. apply upd_nth_length.
    + apply IH in H. rewrite H. cbn. rewrite !upd_nth_length. reflexivity.
  - cbv zeta in H. destruct (_ =? begin); [injection H as <-; reflexivity|]. apply IH in H. exact H.
Qed.

Lemma skip_loop_order : forall fuel begin v v' k, skip_loop fuel begin v = Ret v' -> v_current v < length (v_branches v) ->
  v_branch v' = Some k ->
  exists d, k = (v_current v + d) mod length (v_branches v) /\
    forall d' b, d' < d -> nth_error (v_branches v') ((v_current v + d') mod length (v_branches v)) = Some b -> exited b.
Proof.
  induction fuel as [|fuel IH]; intros begin v v' k H Hc Hk; [discriminate H|]. cbn [skip_loop] in H.
  destruct (nth_error (v_branches v) (v_current v)) as [b0|] eqn:E0; [|injection H as <-; discriminate Hk].
  destruct (b_line b0) as [i|] eqn:L0.
  - destruct (skip_nops (v_listing v) (v_bps v) b0 (v_trig v)) as [[b1 t1] ok] eqn:Es.
    destruct ok.
    + injection H as <-. cbn in Hk. injection Hk as <-. exists 0. rewrite Nat.add_0_r, Nat.mod_small by exact Hc.
      split; [reflexivity|]. intros d' b D. lia.
    + edestruct (IH begin _ v' k H) as [d [A B]]; [cbn; rewrite !upd_nth_length; exact Hc|exact Hk|].
      cbn in A, B. rewrite !upd_nth_length in A, B. exists d. auto.
  - cbv zeta in H. rewrite (next_mod _ _ Hc) in H.
    destruct ((v_current v + 1) mod length (v_branches v) =? begin); [injection H as <-; discriminate Hk|].
    pose proof (skip_loop_keeps _ _ _ _ H (v_current v) b0 E0 L0) as Keep.
    edestruct (IH begin _ v' k H) as [d [A B]]; [cbn; apply Nat.mod_upper_bound; lia|exact Hk|].
    cbn in A, B. rewrite mod_succ in A by lia. exists (S d). split; [exact A|].
    intros [|d'] b D E.
    + rewrite Nat.add_0_r, Nat.mod_small in E by exact Hc. rewrite Keep in E. injection E as <-. exact L0.
    + apply (B d' b); [lia|]. rewrite mod_succ by lia. exact E.
Qed.

(* the first branch, from the current one on, that has not left the program afterwards *)
Lemma skip_first v v1 k : vm_skip_nops v = Ret v1 -> v_current v < length (v_branches v) -> v_branch v1 = Some k ->
  first_from exited (v_current v) (v_branches v1) k.
Proof.
  intros H Hc Hk. destruct (vm_skip_nops_spec v Hc) as [v' [E P]]. rewrite H in E. injection E as <-.
  destruct P as [_ [_ [_ [_ [_ P]]]]]. rewrite Hk in P. destruct P as [_ [b [i [e [Hb [Hl _]]]]]].
  unfold vm_skip_nops in H. pose proof (skip_loop_length _ _ _ _ H) as Len.
  destruct (skip_loop_order _ _ _ _ _ H Hc Hk) as [d [A B]]. rewrite <- Len in A, B, Hc.
  assert (D : d < length (v_branches v1)).
  { destruct (Nat.lt_ge_cases d (length (v_branches v1))) as [D|D]; [exact D|exfalso].
    assert (X : exited b); [|unfold exited in X; congruence].
    apply (B (d - length (v_branches v1)) b); [lia|].
    replace ((v_current v + (d - length (v_branches v1))) mod length (v_branches v1)) with k; [exact Hb|].
    rewrite A. replace (v_current v + d) with (v_current v + (d - length (v_branches v1)) + 1 * length (v_branches v1)) by lia.
    apply Nat.mod_add. lia. }
  exists d. split; [exact D|]. split; [exact A|]. split.
  - intros b' Hb'. rewrite Hb in Hb'. injection Hb' as <-. unfold exited. congruence.
  - intros d' b' D' E. exact (B d' b' D' E).
Qed.

(* ------------------------------------------------------------------------------------------ *)
(* before and after skipping *)
Lemma Forall2_len {A B} (R : A -> B -> Prop) xs ys : Forall2 R xs ys -> length xs = length ys.
Proof. induction 1; cbn; congruence. Qed.

Lemma settled_exit l b b' : landed l (b_line b) -> settle l b b' -> (in_program l b' <-> in_program l b).
Proof.
  intros La [_ [_ [_ [_ [_ C]]]]]. unfold in_program, on_line.
  assert (Lb : land l (b_line b) = b_line b) by (apply land_of_landed; exact La).
  rewrite Lb in C. destruct C as [C|[C|[C [i [C1 C2]]]]]; rewrite ?C; [tauto|tauto|].
  split; intros [j [J1 J2]]; [discriminate J1|]. rewrite C1 in J1. injection J1 as <-. lia.
Qed.

Lemma turn_of_skip l ver v v1 k : wf l ver v -> vm_skip_nops (reset v) = Ret v1 -> v_branch v1 = Some k ->
  first_from (fun b => ~ in_program l b) (v_current v) (v_branches v) k.
Proof.
  intros W H Hk. pose proof (wf_cur _ _ _ W) as Hc.
  destruct (vm_skip_nops_spec (reset v) Hc) as [v' [E P]]. rewrite H in E. injection E as <-.
  pose proof (skip_first (reset v) v1 k H Hc Hk) as [d [D [-> [A B]]]].
  destruct P as [_ [_ [F [_ [_ P]]]]]. rewrite Hk in P. destruct P as [_ [b1 [i [e [Hb1 [Hl1 [He _]]]]]]].
  change (v_listing (reset v)) with (v_listing v) in *. change (v_branches (reset v)) with (v_branches v) in *.
  change (v_current (reset v)) with (v_current v) in *. rewrite (wf_listing _ _ _ W) in *.
  pose proof (Forall2_len _ _ _ F) as Len. rewrite <- Len in *.
  assert (La : forall j b, nth_error (v_branches v) j = Some b -> landed l (b_line b)).
  { intros j b Hb. pose proof (wf_landed _ _ _ W b (nth_error_In _ _ Hb)) as X. rewrite (wf_listing _ _ _ W) in X. exact X. }
  exists d. split; [exact D|]. split; [reflexivity|]. split.
  - intros b Hb N. apply N. destruct (Forall2_nth _ _ _ _ _ F Hb) as [b' [Hb' Se]]. rewrite Hb1 in Hb'. injection Hb' as <-.
    apply (settled_exit l b b1 (La _ _ Hb) Se). exists i. split; [exact Hl1|]. apply nth_error_Some. congruence.
  - intros d' b D' Hb N. destruct (Forall2_nth _ _ _ _ _ F Hb) as [b' [Hb' Se]].
    specialize (B d' b' D' Hb'). apply (settled_exit l b b' (La _ _ Hb) Se) in N. destruct N as [j [N _]]. unfold on_line, exited in *. congruence.
Qed.

Lemma turn_unique l v k b i e k' b' i' e' : v_current v < length (v_branches v) ->
  turn l v k b i e -> turn l v k' b' i' e' -> k = k' /\ b = b' /\ i = i' /\ e = e'.
Proof.
  intros Hc [A1 A2 A3 A4] [B1 B2 B3 B4]. pose proof (first_unique _ _ _ _ _ Hc A1 B1) as <-.
  unfold on_line in *. assert (b = b') by congruence. subst b'. assert (i = i') by congruence. subst i'. split; [reflexivity|]. split; [reflexivity|].
  split; congruence.
Qed.

(* a step is the step of the branch whose turn it is *)
Inductive stepping (l : listing) (v : vm) : res vm -> Prop :=
| stepping_none v' : (forall b, In b (v_branches v) -> ~ in_program l b) -> v_branch v' = None ->
    Forall2 (settle l) (v_branches v) (v_branches v') -> stepping l v (Ret v')
| stepping_some v1 k b b1 i e r : turn l v k b i e -> v_branch v1 = Some k -> k = v_current v1 -> settle l b b1 -> nth_error (v_branches v1) k = Some b1 ->
    Forall2 (settle l) (v_branches v) (v_branches v1) -> b_line b1 = Some i -> v_listing v1 = l -> v_version v1 = v_version v -> stepped v1 k b1 e r -> stepping l v r.

Lemma step_stepping l ver v : wf l ver v -> stepping l v (step v).
Proof.
  intros W. destruct (step_cases v (wf_cur _ _ _ W)) as [v1 [E1 [P S]]].
  pose proof P as [[Ve0 [Li [Ve _]]] [_ [F [_ [_ Q]]]]].
  change (v_listing (reset v)) with (v_listing v) in *. change (v_branches (reset v)) with (v_branches v) in *. rewrite (wf_listing _ _ _ W) in *.
  assert (La : forall j b, nth_error (v_branches v) j = Some b -> landed l (b_line b)).
  { intros j b Hb. pose proof (wf_landed _ _ _ W b (nth_error_In _ _ Hb)) as X. rewrite (wf_listing _ _ _ W) in X. exact X. }
  destruct S as [Hn|k b1 i e r Hk Hkc Hb1 Hl He Hnop St].
  - rewrite Hn in Q. apply stepping_none; [|exact Hn|exact F].
    intros b Hb N. apply In_nth_error in Hb as [j Hj]. destruct (Forall2_nth _ _ _ _ _ F Hj) as [b' [Hb' Se]].
    apply (settled_exit l b b' (La _ _ Hj) Se) in N. destruct N as [i [N _]]. unfold on_line in N. rewrite (Q b' (nth_error_In _ _ Hb')) in N. discriminate N.
  - destruct (Forall2_nth_r _ _ _ _ _ F Hb1) as [b [Hb Se]]. rewrite Li in He.
    apply (stepping_some l v v1 k b b1 i e r); auto. constructor; auto.
    + exact (turn_of_skip l ver v v1 k W E1 Hk).
    + unfold on_line. pose proof (settled_exit l b b1 (La _ _ Hb) Se) as X. rewrite <- Hl.
      destruct (proj1 X) as [j [J1 J2]]; [exists i; split; [exact Hl|apply nth_error_Some; congruence]|].
      destruct Se as [_ [_ [_ [_ [_ C]]]]]. rewrite (land_of_landed l (b_line b) (La _ _ Hb)) in C.
      destruct C as [C|[C|[C _]]]; congruence.
Qed.

(* ------------------------------------------------------------------------------------------ *)
(* which step does not end *)
Lemma diverges e k v b v3 : nth_error (v_branches v) k = Some b -> execute e k v = (v3, OutOfFuel) -> counts_forever e /\ b_stack b <> [].
Proof.
  intros Hb Ex. assert (D : endless e \/ ~ endless e) by (destruct e; cbn; try (right; tauto); lia).
  destruct D as [D|D].
  - destruct e; try contradiction. cbn [endless] in D. split; [exists Count_; split; [reflexivity|lia]|]. intros N.
    cbn [execute] in Ex. unfold pop, bind, get_b in Ex. rewrite Hb, N in Ex. discriminate Ex.
  - destruct (Tail_execute e D _ _ _ _ _ Hb Ex) as [Q _]. congruence.
Qed.

Lemma step_forever l ver v : wf l ver v ->
  (step v = OutOfFuel <->
   exists k b i e, turn l v k b i e /\ counts_forever e /\ (1 <= b_budget b)%Z /\ b_stack b <> []).
Proof.
  intros W. pose proof (step_stepping l ver v W) as S. split.
  - intros E. rewrite E in S. inversion S as [|v1 k b b1 i e r T Hv Hk Se Hb1 F Hl Li Ve St]; subst r.
    inversion St as [| | |c v3 Hcost Hc Hex|]. exists k, b, i, e.
    destruct (diverges e k _ _ v3 (nth_put_same k b1 (pay e c b1) v1 Hb1) Hex) as [C N].
    destruct Se as [_ [S2 [_ [S4 _]]]]. split; [exact T|]. split; [exact C|]. cbn in N. rewrite S2 in N. split; [|exact N].
    rewrite S4 in Hc. lia.
  - intros [k [b [i [e [T [[n [-> Hn]] [Hbud N]]]]]]].
    destruct S as [v' None_ Hv F|v1 k1 b0 b1 i1 e1 r T1 Hv Hk Se Hb1 F Hl Li Ve St].
    + destruct T as [T1 T2 T3 T4]. destruct (None_ b (nth_error_In _ _ T2)). exists i. split; [exact T3|apply nth_error_Some; congruence].
    + destruct (turn_unique _ _ _ _ _ _ _ _ _ _ (wf_cur _ _ _ W) T T1) as [<- [<- [<- <-]]].
      destruct Se as [_ [S2 [_ [S4 _]]]].
      assert (Forever : forall c, snd (execute (DupNExpr n) k (put k (pay (DupNExpr n) c b1) v1)) = OutOfFuel).
      { intros c. destruct (b_stack b1) as [|x xs] eqn:Sx; [congruence|].
        eapply (execute_endless (DupNExpr n) k _ _ x xs); [cbn; exact Hn|exact (nth_put_same k b1 _ v1 Hb1)|exact Sx]. }
      assert (One : forall c, costs (DupNExpr n) (v_version v1) b1 c -> c = 1%Z).
      { intros c [C|[_ C]]; [cbn in C; congruence|exact C]. }
      destruct St as [Hp|c Hcost Hc1 Hc2|c v3 Hcost Hc Hex|c v3 Hcost Hc Hex|c v3 b3 b4 t4 ok v5 b5 Hcost Hc Hex Hb3 Hsk Hvs P5 Hb5].
      * discriminate Hp.
      * apply One in Hcost. lia.
      * specialize (Forever c). rewrite Hex in Forever. discriminate Forever.
      * reflexivity.
      * specialize (Forever c). rewrite Hex in Forever. discriminate Forever.
Qed.

(* ------------------------------------------------------------------------------------------ *)
(* which run does not end *)
Lemma runs_first v v1 w : ~ finished v -> step v = Ret v1 -> v_trig v1 = [] -> runs_to v1 w -> runs_to v w.
Proof.
  intros Hf E T R. induction R as [|w1 w2 R IH Hf1 E1 T1].
  - eapply runs_on; [apply runs_here|exact Hf|exact E|exact T].
  - eapply runs_on; [exact IH|exact Hf1|exact E1|exact T1].
Qed.
Lemma runs_fuel v w : runs_to v w -> exists m, forall f, run_vm (m + f) v = run_vm f w.
Proof.
  intros R. induction R as [|w1 w2 R [m IH] Hf E T]; [exists 0; reflexivity|].
  exists (m + 1). intros f. rewrite <- Nat.add_assoc, IH. cbn [Nat.add]. rewrite (run_step _ _ Hf), E. cbn. rewrite T. reflexivity.
Qed.
Lemma step_no_panic l ver v : wf l ver v -> step v <> Panic.
Proof.
  intros W E. pose proof (step_stepping l ver v W) as S. rewrite E in S.
  inversion S as [|v1 k b b1 i e r T Hv Hk Se Hb1 F Hl Li Ve St]. subst r. inversion St.
Qed.

Theorem run_exact l ver v : reach l ver v ->
  ((exists n v', forall fuel, n <= fuel -> run_vm fuel v = Ret v') <->
   ~ exists w k b i e, runs_to v w /\ ~ finished w /\ turn l w k b i e /\ counts_forever e /\ (1 <= b_budget b)%Z /\ b_stack b <> []).
Proof.
  intros R. apply reach_wf in R. assert (Keep : forall w, runs_to v w -> wf l ver w).
  { intros w X. induction X as [|w1 w2 X IH Hf E T]; [exact R|]. eapply step_wf; eauto. }
  split.
  - intros [n [v' H]] [w [k [b [i [e [X [Hf [T C]]]]]]]].
    assert (E : step w = OutOfFuel) by (apply (step_forever l ver w (Keep w X)); exists k, b, i, e; split; [exact T|exact C]).
    destruct (runs_fuel v w X) as [m M]. specialize (H (m + S n) ltac:(lia)). rewrite M, (run_step _ _ Hf), E in H. discriminate H.
  - intros N. assert (N' : forall w, runs_to v w -> ~ finished w -> step w <> OutOfFuel).
    { intros w X Hf E. apply (step_forever l ver w (Keep w X)) in E as [k [b [i [e E]]]]. apply N. exists w, k, b, i, e. tauto. }
    clear N Keep. revert R N'. remember (mass (width l) (v_branches v)) as m eqn:Em. revert v Em.
    induction m as [m IH] using (well_founded_induction lt_wf); intros v Em W N.
    destruct (finished_dec v) as [Hf|Hf].
    + exists 0, v. intros fuel _. apply run_finished; exact Hf.
    + destruct (step v) as [v1| |] eqn:E1; [|destruct (step_no_panic _ _ _ W E1)|destruct (N v (runs_here v) Hf E1)].
      pose proof (step_wf _ _ _ _ W E1) as W1. destruct (v_trig v1) as [|t ts] eqn:Et.
      * assert (Hr : exists n v', forall fuel, n <= fuel -> run_vm fuel v1 = Ret v').
        { destruct (step_mass _ _ _ _ W E1) as [Hf1|Hm].
          - exists 0, v1. intros fuel _. apply run_finished; exact Hf1.
          - eapply IH; [|reflexivity|exact W1|]; [lia|]. intros w X. apply N. exact (runs_first v v1 w Hf E1 Et X). }
        destruct Hr as [n [v' Hr]]. exists (S n), v'. intros fuel Hle.
        destruct fuel as [|fuel]; [lia|]. rewrite (run_step _ _ Hf), E1. cbn. rewrite Et. apply Hr. lia.
      * exists 1, v1. intros fuel Hle. destruct fuel as [|fuel]; [lia|].
        rewrite (run_step _ _ Hf), E1. cbn. rewrite Et. reflexivity.
Qed.

(* ------------------------------------------------------------------------------------------ *)
(* what a step does *)
Lemma settle_unmoved l x x' : settle l x x' -> unmoved x x'.
Proof. intros [A [B [C [D [E _]]]]]. repeat split; assumption. Qed.
Lemma unmoved_trans x y z : unmoved x y -> unmoved y z -> unmoved x z.
Proof. intros [A [B [C [D E]]]] [A' [B' [C' [D' E']]]]. repeat split; congruence. Qed.

Lemma step_turn l ver v v' k b i e : wf l ver v -> turn l v k b i e -> step v = Ret v' ->
  (exists b', nth_error (v_branches v') k = Some b' /\ b_id b' = b_id b /\
     (b_trace b' = b_trace b ++ [e] /\ (v_error v' = true \/
        match v_branch v' with
        | Some k' => first_from exited k (v_branches v') k'
        | None => forall x, In x (v_branches v') -> exited x
        end) \/
      b_trace b' = b_trace b /\ (exited b' \/ v_error v' = true))) /\
  forall j x, j <> k -> nth_error (v_branches v) j = Some x -> exists x', nth_error (v_branches v') j = Some x' /\ unmoved x x'.
Proof.
  intros W T E. pose proof (step_stepping l ver v W) as S. rewrite E in S.
  inversion S as [w None_ Hv F Ew|v1 k1 b0 b1 i1 e1 r T1 Hv Hk Se Hb1 F Hl Li Ve St Er].
  { destruct T as [T1 T2 T3 T4]. destruct (None_ b (nth_error_In _ _ T2)). exists i. split; [exact T3|apply nth_error_Some; congruence]. }
  subst r. destruct (turn_unique _ _ _ _ _ _ _ _ _ _ (wf_cur _ _ _ W) T T1) as [<- [<- [<- <-]]]. clear T1.
  pose proof (settle_unmoved _ _ _ Se) as [U1 [U2 [U3 [U4 U5]]]].
  assert (Oth : forall j x, j <> k -> nth_error (v_branches v) j = Some x -> exists x', nth_error (v_branches v1) j = Some x' /\ unmoved x x').
  { intros j x _ Hx. destruct (Forall2_nth _ _ _ _ _ F Hx) as [x' [Hx' Sx]]. exists x'. split; [exact Hx'|exact (settle_unmoved _ _ _ Sx)]. }
  assert (Run : forall c v3, (exists r, execute e k (put k (pay e c b1) v1) = (v3, r)) ->
    (exists b3, nth_error (v_branches v3) k = Some b3 /\ b_id b3 = b_id b /\ b_trace b3 = b_trace b ++ [e]) /\
    forall j x, j <> k -> nth_error (v_branches v) j = Some x -> exists x', nth_error (v_branches v3) j = Some x' /\ unmoved x x').
  { intros c v3 [r Ex]. pose proof (Ext_execute e k _ _ _ Ex) as [_ X].
    destruct (X _ (nth_put_same k b1 (pay e c b1) v1 Hb1)) as [b' [new [A1 [A2 [A3 [A4 _]]]]]].
    split.
    - exists b'. rewrite A1, nth_error_app1, nth_upd_nth_same, (nth_put_same k b1 _ v1 Hb1).
      + split; [reflexivity|]. rewrite A2, A4. cbn. rewrite U1, U5. auto.
      + rewrite upd_nth_length. cbn. rewrite upd_nth_length. eapply nth_error_lt; eauto.
    - intros j x Hj Hx. destruct (Oth j x Hj Hx) as [x' [Hx' Ux]]. exists x'. split; [|exact Ux].
      rewrite A1, nth_error_app1, nth_upd_nth_other by (try (apply not_eq_sym; exact Hj); cbn; rewrite ?upd_nth_length; eapply nth_error_lt; eauto).
      rewrite nth_put_other by (apply not_eq_sym; exact Hj). exact Hx'. }
  inversion St as [Hp Hr|c Hcost Hc1 Hc2 Hr|c v3 Hcost Hc Hex Hr|c v3 Hcost Hc Hex Hr|c v3 b3 b4 t4 ok v5 b5 Hcost Hc Hex Hb3 Hsk Hvs P5 Hb5 Hr]; try discriminate Hr.
  - split; [|exact Oth]. exists b1. split; [exact Hb1|]. split; [exact U1|]. right. split; [exact U5|]. right. reflexivity.
  - split.
    + exists (exit_branch b1). split; [exact (nth_put_same k b1 _ v1 Hb1)|]. split; [exact U1|]. right. split; [exact U5|]. left. reflexivity.
    + intros j x Hj Hx. rewrite nth_put_other by (apply not_eq_sym; exact Hj). exact (Oth j x Hj Hx).
  - destruct (Run c v3 (ex_intro _ _ Hex)) as [[b3 [B1 [B2 B3]]] Q]. split; [|exact Q].
    exists b3. split; [exact B1|]. split; [exact B2|]. left. split; [exact B3|]. left. reflexivity.
  - destruct (Run c v3 (ex_intro _ _ Hex)) as [[b3' [B1 [B2 B3]]] Q]. rewrite Hb3 in B1. injection B1 as <-.
    destruct P5 as [Env [Q2 [F5 [_ [_ Q6]]]]]. cbn [v_branches set_trig] in F5.
    destruct (skip_nops_spec _ _ _ _ _ _ _ Hsk) as [K1 [K2 [K3 [K4 [K5 _]]]]].
    destruct (Forall2_nth _ _ _ _ _ F5 (nth_put_same k b3 b4 v3 Hb3)) as [b5' [Hb5' S5]]. rewrite Hb5 in Hb5'. injection Hb5' as <-.
    pose proof (settle_unmoved _ _ _ S5) as [V1 [V2 [V3 [V4 V5]]]]. split.
    + exists b5. split; [exact Hb5|]. split; [congruence|]. left. split; [congruence|]. right. cbn [v_branch set_trig v_branches].
      destruct (v_branch v5) as [k'|] eqn:Ek; [|exact Q6].
      pose proof (fun Hc => skip_first _ _ k' Hvs Hc Ek) as Fi. change (v_current (set_trig t4 (put k b4 v3))) with (v_current v3) in Fi.
      change (v_branches (set_trig t4 (put k b4 v3))) with (upd_nth k (fun _ => b4) (v_branches v3)) in Fi.
      assert (Cur : v_current v3 = k).
      { pose proof (Ext_execute e k _ _ _ Hex) as [[_ [_ [_ [X _]]]] _]. rewrite X. symmetry. exact Hk. }
      rewrite Cur in Fi. apply Fi. rewrite upd_nth_length. eapply nth_error_lt; eauto.
    + intros j x Hj Hx. destruct (Q j x Hj Hx) as [x' [Hx' Ux]].
      assert (Hx4 : nth_error (v_branches (put k b4 v3)) j = Some x') by (rewrite nth_put_other by (apply not_eq_sym; exact Hj); exact Hx').
      destruct (Forall2_nth _ _ _ _ _ F5 Hx4) as [x5 [Hx5 Sx]]. exists x5. split; [exact Hx5|]. exact (unmoved_trans _ _ _ Ux (settle_unmoved _ _ _ Sx)).
Qed.

Lemma turn_or_over l ver v : wf l ver v ->
  (exists k b i e, turn l v k b i e) \/
  (forall b, In b (v_branches v) -> ~ in_program l b) /\
  exists v', step v = Ret v' /\ v_branch v' = None /\ Forall2 unmoved (v_branches v) (v_branches v').
Proof.
  intros W. pose proof (step_stepping l ver v W) as S.
  destruct (step v) as [v'| |] eqn:E; inversion S as [w None_ Hv F Ew|v1 k1 b0 b1 i1 e1 r T1 Hv Hk Se Hb1 F Hl Li Ve St Er]; try (left; eauto; fail).
  subst w. right. split; [exact None_|]. exists v'. split; [reflexivity|]. split; [exact Hv|].
  clear - F. induction F as [|x y xs ys H F IH]; constructor; [exact (settle_unmoved _ _ _ H)|exact IH].
Qed.

Lemma before_turn l ver v k b i e : wf l ver v -> before l v k b i e -> turn l v k b i e.
Proof.
  intros W [A B C D]. pose proof (wf_branch _ _ _ W) as K. rewrite A in K. pose proof (wf_cur _ _ _ W) as Hc.
  constructor; [|exact B|exact C|exact D]. exists 0. rewrite Nat.add_0_r, Nat.mod_small by exact Hc.
  split; [lia|]. split; [exact K|]. split; [|intros d' x X; lia].
  intros x Hx N. apply N. rewrite Hx in B. injection B as ->. exists i. split; [exact C|]. apply nth_error_Some. congruence.
Qed.

(* ------------------------------------------------------------------------------------------ *)
(* when all branches have left the program and one is still the current one *)
Lemma all_left_exact l ver v v' k b i e : wf l ver v -> turn l v k b i e -> step v = Ret v' -> v_error v' = false ->
  (forall x, In x (v_branches v') -> exited x) -> (v_branch v' <> None <-> exists c, costs e ver b c /\ (b_budget b < c)%Z).
Proof.
  intros W T E Er All. pose proof (step_stepping l ver v W) as S. rewrite E in S.
  inversion S as [w None_ Hv F Ew|v1 k1 b0 b1 i1 e1 r T1 Hv Hk Se Hb1 F Hl Li Ve St Er1].
  { destruct T as [T1 T2 T3 T4]. destruct (None_ b (nth_error_In _ _ T2)). exists i. split; [exact T3|apply nth_error_Some; congruence]. }
  subst r. destruct (turn_unique _ _ _ _ _ _ _ _ _ _ (wf_cur _ _ _ W) T T1) as [<- [<- [<- <-]]]. clear T1.
  assert (V : v_version v1 = ver).
  { rewrite Ve. exact (wf_version _ _ _ W). }
  destruct Se as [_ [S2 [_ [S4 _]]]].
  inversion St as [Hp Hr|c Hcost Hc1 Hc2 Hr|c v3 Hcost Hc Hex Hr|c v3 Hcost Hc Hex Hr|c v3 b3 b4 t4 ok v5 b5 Hcost Hc Hex Hb3 Hsk Hvs P5 Hb5 Hr]; try discriminate Hr; subst v'.
  - discriminate Er.
  - split.
    + intros _. exists c. rewrite V in Hcost. split; [exact (costs_stack _ _ _ _ _ S2 Hcost)|]. rewrite <- S4. exact Hc2.
    + intros _. change (v_branch v1 <> None). rewrite Hv. discriminate.
  - discriminate Er.
  - split.
    + intros N. exfalso. apply N. destruct P5 as [_ [_ [_ [_ [_ Q6]]]]]. cbn [v_branch set_trig v_branches] in All |- *.
      destruct (v_branch v5) as [k'|]; [|reflexivity]. exfalso. destruct Q6 as [_ [x [i' [e' [H1 [H2 _]]]]]]. apply nth_error_In, All in H1. unfold exited in H1. congruence.
    + intros [c' [Hc' L]]. exfalso. rewrite V in Hcost. apply (costs_stack _ _ _ _ _ S2) in Hcost. assert (c = c').
      { destruct Hcost as [A|[A A']], Hc' as [B|[B B']]; congruence. }
      lia.
Qed.
