(* What every reachable machine satisfies, and what one step does. *)
From Verif Require Import Base Expr Fields VmOps Vm VmProofs VmSkip VmStep VmExec VmSpec.
From Coq Require Import ZifyBool ZifyNat ZifyN.

(* budget and trace agree: every traced instruction has been paid for *)
Definition paid (ver : N) (b : branch) : Prop :=
  (0 <= b_budget b)%Z /\
  exists cs, Forall2 (price ver) (b_trace b) cs /\ b_budget b = (700 - total cs)%Z.

Record wf (l : listing) (ver : N) (v : vm) : Prop := {
  wf_listing : v_listing v = l;
  wf_version : v_version v = ver;
  wf_ids : map b_id (v_branches v) = seq 0 (length (v_branches v));
  wf_id : v_id v = length (v_branches v);
  wf_cur : v_current v < length (v_branches v);
  wf_scratch : length (v_scratch v) = 256;
  wf_bps : bps_ok l (v_bps v);
  wf_landed : all_landed v;
  wf_branch : match v_branch v with
              | Some k => k = v_current v
              | None => forall b, In b (v_branches v) -> b_line b = None
              end;
  wf_paid : Forall (paid ver) (v_branches v)
}.

(* ------------------------------------------------------------------------------------------ *)
(* small facts *)
Lemma Forall2_refl {A} (R : A -> A -> Prop) xs : (forall a, R a a) -> Forall2 R xs xs.
Proof. intros H. induction xs; constructor; auto. Qed.

Lemma Forall2_trans {A} (R : A -> A -> Prop) xs ys zs :
  (forall a b c, R a b -> R b c -> R a c) -> Forall2 R xs ys -> Forall2 R ys zs -> Forall2 R xs zs.
Proof.
  intros HR H. revert zs. induction H as [|x y xs ys Hxy H IH]; intros zs Hz; inversion Hz; subst.
  - constructor.
  - constructor; eauto.
Qed.

Lemma Forall2_In_r {A B} (R : A -> B -> Prop) xs ys y :
  Forall2 R xs ys -> In y ys -> exists x, In x xs /\ R x y.
Proof.
  intros H Hy. destruct (In_nth_error _ _ Hy) as [k Hk].
  destruct (Forall2_nth_r _ _ _ _ _ H Hk) as [x [Hx HR]]. exists x. split; [|exact HR].
  eapply nth_error_In; eauto.
Qed.

Lemma Forall2_upd_both {A} (R : A -> A -> Prop) k z xs ys :
  (forall a, R a a) -> Forall2 R xs ys ->
  Forall2 R (upd_nth k (fun _ => z) xs) (upd_nth k (fun _ => z) ys).
Proof.
  intros Hr H. revert k; induction H; intros [|k]; cbn; constructor; auto.
Qed.

Lemma In_upd_nth {A} k (z : A) xs x : In x (upd_nth k (fun _ => z) xs) -> x = z \/ In x xs.
Proof.
  revert k; induction xs as [|y xs IH]; intros [|k]; cbn; try tauto.
  - intros [<-|H]; auto.
  - intros [<-|H]; auto. destruct (IH _ H); auto.
Qed.

Lemma map_upd_nth {A B} (f : A -> B) k z xs x :
  nth_error xs k = Some x -> f z = f x -> map f (upd_nth k (fun _ => z) xs) = map f xs.
Proof.
  revert k; induction xs as [|y xs IH]; intros [|k]; cbn; intros H E; try discriminate.
  - injection H as ->. congruence.
  - f_equal. eapply IH; eauto.
Qed.

Lemma settle_ids l xs ys : Forall2 (settle l) xs ys -> map b_id ys = map b_id xs.
Proof. intros H. induction H as [|x y xs ys [E _] H IH]; cbn; congruence. Qed.

Lemma settle_length l xs ys : Forall2 (settle l) xs ys -> length ys = length xs.
Proof. intros H. induction H; cbn; congruence. Qed.

Lemma settle_paid l ver xs ys :
  Forall2 (settle l) xs ys -> Forall (paid ver) xs -> Forall (paid ver) ys.
Proof.
  intros H. induction H as [|x y xs ys [_ [_ [_ [E4 [E5 _]]]]] H IH]; intros F; inversion F; subst;
    constructor; auto.
  unfold paid. rewrite E4, E5. assumption.
Qed.

(* an already landed branch that settles stays where it is or leaves the program for good *)
Lemma settle_line l b b' :
  settle l b b' -> landed l (b_line b) ->
  b_line b' = b_line b \/
  (b_line b' = None /\ exists i, b_line b = Some i /\ length l <= i).
Proof.
  intros [_ [_ [_ [_ [_ H]]]]] L. rewrite (land_of_landed _ _ L) in H. tauto.
Qed.

Lemma settle_none l b b' : settle l b b' -> b_line b = None -> b_line b' = None.
Proof. intros [_ [_ [_ [_ [_ H]]]]] E. rewrite E in H. cbn in H. tauto. Qed.

Lemma settle_in l b b' i :
  settle l b b' -> landed l (b_line b) -> i < length l -> b_line b' = Some i <-> b_line b = Some i.
Proof.
  intros H L Hi. destruct (settle_line _ _ _ H L) as [E|[E [j [Ej Hj]]]].
  - rewrite E. tauto.
  - rewrite E, Ej. split; [discriminate|]. intros Q. injection Q as ->. lia.
Qed.

Lemma cost_of_stack e ver b b' : b_stack b = b_stack b' -> cost_of e ver b = cost_of e ver b'.
Proof.
  intros E. split_expr e; try reflexivity; try (cbn [cost_of]; rewrite E; reflexivity).
Qed.

Lemma costs_stack e ver b b' c : b_stack b = b_stack b' -> costs e ver b c -> costs e ver b' c.
Proof. intros E. unfold costs. rewrite (cost_of_stack e ver b b' E). tauto. Qed.

(* ------------------------------------------------------------------------------------------ *)
(* one step: branch k is replaced by b', new branches are added, then all settle *)
Inductive action (l : listing) (ver : N) (v : vm) (k : nat) (b b' : branch) (new : list branch)
    (v' : vm) : Prop :=
| A_idle :
    b' = b -> new = [] -> (v_branch v' = None \/ v_error v' = true) ->
    (forall j, ~ hit j (v_trig v')) ->
    (v_branch v' = None -> v_error v' = false) ->
    (v_error v' = true -> v_branch v' = Some k) ->
    action l ver v k b b' new v'
| A_broke c e i :
    b_line b = Some i -> nth_error l i = Some e -> costs e ver b c -> (b_budget b < c)%Z ->
    b_line b' = None -> b_budget b' = b_budget b -> b_trace b' = b_trace b -> new = [] ->
    v_error v' = false -> v_branch v' = Some k ->
    (forall j, ~ hit j (v_trig v')) ->
    action l ver v k b b' new v'
| A_paid c e i :
    b_line b = Some i -> nth_error l i = Some e -> is_nop e = false ->
    costs e ver b c -> (1 <= c <= b_budget b)%Z ->
    b_budget b' = (b_budget b - c)%Z -> b_trace b' = b_trace b ++ [e] ->
    length new <= length (uses e) -> Forall (born l b') new ->
    (v_error v' = true -> b_line b' = b_line b) ->
    (v_error v' = true -> v_branch v' = Some k) ->
    (v_error v' = false -> forall j,
       v_branch v' = Some j -> exists bj i e, nth_error (v_branches v') j = Some bj /\
                                  b_line bj = Some i /\ nth_error l i = Some e /\ is_nop e = false) ->
    (forall j, hit j (v_trig v') <->
       (exists nb, In nb new /\ b_id nb = j /\ stopped_at (v_bps v) nb) \/
       (v_error v' = false /\ j = b_id b' /\ stopped_at (v_bps v) b')) ->
    action l ver v k b b' new v'.

Definition step_facts (l : listing) (ver : N) (v v' : vm) : Prop :=
  exists k b b' new,
    nth_error (v_branches v) k = Some b /\
    Forall2 (settle l) (upd_nth k (fun _ => b') (v_branches v) ++ new) (v_branches v') /\
    b_id b' = b_id b /\ landed l (b_line b') /\
    map b_id new = seq (v_id v) (length new) /\ v_id v' = v_id v + length new /\
    v_listing v' = v_listing v /\ v_version v' = v_version v /\ v_bps v' = v_bps v /\
    length (v_scratch v') = length (v_scratch v) /\
    v_current v' < length (v_branches v') /\
    match v_branch v' with
    | Some k => k = v_current v'
    | None => forall b, In b (v_branches v') -> b_line b = None
    end /\
    action l ver v k b b' new v'.

Lemma step_spec_facts l ver v v' :
  wf l ver v -> step v = Ret v' -> step_facts l ver v v'.
Proof.
  intros W E. destruct W as [Wl Wv Wi Wn Wc Ws Wb Wa Wbr Wp].
  destruct (step_cases v Wc) as [v1 [E1 [P1 S]]]. rewrite E in S. clear E E1.
  destruct P1 as [Q1 [Q2 [Q3 [Q4 [_ Q6]]]]].
  assert (La : all_landed (reset v)) by exact Wa.
  specialize (Q4 La). cbn in Q4.
  cbn in Q3. rewrite Wl in Q3.
  destruct Q1 as [R1 [R2 [R3 [R4 [R5 R6]]]]]. cbn in R1, R2, R3, R4, R5, R6.
  inversion S as [Hn Hv|k b1 i e r Hk Hkc Hb1 Hl He Hnop St Hr]; clear S.
  - (* nothing left to run *)
    subst v'. destruct (nth_lt_some _ _ Wc) as [b Hb].
    exists (v_current v), b, b, []. rewrite upd_nth_id by exact Hb. rewrite app_nil_r.
    split; [exact Hb|]. split; [exact Q3|]. split; [reflexivity|].
    split; [rewrite <- Wl; apply Wa; eapply nth_error_In; eauto|].
    split; [reflexivity|]. split; [rewrite R1; cbn; lia|].
    split; [exact R2|]. split; [exact R3|]. split; [exact R5|].
    split; [congruence|]. split; [exact Q2|].
    rewrite Hn in Q6 |- *. split; [exact Q6|].
    apply A_idle; auto.
    + intros j. rewrite Q4. apply hit_nil.
    + congruence.
  - subst r. rewrite Hk in Q6.
    destruct (Forall2_nth_r _ _ _ _ _ Q3 Hb1) as [b [Hb Hset]].
    assert (Lb : landed l (b_line b)) by (rewrite <- Wl; apply Wa; eapply nth_error_In; eauto).
    assert (Hlb : b_line b = Some i).
    { destruct (settle_line _ _ _ Hset Lb) as [Q|[Q _]]; congruence. }
    assert (He' : nth_error l i = Some e) by (rewrite <- Wl, <- R2; exact He).
    destruct Hset as [I1 [I2 [I3 [I4 [I5 _]]]]].
    assert (Hid : forall v2, v_listing v2 = v_listing v1 -> True) by auto.
    (* the branch is untouched *)
    assert (Base : forall z, Forall2 (settle l) (upd_nth k (fun _ => z) (v_branches v))
                                     (upd_nth k (fun _ => z) (v_branches v1))).
    { intros z. apply Forall2_upd_both; [apply settle_refl|exact Q3]. }
    inversion St as [Hp Hr|c Hcost Hc1 Hc2 Hr|c v3 Hcost Hc Hex Hr|c v3 Hcost Hc Hex Hr
                    |c v3 b3 b4 t4 ok v5 b5 Hcost Hc Hex Hb3 Hsk Hvs P5 Hb5 Hr]; clear St;
      try discriminate.
    + (* Cost panics *)
      subst v'. exists k, b, b, []. cbn. rewrite upd_nth_id by exact Hb. rewrite app_nil_r.
      split; [exact Hb|]. split; [exact Q3|]. split; [reflexivity|]. split; [exact Lb|].
      split; [reflexivity|]. split; [rewrite R1; lia|].
      split; [exact R2|]. split; [exact R3|]. split; [exact R5|].
      split; [congruence|]. split; [exact Q2|].
      rewrite Hk. split; [exact Hkc|].
      apply A_idle; auto; cbn; try congruence.
      intros j. rewrite Q4. apply hit_nil.
    + (* the budget does not suffice *)
      subst v'. exists k, b, (exit_branch b1), []. cbn. rewrite app_nil_r.
      split; [exact Hb|]. split; [apply Base|]. split; [exact I1|].
      split; [intros ? ? Q; discriminate Q|].
      split; [reflexivity|]. split; [rewrite R1; lia|].
      split; [exact R2|]. split; [exact R3|]. split; [exact R5|].
      split; [congruence|]. split; [rewrite upd_nth_length; exact Q2|].
      rewrite Hk. split; [exact Hkc|].
      eapply (A_broke _ _ _ _ _ _ _ _ c e i); cbn; auto; try congruence.
      * rewrite <- Wv, <- R3. eapply costs_stack; [|exact Hcost]. congruence.
      * intros j. rewrite Q4. apply hit_nil.
    + (* Execute panics *)
      subst v'. pose proof (Ext_execute e k _ _ _ Hex) as X.
      destruct X as [[X1 [X2 [X3 [X4 [X5 [X6 X7]]]]]] X].
      cbn in X1, X2, X3, X4, X5, X6, X7.
      pose proof (nth_put_same k b1 (pay e c b1) v1 Hb1) as Hpay.
      destruct (X _ Hpay) as [b3 [new [A1 [A2 [A3 [A4 [A5 [A6 [A7 [A8 A9]]]]]]]]]].
      cbn in A1, A2, A3, A4, A5, A6, A7, A8, A9. rewrite upd_nth_twice in A1.
      destruct (execute_panic_line e _ _ _ _ Hpay Hex) as [b3' [Hb3' L3]].
      rewrite A1, nth_error_app1, nth_upd_nth_same, Hb1 in Hb3'
        by (rewrite upd_nth_length; eapply nth_error_lt; eauto).
      cbn in Hb3'. injection Hb3' as <-. cbn in L3.
      exists k, b, b3, new. cbn.
      split; [exact Hb|]. split.
      { rewrite A1. apply Forall2_app; [apply Base|apply Forall2_refl, settle_refl]. }
      split; [congruence|].
      split; [rewrite L3, Hl, <- Hlb; exact Lb|].
      split; [rewrite A5, R1; reflexivity|]. split; [rewrite A6, R1; reflexivity|].
      split; [congruence|]. split; [congruence|]. split; [congruence|].
      split; [congruence|].
      split; [rewrite X4, A1, app_length, upd_nth_length; lia|].
      rewrite X3, Hk. split; [congruence|].
      eapply (A_paid _ _ _ _ _ _ _ _ c e i); cbn; auto; try congruence.
      * rewrite <- Wv, <- R3. eapply costs_stack; [|exact Hcost]. congruence.
      * eapply Forall_impl; [|exact A8]. intros nb [B1 [B2 [B3 [t B4]]]].
        split; [cbn in B1; congruence|]. split; [cbn in B2; congruence|]. split; [exact B3|].
        exists t. rewrite R2, Wl in B4. exact B4.
      * assert (Bo : bps_ok (v_listing v1) (v_bps v1)) by (rewrite R2, Wl, R5; exact Wb).
        intros j. rewrite (A9 Bo j), Q4, R5. split.
        -- intros [Hh|Hh]; [exfalso; revert Hh; apply hit_nil|left; exact Hh].
        -- intros [Hh|[Hh _]]; [right; exact Hh|discriminate].
    + (* normal execution *)
      subst v'. pose proof (Ext_execute e k _ _ _ Hex) as X.
      destruct X as [[X1 [X2 [X3 [X4 [X5 [X6 X7]]]]]] X].
      cbn in X1, X2, X3, X4, X5, X6, X7.
      pose proof (nth_put_same k b1 (pay e c b1) v1 Hb1) as Hpay.
      destruct (X _ Hpay) as [b3' [new [A1 [A2 [A3 [A4 [A5 [A6 [A7 [A8 A9]]]]]]]]]].
      cbn in A1, A2, A3, A4, A5, A6, A7, A8, A9. rewrite upd_nth_twice in A1.
      assert (Hk1 : k < length (v_branches v1)) by (eapply nth_error_lt; eauto).
      rewrite A1, nth_error_app1, nth_upd_nth_same, Hb1 in Hb3
        by (rewrite upd_nth_length; exact Hk1).
      cbn in Hb3. injection Hb3 as <-. rename b3' into b3.
      assert (L3 : v_listing v3 = l) by congruence.
      destruct (skip_nops_spec _ _ _ _ _ _ _ Hsk) as [S1 [S2 [S3 [S4 [S5 [S6 [S7 S8]]]]]]].
      assert (Bo : bps_ok (v_listing v1) (v_bps v1)) by (rewrite R2, Wl, R5; exact Wb).
      assert (Bo3 : bps_ok (v_listing v3) (v_bps v3)) by (rewrite L3, X5, R5; exact Wb).
      destruct P5 as [T1 [T2 [T3 [T4 [_ T6]]]]].
      cbn in T2, T3, T4, T6. rewrite A1 in T3.
      rewrite upd_nth_app_lt, upd_nth_twice in T3 by (rewrite upd_nth_length; exact Hk1).
      rewrite L3 in T3.
      assert (Lb4 : landed l (b_line b4)) by (rewrite S6, L3; apply land_landed).
      assert (Bn : Forall (born l b4) new).
      { eapply Forall_impl; [|exact A8]. intros nb [B1 [B2 [B3 [t B4]]]].
        split; [cbn in B1; congruence|]. split; [cbn in B2; congruence|]. split; [exact B3|].
        exists t. rewrite R2, Wl in B4. exact B4. }
      assert (Al4 : all_landed (set_trig t4 (put k b4 v3))).
      { intros x Hx. cbn in Hx |- *. rewrite L3. rewrite A1 in Hx.
        rewrite upd_nth_app_lt, upd_nth_twice in Hx by (rewrite upd_nth_length; exact Hk1).
        apply in_app_or in Hx. destruct Hx as [Hx|Hx].
        - apply In_upd_nth in Hx. destruct Hx as [->|Hx]; [exact Lb4|].
          destruct (Forall2_In_r _ _ _ _ Q3 Hx) as [y [Hy Hs]].
          eapply settle_landed; [exact Hs|]. rewrite <- Wl. apply Wa. exact Hy.
        - rewrite Forall_forall in Bn. destruct (Bn x Hx) as [_ [_ [_ [t Q]]]].
          rewrite Q. apply land_landed. }
      specialize (T4 Al4).
      destruct T1 as [U1 [U2 [U3 [U4 [U5 U6]]]]]. cbn in U1, U2, U3, U4, U5, U6.
      assert (Eerr : v_error v5 = false) by congruence.
      assert (Hb4 : nth_error (upd_nth k (fun _ => b4) (v_branches v1) ++ new) k = Some b4).
      { rewrite nth_error_app1 by (rewrite upd_nth_length; exact Hk1).
        rewrite nth_upd_nth_same, Hb1. reflexivity. }
      destruct (Forall2_nth _ _ _ _ _ T3 Hb4) as [b5' [Hb5' Hs45]].
      rewrite Hb5 in Hb5'. injection Hb5' as <-.
      exists k, b, b4, new. cbn.
      split; [exact Hb|]. split.
      { eapply Forall2_trans; [intros; eapply settle_trans; eauto| |exact T3].
        apply Forall2_app; [apply Base|apply Forall2_refl, settle_refl]. }
      split; [congruence|]. split; [exact Lb4|].
      split; [rewrite A5, R1; reflexivity|]. split; [rewrite U1, A6, R1; reflexivity|].
      split; [congruence|]. split; [congruence|]. split; [congruence|].
      split; [congruence|]. split; [exact T2|].
      split; [destruct (v_branch v5); [apply T6|exact T6]|].
      eapply (A_paid _ _ _ _ _ _ _ _ c e i); cbn; auto; try congruence.
      * rewrite <- Wv, <- R3. eapply costs_stack; [|exact Hcost]. congruence.
      * intros _ j Hj. rewrite Hj, L3 in T6. destruct T6 as [_ [bj [i' [e' [F1 [F2 [F3 F4]]]]]]].
        exists bj, i', e'. auto.
      * intros j. rewrite update_bps_hit, T4, (S8 Bo3 j), (A9 Bo j), Q4, U5, X5, R5.
        assert (Sx : (exists i0, b_line b5 = Some i0 /\ In i0 (v_bps v)) <-> stopped_at (v_bps v) b4).
        { split; intros [i0 [F1 F2]]; exists i0; split; auto.
          - destruct (Wb i0 F2) as [e0 [F3 _]].
            assert (i0 < length l) by (apply nth_error_Some; congruence).
            apply (settle_in _ _ _ _ Hs45 Lb4); auto.
          - destruct (Wb i0 F2) as [e0 [F3 _]].
            assert (i0 < length l) by (apply nth_error_Some; congruence).
            apply (settle_in _ _ _ _ Hs45 Lb4); auto. }
        rewrite Sx. destruct Hs45 as [Hid5 _]. rewrite Hid5.
        split.
        -- intros [[[Hh|Hh]|[Hh1 [Hh2 Hh3]]]|[Hh1 Hh2]].
           ++ exfalso; revert Hh; apply hit_nil.
           ++ left; exact Hh.
           ++ right. split; [exact Eerr|]. split; [congruence|exact Hh3].
           ++ right. auto.
        -- intros [Hh|[_ [Hh1 Hh2]]]; [left; left; right; exact Hh|right; auto].
Qed.

(* ------------------------------------------------------------------------------------------ *)
(* the invariant *)
Lemma total_app a b : total (a ++ b) = (total a + total b)%Z.
Proof. unfold total. induction a as [|x a IH]; cbn; [reflexivity|]. rewrite IH. lia. Qed.

Lemma costs_price ver e b c : costs e ver b c -> (1 <= c)%Z -> price ver e c.
Proof. intros H1 H2. split; [exact H2|]. exists b. exact H1. Qed.

Lemma action_paid l ver v k b b' new v' :
  action l ver v k b b' new v' -> paid ver b -> paid ver b' /\ Forall (paid ver) new.
Proof.
  intros A [P1 [cs [P2 P3]]]. destruct A as [-> -> _ _ _ _|c e i _ _ _ _ _ E1 E2 -> _ _ _|c e i _ _ _ Hc H E1 E2 _ B _ _ _ _].
  - split; [|constructor]. split; [exact P1|]. eauto.
  - split; [|constructor]. unfold paid. rewrite E1, E2. split; [exact P1|]. eauto.
  - assert (P : paid ver b').
    { unfold paid. rewrite E1, E2. split; [lia|]. exists (cs ++ [c]). split.
      - apply Forall2_app; [exact P2|]. constructor; [|constructor]. eapply costs_price; eauto; lia.
      - rewrite total_app. change (total [c]) with (c + 0)%Z. lia. }
    split; [exact P|]. eapply Forall_impl; [|exact B]. intros nb [F1 [F2 _]].
    unfold paid. rewrite F1, F2. exact P.
Qed.

Lemma step_wf l ver v v' : wf l ver v -> step v = Ret v' -> wf l ver v'.
Proof.
  intros W E. pose proof (step_spec_facts l ver v v' W E) as F.
  destruct F as [k [b [b' [new [F1 [F2 [F3 [F4 [F5 [F6 [F7 [F8 [F9 [F10 [F11 [F12 F13]]]]]]]]]]]]]]]].
  destruct W as [Wl Wv Wi Wn Wc Ws Wb Wa Wbr Wp].
  pose proof (settle_length _ _ _ F2) as Len. rewrite app_length, upd_nth_length in Len.
  assert (Hnew : Forall (born l b') new).
  { destruct F13 as [-> -> _ _ _ _|c e i _ _ _ _ _ E1 E2 -> _ _ _|c e i _ _ _ Hc H E1 E2 _ B _ _ _ _];
      [constructor|constructor|exact B]. }
  assert (Pb : paid ver b) by (rewrite Forall_forall in Wp; apply Wp; eapply nth_error_In; eauto).
  destruct (action_paid _ _ _ _ _ _ _ _ F13 Pb) as [Pb' Pnew].
  constructor; try congruence.
  - rewrite (settle_ids _ _ _ F2), Len, map_app, (map_upd_nth _ _ _ _ _ F1 F3), Wi, F5, Wn.
    rewrite seq_app. reflexivity.
  - rewrite F9. exact Wb.
  - intros x Hx. rewrite F7, Wl. destruct (Forall2_In_r _ _ _ _ F2 Hx) as [y [Hy Hs]].
    eapply settle_landed; [exact Hs|]. apply in_app_or in Hy. destruct Hy as [Hy|Hy].
    + apply In_upd_nth in Hy. destruct Hy as [->|Hy]; [exact F4|]. rewrite <- Wl. apply Wa. exact Hy.
    + rewrite Forall_forall in Hnew. destruct (Hnew y Hy) as [_ [_ [_ [t Q]]]].
      rewrite Q. apply land_landed.
  - eapply settle_paid; [exact F2|]. apply Forall_app. split; [|exact Pnew].
    rewrite Forall_forall in Wp |- *. intros x Hx. apply In_upd_nth in Hx.
    destruct Hx as [->|Hx]; [exact Pb'|auto].
Qed.

Lemma new_wf l ver v : new_vm l ver = Ret v -> wf l ver v.
Proof.
  intros E. unfold new_vm in E.
  match type of E with vm_skip_nops ?w = _ => set (v0 := w) in * end.
  destruct (vm_skip_nops_spec v0) as [v' [E' [Q1 [Q2 [Q3 [Q4 [_ Q6]]]]]]]; [cbn; lia|].
  rewrite E in E'. injection E' as <-.
  destruct Q1 as [R1 [R2 [R3 [R4 [R5 R6]]]]].
  assert (Hall : exists b, v_branches v = [b] /\ settle l (Branch 0 (Some 0) [] [] 700 MainName []) b).
  { cbn in Q3. inversion Q3 as [|? b ? ys Hs Hr Hx Hy]; subst. inversion Hr; subst. eauto. }
  destruct Hall as [b [Eb [S1 [S2 [S3 [S4 [S5 S6]]]]]]].
  rewrite Eb in Q2. cbn in Q2.
  constructor; try (rewrite Eb); try (cbn; congruence); auto.
  - cbn in S1 |- *. rewrite S1. reflexivity.
  - rewrite R4. reflexivity.
  - rewrite R5. intros i [].
  - intros x Hx. rewrite Eb in Hx. destruct Hx as [<-|[]]. rewrite R2. cbn.
    destruct (v_branch v) as [k|].
    + destruct Q6 as [-> [b1 [i [e [F1 [F2 [F3 F4]]]]]]]. rewrite Eb in F1.
      assert (v_current v = 0) by lia. rewrite H in F1. injection F1 as <-.
      rewrite F2. intros j e' Hj Hn. injection Hj as <-. cbn in F3. congruence.
    + rewrite (Q6 b) by (rewrite Eb; left; reflexivity). intros ? ? Hj; discriminate.
  - rewrite <- Eb. destruct (v_branch v); [apply Q6|exact Q6].
  - constructor; [|constructor]. unfold paid. rewrite S4, S5. cbn. split; [lia|].
    exists []. split; [constructor|reflexivity].
Qed.

Lemma find_branch_spec id : forall bs i k,
  find_branch i bs id = Some k -> i <= k < i + length bs /\
  exists b, nth_error bs (k - i) = Some b /\ b_id b = id.
Proof.
  induction bs as [|b bs IH]; intros i k H; cbn in H; [discriminate|].
  destruct (Nat.eqb_spec (b_id b) id) as [E|E].
  - injection H as <-. cbn. split; [lia|]. exists b. rewrite Nat.sub_diag. auto.
  - apply IH in H. destruct H as [H1 [b' [H2 H3]]]. cbn. split; [lia|].
    exists b'. replace (k - i) with (S (k - S i)) by lia. auto.
Qed.

Lemma switch_wf l ver id v : wf l ver v -> wf l ver (switch_vm id v).
Proof.
  intros W. unfold switch_vm. destruct (find_branch 0 (v_branches v) id) as [k|] eqn:E; [|exact W].
  apply find_branch_spec in E. destruct E as [E _].
  destruct W as [Wl Wv Wi Wn Wc Ws Wb Wa Wbr Wp]. constructor; cbn; auto; lia.
Qed.

Lemma bind_lines_ok l : forall lns ns, bind_lines l lns = Ret ns -> bps_ok l ns.
Proof.
  induction lns as [|ln r IH]; intros ns H; cbn in H.
  - injection H as <-. intros i [].
  - destruct (_ >=? _)%Z; [auto|]. destruct (_ <? _)%Z; [discriminate|].
    unfold index in H. destruct (nth_error l (Z.to_nat ln)) as [e|] eqn:E; [|discriminate].
    cbn in H. destruct (bind_lines l r) as [ns'| |]; try discriminate. cbn in H.
    injection H as <-. specialize (IH ns' eq_refl). destruct (is_nop e) eqn:En; [exact IH|].
    intros i [<-|Hi]; [eauto|auto].
Qed.

Lemma breakpoints_wf l ver lns v v' ns :
  wf l ver v -> set_breakpoints lns v = Ret (v', ns) -> wf l ver v'.
Proof.
  intros W E. unfold set_breakpoints in E.
  destruct (bind_lines (v_listing v) lns) as [ns'| |] eqn:Eb; try discriminate.
  cbn in E. injection E as <- <-. apply bind_lines_ok in Eb.
  destruct W as [Wl Wv Wi Wn Wc Ws Wb Wa Wbr Wp]. constructor; cbn; auto. rewrite <- Wl. exact Eb.
Qed.

Lemma run_inv (P : vm -> Prop) :
  (forall v v', P v -> step v = Ret v' -> P v') ->
  forall fuel v v', P v -> run_vm fuel v = Ret v' -> P v'.
Proof.
  intros HP. induction fuel as [|fuel IH]; intros v v' Hv E; cbn in E.
  - destruct (v_branch v); [|congruence]. destruct (v_error v); congruence.
  - destruct (v_branch v); [|congruence]. destruct (v_error v); [congruence|].
    destruct (step v) as [v1| |] eqn:Es; try discriminate. cbn in E.
    destruct (v_trig v1); [exact (IH v1 v' (HP _ _ Hv Es) E)|]. injection E as <-. eauto.
Qed.

Lemma command_wf l ver v v' : wf l ver v -> command v v' -> wf l ver v'.
Proof.
  intros W C. destruct C.
  - eapply step_wf; eauto.
  - eapply (run_inv (wf l ver)); eauto. intros; eapply step_wf; eauto.
  - apply switch_wf; assumption.
  - eapply breakpoints_wf; eauto.
Qed.

Lemma later_inv (P : vm -> Prop) :
  (forall v v', P v -> command v v' -> P v') -> forall v v', P v -> later v v' -> P v'.
Proof. intros HP v v' Hv H. induction H; eauto. Qed.

Theorem reach_wf l ver v : reach l ver v -> wf l ver v.
Proof.
  intros [v0 [E H]]. eapply (later_inv (wf l ver)); eauto using command_wf, new_wf.
Qed.
