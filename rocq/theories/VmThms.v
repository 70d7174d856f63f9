(* The theorems behind PropVm.v: termination, budgets, identities, independence of branches,
   breakpoints, failures. *)
From Verif Require Import Base Expr Fields VmOps Vm VmProofs VmSkip VmStep VmExec VmSpec VmInv.
From Coq Require Import ZifyBool ZifyNat ZifyN.

(* ------------------------------------------------------------------------------------------ *)
(* the current branch is the one that is executed *)
Lemma set_same k b v :
  nth_error (v_branches v) k = Some b -> v_branch v = Some k ->
  set_branch (Some k) (set_trig (v_trig v) (put k b v)) = v.
Proof.
  intros H1 H2. unfold set_branch, set_trig, put, set_branches. destruct v; cbn in *.
  rewrite upd_nth_id by exact H1. congruence.
Qed.

Lemma before_not_nop l ver v k b i e :
  wf l ver v -> before l v k b i e -> is_nop e = false.
Proof.
  intros W [B1 B2 B3 B4]. pose proof (wf_landed _ _ _ W b (nth_error_In _ _ B2) i e B3) as H.
  apply H. rewrite (wf_listing _ _ _ W). exact B4.
Qed.

Lemma skip_at l ver v k b i e :
  wf l ver v -> before l v k b i e -> vm_skip_nops (reset v) = Ret (reset v).
Proof.
  intros W B. destruct B as [B1 B2 B3 B4].
  pose proof (wf_branch _ _ _ W) as Hk. rewrite B1 in Hk.
  unfold vm_skip_nops. cbn [skip_loop].
  change (v_branches (reset v)) with (v_branches v).
  change (v_current (reset v)) with (v_current v). rewrite <- Hk, B2, B3.
  assert (La : landed (v_listing v) (b_line b)).
  { apply (wf_landed _ _ _ W). eapply nth_error_In; eauto. }
  destruct (skip_nops_landed (v_listing (reset v)) (v_bps (reset v)) b (v_trig (reset v)) La)
    as [ok [Es Ho]].
  rewrite Es.
  assert (Hi : i < length l) by (apply nth_error_Some; congruence).
  assert (Ot : ok = true).
  { apply Ho. exists i. split; [exact B3|]. cbn. rewrite (wf_listing _ _ _ W). exact Hi. }
  rewrite Ot. f_equal.
  change (v_current (set_trig (v_trig (reset v)) (put k b (reset v)))) with (v_current v).
  rewrite <- Hk. apply (set_same k b (reset v)); assumption.
Qed.

Lemma step_at l ver v k b i e :
  wf l ver v -> before l v k b i e ->
  step v = match step_branch k (reset v) with
           | (v, Ret _) => Ret v
           | (v, Panic) => Ret (set_error true v)
           | (_, OutOfFuel) => OutOfFuel
           end.
Proof.
  intros W B. unfold step. fold (reset v). rewrite (skip_at _ _ _ _ _ _ _ W B).
  change (v_branch (reset v)) with (v_branch v). rewrite (before_current _ _ _ _ _ _ B). reflexivity.
Qed.

Lemma step_stepped l ver v k b i e :
  wf l ver v -> before l v k b i e -> stepped (reset v) k b e (step v).
Proof.
  intros W B. pose proof (wf_cur _ _ _ W) as Hc.
  destruct (step_cases v Hc) as [v1 [E1 [_ S]]]. rewrite (skip_at _ _ _ _ _ _ _ W B) in E1.
  injection E1 as <-.
  destruct B as [B1 B2 B3 B4].
  inversion S as [Hn Hv|k' b' i' e' r Hk Hkc Hb Hl He Hnop St Hr].
  - cbn in Hn. congruence.
  - cbn in Hk, Hb, He. rewrite (wf_listing _ _ _ W) in He.
    assert (Ekk : k' = k) by congruence. rewrite Ekk in Hb, St. assert (b' = b) by congruence. subst b'.
    assert (i' = i) by congruence. subst i'. assert (e' = e) by congruence. subst e'.
    exact St.
Qed.

(* ------------------------------------------------------------------------------------------ *)
(* C28: termination *)
Definition weight (K : nat) (b : branch) : nat :=
  match b_line b with None => 0 | Some _ => (K + 2) ^ S (Z.to_nat (b_budget b)) end.
Fixpoint mass (K : nat) (bs : list branch) : nat :=
  match bs with [] => 0 | b :: r => weight K b + mass K r end.

Lemma weight_settle K l b b' : settle l b b' -> weight K b' <= weight K b.
Proof.
  intros S. unfold weight. destruct (b_line b) eqn:E.
  - destruct S as [_ [_ [_ [B _]]]]. rewrite B.
    destruct (b_line b'); [apply le_n|apply Nat.le_0_l].
  - rewrite (settle_none _ _ _ S E). apply le_n.
Qed.

Lemma mass_settle K l xs ys : Forall2 (settle l) xs ys -> mass K ys <= mass K xs.
Proof.
  intros H. induction H as [|x y xs ys Hxy H IH]; cbn [mass]; [lia|].
  pose proof (weight_settle K _ _ _ Hxy). lia.
Qed.

Lemma mass_app K xs ys : mass K (xs ++ ys) = mass K xs + mass K ys.
Proof. induction xs as [|x xs IH]; cbn [app mass]; lia. Qed.

Lemma mass_upd K k b b' xs :
  nth_error xs k = Some b ->
  mass K (upd_nth k (fun _ => b') xs) + weight K b = mass K xs + weight K b'.
Proof.
  revert k; induction xs as [|x xs IH]; intros [|k] H; cbn in H; try discriminate; cbn [upd_nth mass].
  - injection H as ->. lia.
  - specialize (IH k H). lia.
Qed.

Lemma weight_le K b : weight K b <= (K + 2) ^ S (Z.to_nat (b_budget b)).
Proof. unfold weight. destruct (b_line b); [apply le_n|apply Nat.le_0_l]. Qed.

Lemma mass_new K l b' new :
  Forall (born l b') new -> mass K new <= length new * (K + 2) ^ S (Z.to_nat (b_budget b')).
Proof.
  intros H. induction H as [|nb new Hb H IH]; cbn [mass length]; [lia|].
  destruct Hb as [E _]. pose proof (weight_le K nb) as L. rewrite E in L.
  cbn [Nat.mul]. lia.
Qed.

Lemma pow_pos a n : 0 < a -> 0 < a ^ n.
Proof. intros H. induction n; cbn; lia. Qed.

Definition width (l : listing) : nat := list_max (map (fun e => length (uses e)) l).

Lemma width_spec l i e : nth_error l i = Some e -> length (uses e) <= width l.
Proof.
  intros H. unfold width. apply nth_error_In in H.
  pose proof (proj1 (list_max_le (map (fun e => length (uses e)) l) _) (le_n _)) as F.
  rewrite Forall_forall in F. apply F. apply in_map_iff. eauto.
Qed.

Lemma step_mass l ver v v' :
  wf l ver v -> step v = Ret v' ->
  finished v' \/ mass (width l) (v_branches v') < mass (width l) (v_branches v).
Proof.
  intros W E. destruct (step_spec_facts _ _ _ _ W E)
    as [k [b [b' [new [F1 [F2 [F3 [F4 [F5 [F6 [F7 [F8 [F9 [F10 [F11 [F12 F13]]]]]]]]]]]]]]]].
  set (K := width l).
  pose proof (mass_settle K _ _ _ F2) as M1. rewrite mass_app in M1.
  pose proof (mass_upd K k b b' _ F1) as M2.
  destruct F13 as [-> -> Hf _ _ _|c e i Hl He _ _ Hl' Eb _ -> _ _ _|c e i Hl He _ _ Hc Eb _ Hn Hnew _ _ _ _].
  - left. exact Hf.
  - right.
    assert (Wb : weight K b' = 0) by (unfold weight; rewrite Hl'; reflexivity).
    assert (Wp : 0 < weight K b) by (unfold weight; rewrite Hl; apply pow_pos; lia).
    change (mass K []) with 0 in M1. lia.
  - right.
    assert (Wb : weight K b = (K + 2) * (K + 2) ^ Z.to_nat (b_budget b)).
    { unfold weight. rewrite Hl. reflexivity. }
    pose proof (weight_le K b') as Wb'. rewrite Eb in Wb'.
    pose proof (mass_new K _ _ _ Hnew) as Mn. rewrite Eb in Mn.
    pose proof (width_spec _ _ _ He) as Hw. fold K in Hw.
    assert (Le : (K + 2) ^ S (Z.to_nat (b_budget b - c)) <= (K + 2) ^ Z.to_nat (b_budget b)).
    { apply Nat.pow_le_mono_r; lia. }
    assert (Pos : 0 < (K + 2) ^ Z.to_nat (b_budget b)) by (apply pow_pos; lia).
    assert (Ln : mass K new <= K * (K + 2) ^ Z.to_nat (b_budget b)).
    { eapply Nat.le_trans; [exact Mn|]. apply Nat.mul_le_mono; lia. }
    lia.
Qed.

Lemma no_endless l i e : no_dupn_255 l -> nth_error l i = Some e -> ~ endless e.
Proof.
  intros H He Hd. destruct e; try contradiction. cbn in Hd.
  apply nth_error_In in He. apply H in He. lia.
Qed.

Lemma step_returns l ver v :
  no_dupn_255 l -> wf l ver v -> exists v', step v = Ret v'.
Proof.
  intros N W. destruct (step_cases v (wf_cur _ _ _ W)) as [v1 [_ [P S]]].
  destruct S as [Hn|k b i e r Hk Hkc Hb Hl He Hnop St]; [eauto|].
  destruct P as [[_ [R2 _]] _]. cbn in R2. rewrite R2, (wf_listing _ _ _ W) in He.
  destruct St as [Hp|c Hcost Hc1 Hc2|c v3 Hcost Hc Hex|c v3 Hcost Hc Hex|c v3 b3 b4 t4 ok v5 b5 Hcost Hc Hex Hb3 Hsk Hvs P5 Hb5]; eauto.
  exfalso. pose proof (nth_put_same k b (pay e c b) v1 Hb) as Hpay.
  destruct (Tail_execute e (no_endless _ _ _ N He) _ _ _ _ _ Hpay Hex) as [Q _]. congruence.
Qed.

Lemma finished_dec v : {finished v} + {~ finished v}.
Proof.
  unfold finished. destruct (v_branch v) eqn:E; destruct (v_error v) eqn:E2; auto.
  right. intros [H|H]; discriminate.
Qed.

Lemma run_finished fuel v : finished v -> run_vm fuel v = Ret v.
Proof.
  intros [H|H]; destruct fuel; cbn; rewrite H; auto; destruct (v_branch v); auto.
Qed.

Lemma run_step fuel v :
  ~ finished v ->
  run_vm (S fuel) v =
  (letr v' := step v in match v_trig v' with [] => run_vm fuel v' | _ :: _ => Ret v' end).
Proof.
  intros H. cbn. unfold finished in H. destruct (v_branch v) eqn:E; [|tauto].
  destruct (v_error v) eqn:E2; [tauto|reflexivity].
Qed.

Theorem run_terminates l ver v :
  no_dupn_255 l -> reach l ver v ->
  exists n v', forall fuel, n <= fuel -> run_vm fuel v = Ret v'.
Proof.
  intros N R. apply reach_wf in R. revert R.
  remember (mass (width l) (v_branches v)) as m eqn:Em. revert v Em.
  induction m as [m IH] using (well_founded_induction lt_wf); intros v Em W.
  destruct (finished_dec v) as [Hf|Hf].
  - exists 0, v. intros fuel _. apply run_finished; exact Hf.
  - destruct (step_returns _ _ _ N W) as [v1 E1].
    pose proof (step_wf _ _ _ _ W E1) as W1.
    destruct (v_trig v1) as [|t ts] eqn:Et.
    + assert (Hr : exists n v', forall fuel, n <= fuel -> run_vm fuel v1 = Ret v').
      { destruct (step_mass _ _ _ _ W E1) as [Hf1|Hm].
        - exists 0, v1. intros fuel _. apply run_finished; exact Hf1.
        - eapply IH; [|reflexivity|exact W1]. lia. }
      destruct Hr as [n [v' Hr]]. exists (S n), v'. intros fuel Hle.
      destruct fuel as [|fuel]; [lia|]. rewrite (run_step _ _ Hf), E1. cbn. rewrite Et.
      apply Hr. lia.
    + exists 1, v1. intros fuel Hle. destruct fuel as [|fuel]; [lia|].
      rewrite (run_step _ _ Hf), E1. cbn. rewrite Et. reflexivity.
Qed.

(* ------------------------------------------------------------------------------------------ *)
(* C29: budget *)
Theorem budget_accounting l ver v b :
  reach l ver v -> In b (v_branches v) ->
  (0 <= b_budget b)%Z /\
  exists cs, Forall2 (price ver) (b_trace b) cs /\ b_budget b = (700 - total cs)%Z.
Proof.
  intros R Hb. apply reach_wf in R. pose proof (wf_paid _ _ _ R) as F.
  rewrite Forall_forall in F. exact (F b Hb).
Qed.

(* instructions other than base64_decode and json_ref have one price *)
Definition fixed_price (e : expr) : bool :=
  match e with Base64DecodeExpr _ | JsonRefExpr _ => false | _ => true end.

Lemma cost_of_fixed e ver b b' :
  fixed_price e = true -> cost_of e ver b = cost_of e ver b'.
Proof. intros H. split_expr e; try reflexivity; discriminate. Qed.

Theorem price_unique ver e c c' :
  fixed_price e = true -> price ver e c -> price ver e c' -> c = c'.
Proof.
  intros F [_ [b H]] [_ [b' H']]. rewrite (cost_of_fixed e ver b' b F) in H'.
  destruct H as [H|[H ->]], H' as [H'|[H' ->]]; congruence.
Qed.

(* ------------------------------------------------------------------------------------------ *)
(* C30: identities *)
Lemma step_ids l ver v v' :
  wf l ver v -> step v = Ret v' ->
  exists n, map b_id (v_branches v') = map b_id (v_branches v) ++ seq (length (v_branches v)) n.
Proof.
  intros W E. destruct (step_spec_facts _ _ _ _ W E)
    as [k [b [b' [new [F1 [F2 [F3 [F4 [F5 _]]]]]]]]].
  exists (length new).
  rewrite (settle_ids _ _ _ F2), map_app, (map_upd_nth _ _ _ _ _ F1 F3), F5, (wf_id _ _ _ W).
  reflexivity.
Qed.

Definition grown (v v' : vm) : Prop :=
  exists n, map b_id (v_branches v') = map b_id (v_branches v) ++ seq (length (v_branches v)) n.

Lemma grown_refl v : grown v v.
Proof. exists 0. rewrite app_nil_r. reflexivity. Qed.

Lemma grown_trans a b c : grown a b -> grown b c -> grown a c.
Proof.
  intros [n Hn] [m Hm]. exists (n + m). rewrite Hm, Hn, <- app_assoc. f_equal.
  assert (L : length (v_branches b) = length (v_branches a) + n).
  { rewrite <- (map_length b_id (v_branches b)), Hn, app_length, map_length, seq_length. reflexivity. }
  rewrite L, seq_app. reflexivity.
Qed.

Lemma command_grown l ver v v' : wf l ver v -> command v v' -> grown v v'.
Proof.
  intros W C. destruct C as [v' E|v' fuel E|id|lns v' ns E].
  - eapply step_ids; eauto.
  - assert (G : wf l ver v' /\ grown v v').
    { eapply (run_inv (fun w => wf l ver w /\ grown v w)); [|split; [exact W|apply grown_refl]|exact E].
      intros a b [Wa Ga] Eb. split; [eapply step_wf; eauto|].
      eapply grown_trans; [exact Ga|]. eapply step_ids; eauto. }
    apply G.
  - unfold switch_vm. destruct (find_branch _ _ _); exact (grown_refl v).
  - unfold set_breakpoints in E. destruct (bind_lines _ _); try discriminate.
    cbn in E. injection E as <- <-. exact (grown_refl v).
Qed.

Theorem ids_grow l ver v v' : reach l ver v -> later v v' -> grown v v'.
Proof.
  intros R H. apply reach_wf in R.
  assert (G : wf l ver v' /\ grown v v').
  { induction H as [|v1 v2 H [IHw IHg] C]; [split; [exact R|apply grown_refl]|].
    split; [eapply command_wf; eauto|]. eapply grown_trans; [exact IHg|]. eapply command_grown; eauto. }
  apply G.
Qed.

Theorem ids_unique l ver v v' :
  reach l ver v -> later v v' ->
  NoDup (map b_id (v_branches v')) /\
  exists new, map b_id (v_branches v') = map b_id (v_branches v) ++ new.
Proof.
  intros R H. split.
  - assert (R' : wf l ver v').
    { apply reach_wf in R. eapply (later_inv (wf l ver)); eauto using command_wf. }
    rewrite (wf_ids _ _ _ R'). apply seq_NoDup.
  - destruct (ids_grow _ _ _ _ R H) as [n Hn]. eauto.
Qed.

(* ------------------------------------------------------------------------------------------ *)
(* C31: the other branches *)
Lemma ids_nth l ver v k b : wf l ver v -> nth_error (v_branches v) k = Some b -> b_id b = k.
Proof.
  intros W Hb. assert (Hk : k < length (v_branches v)) by (eapply nth_error_lt; eauto).
  assert (E : nth_error (map b_id (v_branches v)) k = Some (b_id b)).
  { rewrite nth_error_map, Hb. reflexivity. }
  rewrite (wf_ids _ _ _ W) in E.
  rewrite (nth_error_nth' _ 0) in E by (rewrite seq_length; exact Hk).
  rewrite seq_nth in E by exact Hk. injection E as E. lia.
Qed.

Definition untouched (l : listing) (b b' : branch) : Prop :=
  b_stack b' = b_stack b /\ b_frames b' = b_frames b /\ b_budget b' = b_budget b /\
  b_trace b' = b_trace b /\
  (b_line b' = b_line b \/ (past_end l b /\ exited b')).

Theorem branches_independent l ver v v' :
  reach l ver v -> step v = Ret v' ->
  exists s, (exists b, has_branch v s b) /\
    (forall k b i e, before l v k b i e -> s = b_id b) /\
    forall id b, has_branch v id b -> id <> s ->
      exists b', has_branch v' id b' /\ untouched l b b'.
Proof.
  intros R E. apply reach_wf in R.
  assert (G : forall k b b' new, nth_error (v_branches v) k = Some b ->
    Forall2 (settle l) (upd_nth k (fun _ => b') (v_branches v) ++ new) (v_branches v') ->
    forall id x, has_branch v id x -> id <> b_id b ->
      exists x', has_branch v' id x' /\ untouched l x x').
  { intros k b b' new F1 F2 id x [Hx Hid] Hne.
    destruct (In_nth_error _ _ Hx) as [j Hj].
    assert (Hjk : k <> j) by (intros ->; congruence).
    destruct (Forall2_nth _ _ _ j x F2) as [x' [Hx' S]].
    { rewrite nth_error_app1 by (rewrite upd_nth_length; eapply nth_error_lt; eauto).
      rewrite nth_upd_nth_other; assumption. }
    exists x'. pose proof (wf_landed _ _ _ R x Hx) as La. rewrite (wf_listing _ _ _ R) in La.
    pose proof (settle_line _ _ _ S La) as Ln.
    destruct S as [S1 [S2 [S3 [S4 [S5 _]]]]].
    split; [split; [eapply nth_error_In; eauto|congruence]|].
    split; [exact S2|]. split; [exact S3|]. split; [exact S4|]. split; [exact S5|].
    destruct Ln as [Ln|[Ln Hp]]; [left; exact Ln|right; split; [exact Hp|exact Ln]]. }
  destruct (v_branch v) as [kc|] eqn:Ekc.
  - destruct (nth_error (v_branches v) kc) as [bc|] eqn:Ebc.
    + destruct (b_line bc) as [i|] eqn:El;
        [destruct (nth_error l i) as [e|] eqn:Ee|].
      * (* a live current branch *)
        assert (B : before l v kc bc i e) by (constructor; assumption).
        pose proof (step_stepped _ _ _ _ _ _ _ R B) as S. rewrite E in S.
        destruct (step_spec_facts _ _ _ _ R E)
          as [k [b [b' [new [F1 [F2 [F3 [F4 [F5 [F6 [F7 [F8 [F9 [F10 [F11 [F12 F13]]]]]]]]]]]]]]]].
        exists (b_id bc). split; [exists bc; split; [eapply nth_error_In; eauto|reflexivity]|].
        split.
        { intros k2 b2 i2 e2 [B1 B2 _ _]. congruence. }
        (* the facts speak of the same branch; rebuild them from [stepped] *)
        clear F1 F2 F3 F4 F5 F6 F7 F8 F9 F10 F11 F12 F13 k b b' new.
        assert (X : exists b' new,
          Forall2 (settle l) (upd_nth kc (fun _ => b') (v_branches v) ++ new) (v_branches v')).
        { assert (Hr : forall xs, Forall2 (settle l) xs xs) by (intros; apply Forall2_refl, settle_refl).
          inversion S as [Hp Hr'|c Hcost Hc1 Hc2 Hr'|c v3 Hcost Hc Hex Hr'|c v3 Hcost Hc Hex Hr'
                    |c v3 b3 b4 t4 ok v5 b5 Hcost Hc Hex Hb3 Hsk Hvs P5 Hb5 Hr']; try discriminate.
          - exists bc, []. rewrite upd_nth_id by exact Ebc. rewrite app_nil_r. cbn. apply Hr.
          - exists (exit_branch bc), []. rewrite app_nil_r. cbn. apply Hr.
          - destruct (Ext_execute e kc _ _ _ Hex) as [_ X].
            destruct (X _ (nth_put_same kc bc (pay e c bc) (reset v) Ebc)) as [b3 [new [A1 _]]].
            cbn in A1. rewrite upd_nth_twice in A1. exists b3, new. cbn. rewrite A1. apply Hr.
          - destruct (Ext_execute e kc _ _ _ Hex) as [[X1 _] X].
            destruct (X _ (nth_put_same kc bc (pay e c bc) (reset v) Ebc)) as [b3' [new [A1 _]]].
            cbn in A1. rewrite upd_nth_twice in A1.
            destruct P5 as [_ [_ [T3 _]]]. cbn in T3. rewrite A1 in T3.
            rewrite upd_nth_app_lt, upd_nth_twice in T3
              by (rewrite upd_nth_length; eapply nth_error_lt; eauto).
            exists b4, new. cbn. rewrite X1 in T3. cbn in T3. rewrite (wf_listing _ _ _ R) in T3.
            exact T3. }
        destruct X as [b' [new X]]. eapply G; eauto.
      * destruct (step_spec_facts _ _ _ _ R E) as [k [b [b' [new [F1 [F2 _]]]]]].
        exists (b_id b). split; [exists b; split; [eapply nth_error_In; eauto|reflexivity]|].
        split; [|eapply G; eauto]. intros k2 b2 i2 e2 [B1 B2 B3 B4]. congruence.
      * destruct (step_spec_facts _ _ _ _ R E) as [k [b [b' [new [F1 [F2 _]]]]]].
        exists (b_id b). split; [exists b; split; [eapply nth_error_In; eauto|reflexivity]|].
        split; [|eapply G; eauto]. intros k2 b2 i2 e2 [B1 B2 B3 B4]. congruence.
    + pose proof (wf_branch _ _ _ R) as Wb. rewrite Ekc in Wb.
      pose proof (wf_cur _ _ _ R) as Wc. destruct (nth_lt_some _ _ Wc) as [bb Hbb]. congruence.
  - destruct (step_spec_facts _ _ _ _ R E) as [k [b [b' [new [F1 [F2 _]]]]]].
    exists (b_id b). split; [exists b; split; [eapply nth_error_In; eauto|reflexivity]|].
    split; [|eapply G; eauto]. intros k2 b2 i2 e2 [B1 B2 B3 B4]. congruence.
Qed.

(* ------------------------------------------------------------------------------------------ *)
(* C32: the end *)
Theorem end_sound l ver v :
  reach l ver v -> v_branch v = None -> forall b, In b (v_branches v) -> exited b.
Proof.
  intros R E. apply reach_wf in R. pose proof (wf_branch _ _ _ R) as H. rewrite E in H. exact H.
Qed.

(* after a step that neither failed nor ran out of budget the current branch can go on *)
Theorem end_complete l ver v v' :
  reach l ver v -> step v = Ret v' ->
  (forall b, In b (v_branches v') -> exited b) ->
  v_branch v' = None \/ v_error v' = true \/
  exists k b i e c, nth_error (v_branches v) k = Some b /\ on_line b i /\
    nth_error l i = Some e /\ price ver e c /\ (b_budget b < c)%Z.
Proof.
  intros R E Hall. apply reach_wf in R.
  destruct (step_spec_facts _ _ _ _ R E)
    as [k [b [b' [new [F1 [F2 [F3 [F4 [F5 [F6 [F7 [F8 [F9 [F10 [F11 [F12 F13]]]]]]]]]]]]]]]].
  destruct F13 as [_ _ Hf _ _ _|c e i Hl He Hc Hb Hl' _ _ _ _ _ _|c e i Hl He _ _ _ _ _ _ _ _ _ Hlive _].
  - tauto.
  - right; right. exists k, b, i, e, c. split; [exact F1|]. split; [exact Hl|]. split; [exact He|].
    split; [|exact Hb]. destruct (cost_cases e ver b) as [P|[c' [P1 P2]]].
    + destruct Hc as [Q|[Q _]]; congruence.
    + assert (c = c') by (destruct Hc as [Q|[Q ->]], P1 as [Q'|[Q' ->]]; congruence).
      subst c'. eapply costs_price; eauto.
  - destruct (v_error v') eqn:Ee; [auto|]. left.
    destruct (v_branch v') as [j|] eqn:Ej; [|reflexivity].
    destruct (Hlive eq_refl j eq_refl) as [bj [i' [e' [G1 [G2 _]]]]].
    apply nth_error_In in G1. apply Hall in G1. unfold exited in G1. congruence.
Qed.

(* ------------------------------------------------------------------------------------------ *)
(* C33: breakpoints *)
Lemma bind_lines_spec l : forall lns,
  (forall z, In z lns -> (0 <= z)%Z) ->
  exists ns, bind_lines l lns = Ret ns /\
    forall i, In i ns <-> In (Z.of_nat i) lns /\ exists e, nth_error l i = Some e /\ is_nop e = false.
Proof.
  induction lns as [|ln r IH]; intros H; cbn [bind_lines].
  - exists []. split; [reflexivity|]. cbn. tauto.
  - destruct IH as [ns [E IH]]; [intros; apply H; right; assumption|].
    pose proof (H ln (or_introl eq_refl)) as H0.
    destruct (Z.geb_spec ln (Z.of_nat (length l))) as [Hge|Hlt].
    + exists ns. split; [exact E|]. intros i. rewrite IH. cbn [In]. split; [tauto|].
      intros [[->|Hi] [e [He Hn]]]; [|split; [exact Hi|eauto]].
      exfalso. assert (i < length l) by (apply nth_error_Some; congruence). lia.
    + destruct (Z.ltb_spec ln 0); [lia|]. unfold index.
      destruct (nth_error l (Z.to_nat ln)) as [e|] eqn:Ee.
      2:{ exfalso. apply nth_error_None in Ee. lia. }
      cbn. rewrite E. cbn.
      destruct (is_nop e) eqn:En.
      * exists ns. split; [reflexivity|]. intros i. rewrite IH. cbn [In]. split; [tauto|].
        intros [[->|Hi] [e' [He' Hn]]]; [|split; [exact Hi|eauto]].
        exfalso. rewrite Nat2Z.id in Ee. congruence.
      * exists (Z.to_nat ln :: ns). split; [reflexivity|]. intros i. cbn [In]. rewrite IH.
        split.
        -- intros [<-|[Hi X]].
           ++ split; [left; lia|]. eauto.
           ++ auto.
        -- intros [[->|Hi] X]; [left; lia|right; auto].
Qed.

Theorem breakpoints_verified v lns :
  (forall z, In z lns -> (0 <= z)%Z) ->
  exists ns, set_breakpoints lns v = Ret (set_bps ns v, ns) /\
    forall i, In i ns <->
      In (Z.of_nat i) lns /\ exists e, nth_error (v_listing v) i = Some e /\ is_nop e = false.
Proof.
  intros H. destruct (bind_lines_spec (v_listing v) lns H) as [ns [E Hs]].
  exists ns. split; [|exact Hs]. unfold set_breakpoints. rewrite E. reflexivity.
Qed.

(* branch id has been created or has successfully executed an instruction in the step *)
Definition advanced (v v' : vm) (id : nat) : Prop :=
  (forall b, ~ has_branch v id b) \/
  (v_error v' = false /\
   exists b b', has_branch v id b /\ has_branch v' id b' /\ b_trace b' <> b_trace b).

Lemma app_neq {A} (xs : list A) x : xs ++ [x] <> xs.
Proof. intros H. apply (f_equal (@length A)) in H. rewrite app_length in H. cbn in H. lia. Qed.

Theorem breakpoints_reported l ver v v' id :
  reach l ver v -> step v = Ret v' ->
  reported v' id <->
  exists b i, has_branch v' id b /\ on_line b i /\ In i (v_bps v) /\ advanced v v' id.
Proof.
  intros R E. apply reach_wf in R. pose proof (step_wf _ _ _ _ R E) as R'.
  destruct (step_spec_facts _ _ _ _ R E)
    as [k [b [b' [new [F1 [F2 [F3 [F4 [F5 [F6 [F7 [F8 [F9 [F10 [F11 [F12 F13]]]]]]]]]]]]]]]].
  change (reported v' id) with (hit id (v_trig v')).
  assert (Hk : k < length (v_branches v)) by (eapply nth_error_lt; eauto).
  assert (Hbk : b_id b = k) by exact (ids_nth _ _ _ _ _ R F1).
  (* branches of v' come from branches of v, from b' or are new *)
  assert (Old : forall j x', nth_error (v_branches v') j = Some x' -> j < length (v_branches v) ->
             j <> k -> exists x, nth_error (v_branches v) j = Some x /\ settle l x x').
  { intros j x' Hx Hj Hne. destruct (Forall2_nth_r _ _ _ _ _ F2 Hx) as [x [Hx' S]].
    exists x. rewrite nth_error_app1, nth_upd_nth_other in Hx'; auto.
    rewrite upd_nth_length; exact Hj. }
  assert (Cur : exists y, nth_error (v_branches v') k = Some y /\ settle l b' y).
  { destruct (Forall2_nth _ _ _ k b' F2) as [y [Hy S]]; [|eauto].
    rewrite nth_error_app1 by (rewrite upd_nth_length; exact Hk).
    rewrite nth_upd_nth_same, F1. reflexivity. }
  destruct Cur as [y [Hy Sy]].
  assert (Uniq : forall j x, has_branch v' j x -> nth_error (v_branches v') j = Some x).
  { intros j x [Hx Hid]. destruct (In_nth_error _ _ Hx) as [m Hm].
    pose proof (ids_nth _ _ _ _ _ R' Hm). congruence. }
  assert (Uniq0 : forall j x, has_branch v j x -> nth_error (v_branches v) j = Some x).
  { intros j x [Hx Hid]. destruct (In_nth_error _ _ Hx) as [m Hm].
    pose proof (ids_nth _ _ _ _ _ R Hm). congruence. }
  assert (Quiet : new = [] -> b_trace b' = b_trace b -> ~ hit id (v_trig v') ->
     (hit id (v_trig v') <->
      exists x i, has_branch v' id x /\ on_line x i /\ In i (v_bps v) /\ advanced v v' id)).
  { intros Hn Ht Hh. split; [tauto|]. intros [x [i [Hx [_ [_ Ha]]]]]. exfalso.
    apply Uniq in Hx. subst new. rewrite app_nil_r in F2.
    pose proof (settle_length _ _ _ F2) as Len. rewrite upd_nth_length in Len.
    assert (Hj : id < length (v_branches v)) by (rewrite <- Len; eapply nth_error_lt; eauto).
    destruct Ha as [Ha|[_ [x0 [x1 [H0 [H1 Hne]]]]]].
    - destruct (nth_lt_some _ _ Hj) as [z Hz]. apply (Ha z).
      split; [exact (nth_error_In _ _ Hz)|exact (ids_nth _ _ _ _ _ R Hz)].
    - apply Uniq0 in H0. apply Uniq in H1.
      destruct (Nat.eq_dec id k) as [->|Hd].
      + rewrite Hy in H1. injection H1 as <-. rewrite F1 in H0. injection H0 as <-.
        destruct Sy as [_ [_ [_ [_ [Q _]]]]]. congruence.
      + destruct (Old _ _ H1 Hj Hd) as [z [Hz Sz]]. rewrite H0 in Hz. injection Hz as <-.
        destruct Sz as [_ [_ [_ [_ [Q _]]]]]. congruence. }
  destruct F13 as [-> Hn _ Hh _ _|c e i Hl He _ _ _ _ Ht Hn _ _ Hh
                  |c e i Hl He Hnop Hcost Hc Eb Et Hnl Hborn _ _ _ Hh].
  - apply Quiet; auto.
  - apply Quiet; auto.
  - rewrite Hh. clear Hh Quiet.
    assert (Bp : forall x x' i0, settle l x x' -> landed l (b_line x) -> In i0 (v_bps v) ->
               (b_line x' = Some i0 <-> b_line x = Some i0)).
    { intros x x' i0 S La Hi. apply (settle_in l); auto.
      destruct (wf_bps _ _ _ R i0 Hi) as [e0 [He0 _]]. apply nth_error_Some. congruence. }
    split.
    + intros [[nb [Hnb [Hid [i0 [Hi0 Hin]]]]]|[Herr [Hid [i0 [Hi0 Hin]]]]].
      * destruct (In_nth_error _ _ Hnb) as [m Hm].
        assert (Hm' : nth_error (upd_nth k (fun _ => b') (v_branches v) ++ new)
                        (length (v_branches v) + m) = Some nb).
        { rewrite nth_error_app2; rewrite upd_nth_length; [|lia].
          replace (length (v_branches v) + m - length (v_branches v)) with m by lia. exact Hm. }
        destruct (Forall2_nth _ _ _ _ _ F2 Hm') as [x [Hx S]].
        assert (Hidx : b_id x = id) by (destruct S as [S1 _]; congruence).
        assert (Lnb : landed l (b_line nb)).
        { rewrite Forall_forall in Hborn. destruct (Hborn nb Hnb) as [_ [_ [_ [t Q]]]].
          rewrite Q. apply land_landed. }
        exists x, i0. split; [split; [eapply nth_error_In; eauto|exact Hidx]|].
        split; [apply (Bp nb x i0 S Lnb Hin); exact Hi0|]. split; [exact Hin|].
        left. intros z Hz. apply Uniq0 in Hz. apply nth_error_lt in Hz.
        pose proof (ids_nth _ _ _ _ _ R' Hx). lia.
      * subst id. exists y, i0.
        assert (Hidy : b_id y = b_id b') by (destruct Sy as [S1 _]; exact S1).
        split; [split; [eapply nth_error_In; eauto|exact Hidy]|].
        split; [apply (Bp b' y i0 Sy F4 Hin); exact Hi0|]. split; [exact Hin|].
        right. split; [exact Herr|]. exists b, y.
        split; [split; [eapply nth_error_In; eauto|congruence]|].
        split; [split; [eapply nth_error_In; eauto|exact Hidy]|].
        destruct Sy as [_ [_ [_ [_ [Q _]]]]]. rewrite Q, Et. apply app_neq.
    + intros [x [i0 [Hx [Hl0 [Hin Ha]]]]]. apply Uniq in Hx.
      destruct Ha as [Ha|[Herr [x0 [x1 [H0 [H1 Hne]]]]]].
      * left.
        assert (Hge : length (v_branches v) <= id).
        { destruct (le_lt_dec (length (v_branches v)) id) as [Q|Q]; [exact Q|exfalso].
          destruct (nth_lt_some _ _ Q) as [z Hz]. apply (Ha z).
          split; [exact (nth_error_In _ _ Hz)|exact (ids_nth _ _ _ _ _ R Hz)]. }
        destruct (Forall2_nth_r _ _ _ _ _ F2 Hx) as [nb [Hnb S]].
        rewrite nth_error_app2 in Hnb; rewrite upd_nth_length in *; [|exact Hge].
        apply nth_error_In in Hnb. exists nb. split; [exact Hnb|].
        assert (Lnb : landed l (b_line nb)).
        { rewrite Forall_forall in Hborn. destruct (Hborn nb Hnb) as [_ [_ [_ [t Q]]]].
          rewrite Q. apply land_landed. }
        split.
        -- destruct S as [S1 _]. pose proof (ids_nth _ _ _ _ _ R' Hx). congruence.
        -- exists i0. split; [apply (Bp nb x i0 S Lnb Hin); exact Hl0|exact Hin].
      * right. split; [exact Herr|]. apply Uniq0 in H0. apply Uniq in H1.
        assert (x1 = x) by congruence. subst x1.
        destruct (Nat.eq_dec id k) as [->|Hd].
        -- split; [congruence|]. rewrite Hy in Hx. injection Hx as <-.
           exists i0. split; [apply (Bp b' y i0 Sy F4 Hin); exact Hl0|exact Hin].
        -- exfalso. assert (Hj : id < length (v_branches v)) by (eapply nth_error_lt; eauto).
           destruct (Old _ _ H1 Hj Hd) as [z [Hz Sz]]. rewrite H0 in Hz. injection Hz as <-.
           destruct Sz as [_ [_ [_ [_ [Q _]]]]]. congruence.
Qed.

(* Run goes on until a breakpoint is reported, an instruction fails or nothing is left *)
Theorem run_stops fuel v v' :
  run_vm fuel v = Ret v' -> finished v' \/ exists id, reported v' id.
Proof.
  revert v; induction fuel as [|fuel IH]; intros v E;
    (destruct (finished_dec v) as [Hf|Hf];
     [rewrite (run_finished _ _ Hf) in E; injection E as <-; auto|]).
  - cbn in E. unfold finished in Hf. destruct (v_branch v); [|tauto].
    destruct (v_error v); [tauto|discriminate].
  - rewrite (run_step _ _ Hf) in E. destruct (step v) as [v1| |]; try discriminate. cbn in E.
    destruct (v_trig v1) as [|[id ls] ts] eqn:Et; [exact (IH _ E)|].
    injection E as <-. right. exists id, ls. rewrite Et. left; reflexivity.
Qed.
