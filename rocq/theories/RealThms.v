(* Sessions: every state of a real execution is shown by some branch. *)
From Verif Require Import Base Expr Fields VmOps Vm VmProofs VmSkip VmStep VmExec VmSpec VmInv VmThms
  VmFlow VmStack VmTypes LangSpec RealSpec RealProofs.
From Coq Require Import ZifyBool ZifyNat ZifyN.

Section Shown.
Context (w : world) (slots : bool) (Lw : lawful w) (l : listing) (ver : N).

Lemma shows_on b c e :
  nth_error l (c_line c) = Some e -> is_nop e = false -> shows_state w slots l b c ->
  on_line b (c_line c).
Proof.
  intros He Hn [A _]. destruct A as [j [Hj [Hm A]]].
  assert (j = c_line c) as ->.
  { destruct (Nat.eq_dec j (c_line c)) as [Q|Q]; [exact Q|].
    destruct (Hm (c_line c)) as [e' [E' N']]; [lia|]. rewrite He in E'. injection E' as <-. congruence. }
  rewrite He in A. apply A.
Qed.

Lemma on_shows b c e :
  nth_error l (c_line c) = Some e -> is_nop e = false -> on_line b (c_line c) ->
  matches w slots b c -> shows_state w slots l b c.
Proof.
  intros He Hn Ho [M1 M2]. split; [|split; assumption].
  exists (c_line c). split; [lia|]. split; [intros; lia|]. rewrite He. auto.
Qed.

Lemma settle_matches b b' c : settle l b b' -> matches w slots b c -> matches w slots b' c.
Proof. intros [_ [S1 [S2 _]]] [M1 M2]. split; [rewrite S1|rewrite S2]; assumption. Qed.

Lemma settle_shows b b' c e :
  nth_error l (c_line c) = Some e -> is_nop e = false -> landed l (b_line b) ->
  settle l b b' -> shows_state w slots l b c -> shows_state w slots l b' c.
Proof.
  intros He Hn La S Sh. pose proof (shows_on _ _ _ He Hn Sh) as Ho.
  eapply on_shows; eauto.
  - apply (settle_in l b b' (c_line c) S La (nth_error_lt _ _ _ He)). exact Ho.
  - eapply settle_matches; eauto. exact (proj2 Sh).
Qed.

(* one step of the machine, seen from a branch that shows c *)
Lemma step_shown v v' k b c c' e :
  wf l ver v -> step v = Ret v' -> v_error v' = false ->
  nth_error (v_branches v) k = Some b -> shows_state w slots l b c ->
  nth_error l (c_line c) = Some e -> is_nop e = false -> followed slots e c ->
  instruction w l e c c' ->
  (exists b', nth_error (v_branches v') k = Some b' /\ shows_state w slots l b' c) \/
  (exists b', In b' (v_branches v') /\ shows_state w slots l b' c') \/
  (exists cost, costs e ver b cost /\ (b_budget b < cost)%Z).
Proof.
  intros W E Er Hb Sh He Hn Fo In_.
  pose proof (shows_on _ _ _ He Hn Sh) as Ho.
  assert (La : landed l (b_line b)).
  { pose proof (wf_landed _ _ _ W b (nth_error_In _ _ Hb)) as La. rewrite (wf_listing _ _ _ W) in La. exact La. }
  destruct (step_cases v (wf_cur _ _ _ W)) as [v1 [_ [P S]]].
  destruct P as [Pe [_ [P _]]]. cbn in P. rewrite (wf_listing _ _ _ W) in P.
  destruct (Forall2_nth _ _ _ _ _ P Hb) as [b1 [Hb1 St]].
  pose proof (settle_shows _ _ _ _ He Hn La St Sh) as Sh1.
  pose proof (shows_on _ _ _ He Hn Sh1) as Ho1.
  assert (L1 : v_listing v1 = l).
  { destruct Pe as [_ [Pe _]]. rewrite Pe. exact (wf_listing _ _ _ W). }
  assert (Ver : v_version v1 = ver).
  { destruct Pe as [_ [_ [Pe _]]]. rewrite Pe. exact (wf_version _ _ _ W). }
  destruct S as [Hnone|k' b' i' e' r Hk' _ Hb' Hl' He' Hn' S].
  { left. injection E as <-. eauto. }
  destruct (Nat.eq_dec k' k) as [->|Hne].
  - (* the branch itself executes *)
    rewrite Hb1 in Hb'. injection Hb' as <-. unfold on_line in Ho1. rewrite Ho1 in Hl'.
    injection Hl' as <-. rewrite L1, He in He'. injection He' as <-.
    rewrite E in S.
    assert (Cst : forall x, costs e ver b1 x -> costs e ver b x).
    { intros x. apply costs_stack. exact (proj1 (proj2 St)). }
    inversion S as [Hp Hr'|x Hcost Hc1 Hc2 Hr'|x v3 Hcost Hc Hex Hr'| |x v3 b3 b4 t4 ok v5 b5 Hcost Hc Hex Hb3 Hsk Hvs P5 Hb5 Hr'];
      subst v'; try discriminate.
    + right. right. exists x. rewrite Ver in Hcost. split; [apply Cst; exact Hcost|].
      destruct St as [_ [_ [_ [Q _]]]]. rewrite <- Q. exact Hc2.
    + right. left. cbn [v_branches set_trig].
      pose proof (nth_error_lt _ _ _ Hb1) as Hk1.
      assert (M1 : matches w slots (pay e x b1) c) by exact (proj2 Sh1).
      destruct (instruction_covered w slots l e c c' k v1 (pay e x b1) v3 Lw In_ Hn Fo Hk1 L1 Ho1 M1 Hex)
        as [bo [nbs [V Cov]]].
      assert (Hb3' : b3 = bo).
      { rewrite V, nth_error_app1, nth_upd_nth_same, Hb1 in Hb3 by (rewrite upd_nth_length; exact Hk1).
        injection Hb3 as <-. reflexivity. }
      subst bo.
      assert (L3 : v_listing v3 = l).
      { destruct (Ext_execute e _ _ _ _ Hex) as [[X _] _]. rewrite X. exact L1. }
      destruct P5 as [_ [_ [F5 _]]]. cbn in F5. rewrite L3, V in F5.
      rewrite upd_nth_app_lt, upd_nth_twice in F5 by (rewrite upd_nth_length; exact Hk1).
      apply skip_nops_spec in Hsk. destruct Hsk as [K1 [K2 [K3 [K4 [K5 [K6 _]]]]]].
      rewrite L3 in K6.
      destruct Cov as [[C1 C2]|[nb [C0 [C1 C2]]]].
      * destruct (Forall2_nth _ _ _ k b4 F5) as [b6 [Hb6 S6]].
        { rewrite nth_error_app1, nth_upd_nth_same, Hb1 by (rewrite upd_nth_length; exact Hk1). reflexivity. }
        exists b6. split; [eapply nth_error_In; eauto|]. split.
        -- eapply land_arrives; [exact S6|]. rewrite K6, C1. reflexivity.
        -- apply (settle_matches _ _ _ S6). destruct C2 as [C2 C3].
           split; [rewrite K2|rewrite K3]; assumption.
      * destruct (In_nth_error _ _ C0) as [j Hj].
        destruct (Forall2_nth _ _ _ (length (v_branches v1) + j) nb F5) as [b6 [Hb6 S6]].
        { rewrite nth_error_app2 by (rewrite upd_nth_length; lia).
          rewrite upd_nth_length. replace (_ + j - _) with j by lia. exact Hj. }
        exists b6. split; [eapply nth_error_In; eauto|]. split.
        -- eapply land_arrives; [exact S6|exact C1].
        -- apply (settle_matches _ _ _ S6). exact C2.
  - (* another branch executes *)
    left. rewrite E in S.
    inversion S as [Hp Hr'|x Hcost Hc1 Hc2 Hr'|x v3 Hcost Hc Hex Hr'| |x v3 b3 b4 t4 ok v5 b5 Hcost Hc Hex Hb3 Hsk Hvs P5 Hb5 Hr'];
      subst v'; try discriminate.
    + exists b1. split; [|exact Sh1]. rewrite nth_put_other by exact Hne. exact Hb1.
    + cbn [v_branches set_trig].
      destruct (Ext_execute e' k' _ _ _ Hex) as [[X1 _] X].
      destruct (X _ (nth_put_same k' b' (pay e' x b') v1 Hb')) as [b3' [new [A1 _]]].
      cbn in A1. rewrite upd_nth_twice in A1.
      destruct P5 as [_ [_ [F5 _]]]. cbn in F5. rewrite X1 in F5. cbn in F5. rewrite L1, A1 in F5.
      rewrite upd_nth_app_lt, upd_nth_twice in F5
        by (rewrite upd_nth_length; eapply nth_error_lt; eauto).
      destruct (Forall2_nth _ _ _ k b1 F5) as [b6 [Hb6 S6]].
      { rewrite nth_error_app1 by (rewrite upd_nth_length; eapply nth_error_lt; eauto).
        rewrite nth_upd_nth_other by exact Hne. exact Hb1. }
      exists b6. split; [exact Hb6|]. apply (settle_shows b1 b6 c e He Hn); auto.
      exact (settle_landed _ _ _ St La).
Qed.

(* ------------------------------------------------------------------------------------------ *)
(* sessions *)
Lemma session_wf v v' : session v v' -> wf l ver v -> wf l ver v'.
Proof.
  intros H. induction H; intros W; [exact W|..]; specialize (IHsession W).
  - exact (step_wf _ _ _ _ IHsession H0).
  - apply switch_wf; assumption.
  - exact (breakpoints_wf _ _ _ _ _ _ IHsession H0).
Qed.

Lemma session_trans a b c : session a b -> session b c -> session a c.
Proof.
  intros H G. induction G as [|v1 v2 G IH E R|v1 id G IH|v1 lns v2 ns G IH E]; [exact H|..].
  - exact (session_step _ _ _ IH E R).
  - exact (session_switch _ _ _ IH).
  - exact (session_breakpoints _ _ _ _ _ IH E).
Qed.

(* what follows from a branch that shows c as the session goes on *)
Lemma session_shown v v' : session v v' -> forall k b c c' e,
  wf l ver v -> nth_error (v_branches v) k = Some b -> shows_state w slots l b c ->
  nth_error l (c_line c) = Some e -> is_nop e = false -> followed slots e c ->
  instruction w l e c c' ->
  (exists b', nth_error (v_branches v') k = Some b' /\ shows_state w slots l b' c) \/
  (exists v1 b', session v v1 /\ session v1 v' /\ In b' (v_branches v1) /\ shows_state w slots l b' c') \/
  (exists v1 b' cost, session v v1 /\ session v1 v' /\ In b' (v_branches v1) /\
     shows_state w slots l b' c /\ costs e ver b' cost /\ (b_budget b' < cost)%Z).
Proof.
  induction 1 as [|v1 v2 Ses IH St Er|v1 id Ses IH|v1 lns v2 ns Ses IH Sb];
    intros k b c c' e W Hb Sh He Hn Fo In_.
  - left. eauto.
  - destruct (IH k b c c' e W Hb Sh He Hn Fo In_) as [[b1 [Hb1 Sh1]]|[[v3 [b3 [A1 [A2 [A3 A4]]]]]|
      [v3 [b3 [cost [A1 [A2 [A3 [A4 [A5 A6]]]]]]]]]].
    + destruct (step_shown v1 v2 k b1 c c' e (session_wf _ _ Ses W) St Er Hb1 Sh1 He Hn Fo In_)
        as [X|[[b2 [X1 X2]]|[cost [X1 X2]]]]; [left; exact X| |].
      * right. left. exists v2, b2. split; [eapply session_step; eauto|]. split; [apply session_now|auto].
      * right. right. exists v1, b1, cost. split; [exact Ses|].
        split; [eapply session_step; eauto; apply session_now|].
        split; [eapply nth_error_In; eauto|auto].
    + right. left. exists v3, b3. split; [exact A1|]. split; [eapply session_step; eauto|auto].
    + right. right. exists v3, b3, cost. split; [exact A1|]. split; [eapply session_step; eauto|auto].
  - assert (Vb : v_branches (switch_vm id v1) = v_branches v1).
    { unfold switch_vm. destruct (find_branch 0 (v_branches v1) id); reflexivity. }
    rewrite Vb. destruct (IH k b c c' e W Hb Sh He Hn Fo In_) as [X|[[v3 [b3 [A1 [A2 [A3 A4]]]]]|
      [v3 [b3 [cost [A1 [A2 A3]]]]]]].
    + left. exact X.
    + right. left. exists v3, b3. split; [exact A1|]. split; [apply session_switch; auto|auto].
    + right. right. exists v3, b3, cost. split; [exact A1|]. split; [apply session_switch; auto|auto].
  - assert (Vb : v_branches v2 = v_branches v1).
    { unfold set_breakpoints in Sb. destruct (bind_lines _ _); try discriminate. injection Sb as <- _. reflexivity. }
    rewrite Vb. destruct (IH k b c c' e W Hb Sh He Hn Fo In_) as [X|[[v3 [b3 [A1 [A2 [A3 A4]]]]]|
      [v3 [b3 [cost [A1 [A2 A3]]]]]]].
    + left. exact X.
    + right. left. exists v3, b3. split; [exact A1|]. split; [eapply session_breakpoints; eauto|auto].
    + right. right. exists v3, b3, cost. split; [exact A1|]. split; [eapply session_breakpoints; eauto|auto].
Qed.

(* every real execution is followed to its end, or to where the budget ends *)
Theorem real_shown v0 v c0 c :
  wf l ver v0 -> session v0 v -> v_branch v = None ->
  shown w slots l v0 v c0 -> goes w l (followed slots) c0 c ->
  shown w slots l v0 v c \/
  exists c1, goes w l (followed slots) c0 c1 /\ goes w l (followed slots) c1 c /\
    given_up w slots l ver v0 v c1.
Proof.
  intros W Ses Hend H0 G. induction G as [|c1 c2 e G IH He Fo In_]; [left; exact H0|].
  destruct IH as [[v1 [b [S1 [S2 [Hb Sh]]]]]|[c3 [G1 [G2 G3]]]].
  2:{ right. exists c3. split; [exact G1|]. split; [eapply goes_on; eauto|exact G3]. }
  destruct (is_nop e) eqn:Hn.
  { (* the branch already stands behind it *)
    left. exists v1, b. split; [exact S1|]. split; [exact S2|]. split; [exact Hb|].
    assert (Q : c2 = Real (S (c_line c1)) (c_stack c1) (c_calls c1) (c_slots c1)).
    { clear - In_ Hn Lw. destruct In_; try discriminate; try reflexivity.
      - destruct (Lw _ _ _ H0) as [a [r [L _]]]. clear - L Hn. split_expr e; discriminate.
      - clear - H Hn. split_expr e; discriminate.
      - clear - H Hn. split_expr e; discriminate. }
    subst c2. destruct Sh as [A [M1 M2]]. split; [|split; assumption]. cbn.
    destruct A as [j [Hj [Hm A]]].
    destruct (Nat.eq_dec j (c_line c1)) as [->|Hne]; [rewrite He in A; destruct A; congruence|].
    exists j. split; [lia|]. split; [intros m Hm'; apply Hm; lia|exact A]. }
  destruct (In_nth_error _ _ Hb) as [k Hk].
  assert (W1 : wf l ver v1) by (eapply session_wf; eauto).
  destruct (session_shown v1 v S2 k b c1 c2 e W1 Hk Sh He Hn Fo In_)
    as [[b' [Hb' Sh']]|[[v2 [b2 [A1 [A2 [A3 A4]]]]]|[v2 [b2 [cost [A1 [A2 [A3 [A4 [A5 A6]]]]]]]]]].
  - exfalso. pose proof (shows_on _ _ _ He Hn Sh') as Ho.
    pose proof (session_wf _ _ Ses W) as Wv. pose proof (wf_branch _ _ _ Wv) as Q.
    rewrite Hend in Q. unfold on_line in Ho. rewrite (Q b' (nth_error_In _ _ Hb')) in Ho. discriminate.
  - left. exists v2, b2. split; [eapply session_trans; eauto|]. auto.
  - right. exists c1. split; [exact G|]. split; [eapply goes_on; eauto; apply goes_now|].
    exists v2, b2, (c_line c1), e, cost. split; [eapply session_trans; eauto|].
    split; [exact A2|]. split; [exact A3|]. split; [exact A4|].
    split; [exact (shows_on _ _ _ He Hn A4)|]. auto.
Qed.

Lemma beginning_shown v0 v : new_vm l ver = Ret v0 -> session v0 v -> shown w slots l v0 v beginning.
Proof.
  intros E Ses. pose proof (new_wf _ _ _ E) as W.
  unfold new_vm in E.
  set (vi := Vm 1 l ver _ _ _ _ _ _ _) in E.
  destruct (vm_skip_nops_spec vi) as [v1 [E1 P]]; [cbn; lia|]. rewrite E in E1. injection E1 as <-.
  destruct P as [_ [_ [P _]]]. cbn in P.
  inversion P as [|x y xs ys S F]; subst. 
  exists v0, y. split; [apply session_now|]. split; [exact Ses|].
  split; [match goal with Q : _ = v_branches v0 |- _ => rewrite <- Q end; left; reflexivity|].
  split.
  - assert (La : landed l (b_line y)).
    { assert (Hy : In y (v_branches v0)) by (rewrite <- H1; left; reflexivity).
      pose proof (wf_landed _ _ _ W y Hy) as La. rewrite (wf_listing _ _ _ W) in La. exact La. }
    cbn [c_line beginning].
    destruct S as [_ [_ [_ [_ [_ [S|[S|[S X]]]]]]]]; cbn in S.
    + eapply land_arrives; [apply settle_refl|]. rewrite <- S. symmetry. apply land_of_landed. exact La.
    + eapply land_arrives; [apply settle_refl|exact S].
    + apply (land_arrives l (Some 0) (set_line (land l (Some 0)) y) y); [|reflexivity].
      repeat split. right. right. split; [exact S|]. cbn [b_line set_line]. rewrite land_land. exact X.
  - destruct S as [_ [S1 [S2 _]]]. cbn in S1, S2. rewrite S1, S2. split; constructor.
Qed.
End Shown.

(* ------------------------------------------------------------------------------------------ *)
(* the field an instruction reads is pushed with its type *)
Lemma field_execute e specs f sp k v b v3 :
  field_read e = Some (specs, f) -> spec_by_field specs f = Some sp -> k < length (v_branches v) ->
  execute e k (put k b v) = (v3, Ret tt) ->
  exists b3 up y rest, v3 = put k b3 v /\ b_stack b3 = up ++ y :: rest /\ v_T y = vm_type (f_type sp) /\
    forall a r, lang_spec e = Some (a, r) -> length r = S (length up).
Proof.
  intros Fr Sp Hk E.
  assert (Field : forall (g : vtype -> M unit) w, bind (field_type specs f) g k w = g (vm_type (f_type sp)) k w).
  { intros g w. unfold bind, field_type. rewrite Sp. reflexivity. }
  destruct e; try discriminate Fr; injection Fr as <- <-; cbn [execute] in E;
    repeat match type of E with
           | bind (field_type _ _) _ _ _ = _ => rewrite Field in E
           | bind (pop _) _ _ _ = _ =>
               let x := fresh "x" in let t := fresh "t" in let Q := fresh "Q" in
               apply (pop_inv k v Hk) in E; destruct E as [x [t [Q E]]]
           | bind (push _) _ _ _ = _ => rewrite bind_push_put in E by exact Hk
           | next_line _ _ = _ => rewrite next_put in E by exact Hk; injection E as <-
           end;
    first [ eexists _, [], _, _; split; [reflexivity|]; split; [reflexivity|]; split; [reflexivity|];
            intros a r L; injection L as <- <-; reflexivity
          | eexists _, [_], _, _; split; [reflexivity|]; split; [reflexivity|]; split; [reflexivity|];
            intros a r L; injection L as <- <-; reflexivity ].
Qed.

Lemma field_shown l ver v k b i e v' specs f sp a r :
  reach l ver v -> before l v k b i e -> executes ver v b e v' ->
  field_read e = Some (specs, f) -> spec_by_field specs f = Some sp -> lang_spec e = Some (a, r) ->
  exists b' up y rest, nth_error (v_branches v') k = Some b' /\ b_stack b' = up ++ y :: rest /\
    length r = S (length up) /\ v_T y = vm_type (f_type sp).
Proof.
  intros R B X Fr Sp L. apply reach_wf in R.
  pose proof (nth_error_lt _ _ _ (before_branch _ _ _ _ _ _ B)) as Hk.
  destruct (executes_stack _ _ _ _ _ _ _ _ R B X) as [c [v3 [b3 [b' [E [N3 [N' S']]]]]]].
  destruct (field_execute _ _ _ _ k (reset v) _ _ Fr Sp Hk E) as [b3' [up [y [rest [-> [Hs [Ht Hl]]]]]]].
  rewrite nth_put in N3 by exact Hk. injection N3 as ->.
  exists b', up, y, rest. rewrite S'. eauto.
Qed.
