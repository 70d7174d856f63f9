(* How often a breakpoint is reported in a step. *)
From Verif Require Import Base Expr Fields VmOps Vm VmProofs VmSkip VmStep VmExec VmSpec VmInv VmThms VmHits Dbg.
From Coq Require Import ZifyBool ZifyNat ZifyN.

Definition times (l : list nat) (i : nat) : nat := count_occ Nat.eq_dec l i.

Lemma lines_add id ln t j : hit_lines (trig_add id ln t) j = if id =? j then hit_lines t j ++ [ln] else hit_lines t j.
Proof.
  induction t as [|[i ls] t IH]; cbn [trig_add hit_lines]; [destruct (Nat.eqb_spec id j); reflexivity|].
  destruct (Nat.eqb_spec i id) as [->|N]; cbn [hit_lines].
  - destruct (Nat.eqb_spec id j); reflexivity.
  - destruct (Nat.eqb_spec i j) as [->|M]; [|exact IH]. destruct (Nat.eqb_spec id j) as [->|]; [congruence|reflexivity].
Qed.
Lemma repeat_snoc {A} (x : A) n : repeat x n ++ [x] = x :: repeat x n.
Proof. induction n as [|n IH]; [reflexivity|]. cbn [repeat app]. rewrite IH. reflexivity. Qed.
Lemma repeat_plus {A} (x : A) n m : repeat x (n + m) = repeat x n ++ repeat x m.
Proof. induction n as [|n IH]; [reflexivity|]. cbn [repeat app Nat.add]. rewrite IH. reflexivity. Qed.
Lemma lines_update bps b t j : hit_lines (update_bps bps b t) j =
  match b_line b with Some i => if b_id b =? j then hit_lines t j ++ repeat i (times bps i) else hit_lines t j | None => hit_lines t j end.
Proof.
  unfold update_bps. destruct (b_line b) as [i|].
  2:{ revert t. induction bps as [|x bps IH]; intros t; [reflexivity|]. cbn [fold_left]. apply IH. }
  revert t. induction bps as [|x bps IH]; intros t; cbn [fold_left]; [cbn [times count_occ repeat]; rewrite app_nil_r; destruct (_ =? j); reflexivity|].
  rewrite IH. unfold times. cbn [count_occ]. destruct (Nat.eqb_spec i x) as [<-|N].
  - rewrite lines_add. destruct (Nat.eq_dec i i) as [_|]; [|congruence]. destruct (b_id b =? j); [|reflexivity]. rewrite <- app_assoc. reflexivity.
  - destruct (Nat.eq_dec x i) as [->|]; [congruence|]. reflexivity.
Qed.

(* a line that is skipped stands right above *)
Definition below_nop (l : listing) (i : nat) : Prop := exists k e, i = S k /\ nth_error l k = Some e /\ is_nop e = true.
Lemma not_times l bps i e : bps_ok l bps -> nth_error l i = Some e -> is_nop e = true -> times bps i = 0.
Proof. intros B E N. apply count_occ_not_In. intros H. destruct (B i H) as [e' [E' N']]. congruence. Qed.
Lemma past_times l bps i : bps_ok l bps -> length l <= i -> times bps i = 0.
Proof. intros B L. apply count_occ_not_In. intros H. destruct (B i H) as [e' [E' _]]. apply nth_error_lt in E'. lia. Qed.

Lemma lines_skip l bps b t b' t' ok : bps_ok l bps -> skip_nops l bps b t = (b', t', ok) ->
  b_id b' = b_id b /\
  ((forall j, hit_lines t' j = hit_lines t j) \/
   exists i, b_line b' = Some i /\ below_nop l i /\ forall j, hit_lines t' j = if b_id b =? j then hit_lines t j ++ repeat i (times bps i) else hit_lines t j).
Proof.
  intros Hb. unfold skip_nops. destruct (b_line b) as [i|] eqn:El; [|intros E; injection E as <- <- <-; auto].
  remember (length l - i) as n eqn:En. revert i b t En El.
  induction n as [|n IH]; intros i b t En El E.
  - rewrite skipn_ge in E by lia. cbn in E. injection E as <- <- <-. auto.
  - destruct (nth_lt_some l i) as [op Hop]; [lia|]. rewrite (skipn_nth _ _ _ Hop) in E. cbn [skip_from] in E.
    set (b1 := match op with LabelExpr n => set_name n b | _ => b end) in *.
    assert (Ei : b_id b1 = b_id b) by (unfold b1; destruct op; reflexivity).
    destruct (is_nop op) eqn:Eo; [|injection E as <- <- <-; auto].
    pose proof E as E0. apply IH in E; [|lia|reflexivity]. cbn [b_id set_line] in E. destruct E as [A C]. split; [congruence|].
    set (b2 := set_line (Some (S i)) b1) in *.
    assert (U : forall j, hit_lines (update_bps bps b2 t) j = if b_id b =? j then hit_lines t j ++ repeat (S i) (times bps (S i)) else hit_lines t j).
    { intros j. rewrite lines_update. unfold b2. cbn [b_line set_line b_id]. rewrite Ei. reflexivity. }
    destruct (times bps (S i)) as [|m] eqn:T.
    + (* nothing reported here *)
      assert (U' : forall j, hit_lines (update_bps bps b2 t) j = hit_lines t j) by (intros j; rewrite U; cbn [repeat]; rewrite app_nil_r; destruct (_ =? j); reflexivity).
      destruct C as [C|[i' [L [P C]]]]; [left; intros j; rewrite C; apply U'|].
      right. exists i'. split; [exact L|]. split; [exact P|]. intros j. rewrite C, !U', Ei. reflexivity.
    + (* a breakpoint is an instruction: the end *)
      assert (I : In (S i) bps) by (apply (count_occ_In Nat.eq_dec); unfold times in T; lia).
      destruct (Hb _ I) as [e [He Hn]].
      rewrite (skipn_nth _ _ _ He) in E0. cbn [skip_from] in E0. rewrite Hn in E0. injection E0 as E1 E2 _.
      right. exists (S i). split; [rewrite <- E1; unfold b2; destruct e; try reflexivity; discriminate|]. split; [exists i, op; auto|].
      intros j. rewrite <- E2, U, T. reflexivity.
Qed.

(* while a branch executes, nothing is reported about it, and every other branch as often as there are breakpoints *)
Definition some_hits (bps : list nat) (l : listing) (hs : list nat) : Prop := exists i n, hs = repeat i n /\ n <= times bps i.
Definition scarce (id0 : nat) (v : vm) : Prop :=
  id0 < v_id v /\ hit_lines (v_trig v) id0 = [] /\ (forall j, v_id v <= j -> hit_lines (v_trig v) j = []) /\
  forall j, some_hits (v_bps v) (v_listing v) (hit_lines (v_trig v) j).
Definition Scarce {A} (m : M A) : Prop :=
  forall id0 k v v' r, bps_ok (v_listing v) (v_bps v) -> scarce id0 v -> m k v = (v', r) ->
  scarce id0 v' /\ v_listing v' = v_listing v /\ v_bps v' = v_bps v.

Lemma Scarce_bind {A B} (m : M A) (f : A -> M B) : Scarce m -> (forall a, Scarce (f a)) -> Scarce (bind m f).
Proof.
  intros Hm Hf id0 k v v' r Ho H E. unfold bind in E. destruct (m k v) as [v1 [a| |]] eqn:Em; destruct (Hm _ _ _ _ _ Ho H Em) as [H1 [L1 B1]].
  - rewrite <- L1, <- B1 in Ho. destruct (Hf a _ _ _ _ _ Ho H1 E) as [H2 [L2 B2]]. split; [exact H2|]. split; congruence.
  - injection E as <- <-. auto.
  - injection E as <- <-. auto.
Qed.
Lemma Scarce_pure {A} (m : M A) : (forall k v, fst (m k v) = v) -> Scarce m.
Proof. intros H1 id0 k v v' r Ho H E. specialize (H1 k v). rewrite E in H1. cbn in H1. subst v'. auto. Qed.
Lemma Scarce_ret {A} (a : A) : Scarce (ret a).
Proof. apply Scarce_pure; reflexivity. Qed.
Lemma Scarce_throw {A} : Scarce (@throw A).
Proof. apply Scarce_pure; reflexivity. Qed.
Lemma Scarce_diverge {A} : Scarce (@diverge A).
Proof. apply Scarce_pure; reflexivity. Qed.
Lemma Scarce_lift {A} (x : res A) : Scarce (lift x).
Proof. apply Scarce_pure; reflexivity. Qed.
Lemma Scarce_get_b : Scarce get_b.
Proof. apply Scarce_pure; intros; unfold get_b; destruct (nth_error _ _); reflexivity. Qed.
Lemma Scarce_find_m t : Scarce (find_m t).
Proof. apply Scarce_pure; reflexivity. Qed.
Lemma Scarce_scratch i : Scarce (scratch i).
Proof. apply Scarce_pure; reflexivity. Qed.
Lemma Scarce_mod_b f : Scarce (mod_b f).
Proof. intros id0 k v v' r Ho H E. unfold mod_b in E. destruct (nth_error _ _); injection E as <- <-; auto. Qed.
Lemma Scarce_push x : Scarce (push x).
Proof. apply Scarce_mod_b. Qed.
Lemma Scarce_next_line : Scarce next_line.
Proof. apply Scarce_mod_b. Qed.
Lemma Scarce_exit : Scarce exit_m.
Proof. apply Scarce_mod_b. Qed.
Lemma Scarce_pop t : Scarce (pop t).
Proof.
  apply Scarce_bind; [apply Scarce_get_b|]. intros b. destruct (b_stack b) as [|x r]; [apply Scarce_throw|].
  destruct (accepts t x); [|apply Scarce_throw]. apply Scarce_bind; [apply Scarce_mod_b|intros; apply Scarce_ret].
Qed.
Lemma Scarce_prepare a r : Scarce (prepare a r).
Proof. apply Scarce_bind; [apply Scarce_get_b|]. intros b. destruct (b_frames b); [apply Scarce_throw|apply Scarce_mod_b]. Qed.
Lemma Scarce_item i : Scarce (item i).
Proof. apply Scarce_bind; [apply Scarce_get_b|]. intros b. apply Scarce_lift. Qed.
Lemma Scarce_replace i x : Scarce (replace i x).
Proof. apply Scarce_bind; [apply Scarce_get_b|]. intros b. destruct (_ <? _); [apply Scarce_mod_b|apply Scarce_throw]. Qed.
Lemma Scarce_store i x : Scarce (store i x).
Proof.
  unfold store. destruct (v_src i) as [[m| | | |]|]; try apply Scarce_ret.
  intros id0 k v v' r Ho H E. destruct (_ <? _); injection E as <- <-; auto.
Qed.
Lemma Scarce_fork t : Scarce (fork t).
Proof.
  intros id0 k v v' r Ho H E. unfold fork, bind, get_b in E. destruct (nth_error (v_branches v) k) as [b|]; [|injection E as <- <-; auto].
  match type of E with context[skip_nops ?l ?bps ?nb ?tr] => destruct (skip_nops l bps nb tr) as [[nb' t'] ok] eqn:Es end.
  injection E as <- <-. cbn [v_trig set_trig v_bps v_listing]. split; [|split; reflexivity].
  destruct (lines_skip _ _ _ _ _ _ _ Ho Es) as [_ C]. cbn [b_id] in C. destruct H as [A [B [D F]]]. unfold scarce. cbn.
  destruct C as [C|[i [_ [_ C]]]].
  - split; [lia|]. split; [rewrite C; exact B|]. split; [intros j J; rewrite C; apply D; lia|]. intros j. rewrite C. apply F.
  - split; [lia|]. split; [rewrite C; destruct (Nat.eqb_spec (v_id v) id0); [lia|exact B]|].
    split; [intros j J; rewrite C; destruct (Nat.eqb_spec (v_id v) j); [lia|apply D; lia]|].
    intros j. rewrite C. destruct (Nat.eqb_spec (v_id v) j) as [<-|]; [|apply F]. rewrite (D _ (le_n _)). exists i. eexists. split; [reflexivity|apply le_n].
Qed.
Lemma Scarce_each {A} (f : A -> M unit) xs : (forall x, Scarce (f x)) -> Scarce (each f xs).
Proof. intros H. induction xs as [|x xs IH]; cbn; [apply Scarce_ret|]. apply Scarce_bind; [apply H|intros; exact IH]. Qed.
Lemma Scarce_pop_n n t : Scarce (pop_n n t).
Proof.
  induction n as [|n IH]; cbn; [apply Scarce_ret|]. apply Scarce_bind; [apply Scarce_pop|]. intros x. apply Scarce_bind; [exact IH|]. intros; apply Scarce_ret.
Qed.
Lemma Scarce_field_type s f : Scarce (field_type s f).
Proof. unfold field_type. destruct (spec_by_field s f); [apply Scarce_ret|apply Scarce_throw]. Qed.
Lemma Scarce_jump t : Scarce (jump t).
Proof. apply Scarce_bind; [apply Scarce_find_m|]. intros ln. apply Scarce_mod_b. Qed.
Lemma Scarce_call t : Scarce (call t).
Proof.
  apply Scarce_bind; [apply Scarce_get_b|]. intros b. apply Scarce_bind; [apply Scarce_mod_b|]. intros _.
  apply Scarce_bind; [apply Scarce_find_m|]. intros ln. apply Scarce_mod_b.
Qed.
Lemma Scarce_simple e : Scarce (match simple_effect e with Some (ps, qs) => pops_pushes ps qs | None => next_line end).
Proof.
  destruct (simple_effect e) as [[ps qs]|]; [|apply Scarce_next_line]. unfold pops_pushes.
  apply Scarce_bind; [apply Scarce_each; intros; apply Scarce_bind; [apply Scarce_pop|intros; apply Scarce_ret]|].
  intros _. apply Scarce_bind; [apply Scarce_each; intros; apply Scarce_push|]. intros _. apply Scarce_next_line.
Qed.
Ltac scarce0 :=
  repeat first
    [ apply Scarce_simple | apply Scarce_push | apply Scarce_next_line | apply Scarce_exit | apply Scarce_pop
    | apply Scarce_ret | apply Scarce_throw | apply Scarce_diverge | apply Scarce_get_b | apply Scarce_prepare
    | apply Scarce_item | apply Scarce_replace | apply Scarce_store | apply Scarce_scratch
    | apply Scarce_field_type | apply Scarce_jump | apply Scarce_call | apply Scarce_pop_n | apply Scarce_fork
    | apply Scarce_mod_b | apply Scarce_each; intros | apply Scarce_bind; [|intros] ].
Theorem Scarce_execute e : Scarce (execute e).
Proof.
  split_expr e; try (cbn [execute]; scarce0; fail).
  - destruct o; cbn [execute]; scarce0.
  - cbn [execute]. apply Scarce_bind; [apply Scarce_get_b|]. intros b. destruct (b_frames b); scarce0.
  - cbn [execute]. apply Scarce_bind; [apply Scarce_pop|]. intros x. destruct (255 <=? Count_)%N; scarce0.
  - cbn [execute]. apply Scarce_bind; [apply Scarce_get_b|]. intros b. destruct (b_frames b); scarce0.
  - cbn [execute]. apply Scarce_bind; [apply Scarce_get_b|]. intros b. destruct (b_frames b); scarce0.
Qed.

(* as often as there are breakpoints on the line, twice as often at most below a line that is skipped *)
Definition counted (l : listing) (bps hs : list nat) : Prop :=
  exists i n, hs = repeat i n /\ (n <= times bps i \/ n <= 2 * times bps i /\ below_nop l i).
Lemma some_counted l bps hs : some_hits bps l hs -> counted l bps hs.
Proof. intros [i [n [E N]]]. exists i, n. auto. Qed.
Lemma scarce_nil id0 v : id0 < v_id v -> v_trig v = [] -> scarce id0 v.
Proof. intros L T. unfold scarce. rewrite T. cbn. split; [exact L|]. split; [reflexivity|]. split; [reflexivity|]. intros j. exists 0, 0. split; [reflexivity|lia]. Qed.
Lemma nil_counted l bps t j : t = [] -> counted l bps (hit_lines t j).
Proof. intros ->. exists 0, 0. cbn. split; [reflexivity|lia]. Qed.

Lemma counted_step l ver v v' : wf l ver v -> step v = Ret v' -> forall j, counted (v_listing v') (v_bps v') (hit_lines (v_trig v') j).
Proof.
  intros W E. pose proof W as W0. destruct W as [Wl Wv Wi Wn Wc Ws Wb Wa Wbr Wp].
  destruct (step_cases v Wc) as [v1 [E1 [P1 S]]]. rewrite E in S. clear E E1.
  destruct P1 as [Q1 [Q2 [Q3 [Q4 [_ Q6]]]]].
  assert (La : all_landed (reset v)) by exact Wa.
  specialize (Q4 La). cbn in Q4. cbn in Q3. rewrite Wl in Q3.
  destruct Q1 as [R1 [R2 [R3 [R4 [R5 R6]]]]]. cbn in R1, R2, R3, R4, R5, R6.
  inversion S as [Hn Hv|k b1 i e r Hk Hkc Hb1 Hl He Hnop St Hr]; clear S.
  - subst v'. intros j. apply nil_counted, Q4.
  - subst r. destruct (Forall2_nth_r _ _ _ _ _ Q3 Hb1) as [b [Hb Hset]].
    assert (I1 : b_id b1 = b_id b) by apply Hset.
    assert (Hid : b_id b1 < v_id v1).
    { rewrite I1, R1, Wn, (ids_nth _ _ _ _ _ W0 Hb). eapply nth_error_lt; eauto. }
    assert (Bo : bps_ok (v_listing v1) (v_bps v1)) by (rewrite R2, Wl, R5; exact Wb).
    inversion St as [Hp Hr|c Hcost Hc1 Hc2 Hr|c v3 Hcost Hc Hex Hr|c v3 Hcost Hc Hex Hr
                    |c v3 b3 b4 t4 ok v5 b5 Hcost Hc Hex Hb3 Hsk Hvs P5 Hb5 Hr]; clear St; try discriminate; subst v'.
    + intros j. apply nil_counted. exact Q4.
    + intros j. apply nil_counted. exact Q4.
    + assert (X : scarce (b_id b1) v3).
      { eapply (Scarce_execute e); [| |exact Hex]; [exact Bo|]. apply scarce_nil; [exact Hid|exact Q4]. }
      intros j. cbn. apply some_counted. apply X.
    + destruct (Scarce_execute e (b_id b1) k (put k (pay e c b1) v1) v3 (Ret tt)) as [H3 [L3' B3']]; [exact Bo|apply scarce_nil; [exact Hid|exact Q4]|exact Hex|].
      pose proof (Ext_execute e k _ _ _ Hex) as X. destruct X as [[X1 [X2 [X3 [X4 [X5 [X6 X7]]]]]] X].
      cbn in X1, X2, X3, X4, X5, X6, X7.
      pose proof (nth_put_same k b1 (pay e c b1) v1 Hb1) as Hpay.
      destruct (X _ Hpay) as [b3' [new [A1 [A2 [A3 [A4 [A5 [A6 [A7 [A8 A9]]]]]]]]]].
      cbn in A1, A2, A3, A4, A5, A6, A7, A8, A9. rewrite upd_nth_twice in A1.
      assert (Hk1 : k < length (v_branches v1)) by (eapply nth_error_lt; eauto).
      rewrite A1, nth_error_app1, nth_upd_nth_same, Hb1 in Hb3 by (rewrite upd_nth_length; exact Hk1).
      cbn in Hb3. injection Hb3 as <-. rename b3' into b3.
      assert (L3 : v_listing v3 = l) by congruence.
      assert (Bo3 : bps_ok (v_listing v3) (v_bps v3)) by (rewrite L3, X5, R5; exact Wb).
      pose proof (skip_nops_spec _ _ _ _ _ _ _ Hsk) as [S1 [S2 [S3 [S4 [S5 [S6 [S7 S8]]]]]]].
      destruct (lines_skip _ _ _ _ _ _ _ Bo3 Hsk) as [_ C].
      destruct P5 as [T1 [T2 [T3 [T4 [_ T6]]]]]. cbn in T2, T3, T4, T6. rewrite A1 in T3.
      rewrite upd_nth_app_lt, upd_nth_twice in T3 by (rewrite upd_nth_length; exact Hk1). rewrite L3 in T3.
      assert (Lb4 : landed l (b_line b4)) by (rewrite S6, L3; apply land_landed).
      assert (Al4 : all_landed (set_trig t4 (put k b4 v3))).
      { intros x Hx. cbn in Hx |- *. rewrite L3. rewrite A1 in Hx.
        rewrite upd_nth_app_lt, upd_nth_twice in Hx by (rewrite upd_nth_length; exact Hk1).
        apply in_app_or in Hx. destruct Hx as [Hx|Hx].
        - apply In_upd_nth in Hx. destruct Hx as [->|Hx]; [exact Lb4|].
          destruct (Forall2_In_r _ _ _ _ Q3 Hx) as [y [Hy Hs]].
          eapply settle_landed; [exact Hs|]. rewrite <- Wl. apply Wa. exact Hy.
        - rewrite Forall_forall in A8. destruct (A8 x Hx) as [_ [_ [_ [t Q]]]]. rewrite R2, Wl in Q. rewrite Q. apply land_landed. }
      specialize (T4 Al4). destruct T1 as [U1 [U2 [U3 [U4 [U5 U6]]]]]. cbn in U1, U2, U3, U4, U5, U6.
      assert (Hb4 : nth_error (upd_nth k (fun _ => b4) (v_branches v1) ++ new) k = Some b4).
      { rewrite nth_error_app1 by (rewrite upd_nth_length; exact Hk1). rewrite nth_upd_nth_same, Hb1. reflexivity. }
      destruct (Forall2_nth _ _ _ _ _ T3 Hb4) as [b5' [Hb5' Hs45]]. rewrite Hb5 in Hb5'. injection Hb5' as <-.
      assert (I5 : b_id b5 = b_id b1) by (assert (b_id b5 = b_id b4) by apply Hs45; cbn in A2; congruence).
      assert (I3 : b_id b3 = b_id b1) by congruence.
      assert (El : v_listing v5 = l) by congruence. assert (Eb : v_bps v5 = v_bps v) by congruence.
      intros j. cbn. rewrite lines_update, T4, El, Eb, I5. destruct H3 as [D1 [D2 [D3 D4]]].
      assert (D4' : forall j, counted l (v_bps v) (hit_lines (v_trig v3) j)).
      { intros j'. apply some_counted. specialize (D4 j'). rewrite X5, R5 in D4. exact D4. }
      destruct (Nat.eqb_spec (b_id b1) j) as [<-|N].
      2:{ assert (Z : hit_lines t4 j = hit_lines (v_trig v3) j).
          { destruct C as [C|[i4 [_ [_ C]]]]; rewrite C; [reflexivity|]. rewrite I3. destruct (Nat.eqb_spec (b_id b1) j); [congruence|reflexivity]. }
          rewrite Z. destruct (b_line b5); apply D4'. }
      destruct C as [C|[i4 [F4 [N4 C]]]].
      * rewrite C, D2. destruct (b_line b5) as [i5|]; [|apply (nil_counted _ _ [] 0 eq_refl)]. cbn [app]. exists i5. eexists. split; [reflexivity|]. left. lia.
      * rewrite C, I3, Nat.eqb_refl, D2. cbn [app]. rewrite X5, R5. rewrite L3 in N4.
        destruct (times (v_bps v) i4) as [|m] eqn:Em.
        { cbn [repeat app]. destruct (b_line b5) as [i5|]; [|apply (nil_counted _ _ [] 0 eq_refl)]. exists i5. eexists. split; [reflexivity|]. left. lia. }
        assert (In4 : In i4 (v_bps v)) by (apply (count_occ_In Nat.eq_dec); unfold times in Em; lia).
        destruct (Wb i4 In4) as [e0 [F3 _]].
        rewrite (proj2 (settle_in _ _ _ i4 Hs45 Lb4 (nth_error_lt _ _ _ F3)) F4). rewrite Em, <- repeat_plus.
        exists i4. eexists. split; [reflexivity|]. right. split; [lia|exact N4].
Qed.
