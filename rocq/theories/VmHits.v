(* Which lines the interpreter reports for a branch at a breakpoint: the line it stands on. *)
From Verif Require Import Base Expr Fields VmOps Vm VmProofs VmSkip VmStep VmExec VmSpec VmInv VmThms.
From Coq Require Import ZifyBool ZifyNat ZifyN.

(* ------------------------------------------------------------------------------------------ *)
Definition told (t : list (nat * list nat)) (id ln : nat) : Prop := exists ls, In (id, ls) t /\ In ln ls.
Definition solid (t : list (nat * list nat)) : Prop := forall id ls, In (id, ls) t -> ls <> [].

Lemma told_add id ln t j m : told (trig_add id ln t) j m -> told t j m \/ (j = id /\ m = ln).
Proof.
  induction t as [|[i ls] t IH]; cbn [trig_add].
  - intros [x [[H|[]] Hm]]. injection H as <- <-. destruct Hm as [<- | []]. auto.
  - destruct (Nat.eqb_spec i id) as [->|Hn].
    + intros [x [[H|H] Hm]].
      * injection H as <- <-. apply in_app_or in Hm. destruct Hm as [Hm|[<- | []]]; auto.
        left. exists ls. split; [left; reflexivity|exact Hm].
      * left. exists x. split; [right; exact H|exact Hm].
    + intros [x [[H|H] Hm]].
      * injection H as <- <-. left. exists ls. split; [left; reflexivity|exact Hm].
      * destruct IH as [[y [Hy Hmy]]|Q]; [exists x; auto|left; exists y; split; [right; exact Hy|exact Hmy]|auto].
Qed.

Lemma solid_add id ln t : solid t -> solid (trig_add id ln t).
Proof.
  induction t as [|[i ls] t IH]; cbn [trig_add]; intros H a l Ha.
  - destruct Ha as [Ha|[]]. injection Ha as <- <-. discriminate.
  - destruct (Nat.eqb_spec i id) as [->|Hn].
    + destruct Ha as [Ha|Ha]; [injection Ha as <- <-; destruct ls; discriminate|]. eapply H. right; exact Ha.
    + destruct Ha as [Ha|Ha]; [injection Ha as <- <-; eapply H; left; reflexivity|].
      eapply IH; [|exact Ha]. intros c d Hc. eapply H. right; exact Hc.
Qed.

Lemma told_update bps b t j m : told (update_bps bps b t) j m ->
  told t j m \/ (j = b_id b /\ b_line b = Some m /\ In m bps).
Proof.
  unfold update_bps. revert t; induction bps as [|bp bps IH]; intros t; cbn [fold_left]; [auto|].
  intros H. apply IH in H. destruct H as [H|[H1 [H2 H3]]]; [|right; cbn; auto].
  destruct (b_line b) as [ln|] eqn:El; [|auto]. destruct (Nat.eqb_spec ln bp) as [->|Hn]; [|auto].
  apply told_add in H. destruct H as [H|[-> ->]]; [auto|]. right. cbn; auto.
Qed.

Lemma solid_update bps b t : solid t -> solid (update_bps bps b t).
Proof.
  unfold update_bps. revert t; induction bps as [|bp bps IH]; intros t; cbn [fold_left]; [auto|].
  intros H. apply IH. destruct (b_line b) as [ln|]; [|exact H]. destruct (ln =? bp); [|exact H].
  apply solid_add, H.
Qed.

Lemma told_skip l bps b t b' t' ok : bps_ok l bps -> skip_nops l bps b t = (b', t', ok) -> forall j m,
  told t' j m -> told t j m \/ (j = b_id b /\ b_line b' = Some m /\ In m bps).
Proof.
  intros Hb. unfold skip_nops. destruct (b_line b) as [i|] eqn:El.
  2:{ intros E. injection E as <- <- <-. auto. }
  remember (length l - i) as n eqn:En. revert i b t En El.
  induction n as [|n IH]; intros i b t En El E j m H.
  - rewrite skipn_ge in E by lia. cbn in E. injection E as <- <- <-. auto.
  - destruct (nth_lt_some l i) as [op Hop]; [lia|].
    rewrite (skipn_nth _ _ _ Hop) in E. cbn [skip_from] in E.
    set (b1 := match op with LabelExpr n => set_name n b | _ => b end) in *.
    assert (Ei : b_id b1 = b_id b) by (unfold b1; destruct op; reflexivity).
    destruct (is_nop op) eqn:Eo; [|injection E as <- <- <-; auto].
    pose proof E as E0.
    eapply IH in E; [|lia|reflexivity|exact H].
    destruct E as [E|[E1 [E2 E3]]]; [|right; cbn in E1; split; [congruence|auto]].
    apply told_update in E. cbn in E. destruct E as [E|[E1 [E2 E3]]]; [auto|]. right.
    split; [congruence|]. split; [|exact E3]. injection E2 as <-.
    destruct (Hb _ E3) as [e [He Hne]].
    rewrite (skipn_nth _ _ _ He) in E0. cbn [skip_from] in E0. rewrite Hne in E0.
    injection E0 as <- _ _. destruct e; try reflexivity; discriminate.
Qed.

Lemma solid_skip l bps b t b' t' ok : skip_nops l bps b t = (b', t', ok) -> solid t -> solid t'.
Proof.
  unfold skip_nops. destruct (b_line b) as [i|]; [|intros E; injection E as <- <- <-; auto].
  generalize (skipn i l) as ops. intros ops. revert i b t.
  induction ops as [|op ops IH]; intros i b t E H; cbn [skip_from] in E.
  - injection E as <- <- <-. exact H.
  - destruct (is_nop op).
    + eapply IH; [exact E|]. apply solid_update, H.
    + injection E as <- <- <-. exact H.
Qed.

(* ------------------------------------------------------------------------------------------ *)
(* Every reported line is a breakpoint and a branch with that identity stands on it; while branch k
   executes, the reports are about other branches. *)
Definition honest (P : nat -> Prop) (v : vm) : Prop :=
  solid (v_trig v) /\
  forall id ln, told (v_trig v) id ln ->
    In ln (v_bps v) /\
    exists j b, P j /\ nth_error (v_branches v) j = Some b /\ b_id b = id /\ b_line b = Some ln.

Definition Honest {A} (m : M A) : Prop :=
  forall k v v' r b, nth_error (v_branches v) k = Some b -> bps_ok (v_listing v) (v_bps v) ->
  honest (fun j => j <> k) v -> m k v = (v', r) ->
  honest (fun j => j <> k) v' /\ v_listing v' = v_listing v /\ v_bps v' = v_bps v /\
  exists b', nth_error (v_branches v') k = Some b'.

Lemma Honest_bind {A B} (m : M A) (f : A -> M B) :
  Honest m -> (forall a, Honest (f a)) -> Honest (bind m f).
Proof.
  intros Hm Hf k v v' r b Hb Ho H E. unfold bind in E. destruct (m k v) as [v1 [a| |]] eqn:Em;
    destruct (Hm _ _ _ _ _ Hb Ho H Em) as [H1 [L1 [B1 [b1 Hb1]]]].
  - rewrite <- L1, <- B1 in Ho. destruct (Hf a _ _ _ _ _ Hb1 Ho H1 E) as [H2 [L2 [B2 X]]].
    split; [exact H2|]. split; [congruence|]. split; [congruence|exact X].
  - injection E as <- <-. eauto.
  - injection E as <- <-. eauto.
Qed.

Lemma Honest_pure {A} (m : M A) : (forall k v, fst (m k v) = v) -> Honest m.
Proof.
  intros H1 k v v' r b Hb Ho H E. specialize (H1 k v). rewrite E in H1. cbn in H1. subst v'. eauto.
Qed.

Lemma Honest_ret {A} (a : A) : Honest (ret a).
Proof. apply Honest_pure; reflexivity. Qed.
Lemma Honest_throw {A} : Honest (@throw A).
Proof. apply Honest_pure; reflexivity. Qed.
Lemma Honest_diverge {A} : Honest (@diverge A).
Proof. apply Honest_pure; reflexivity. Qed.
Lemma Honest_lift {A} (x : res A) : Honest (lift x).
Proof. apply Honest_pure; reflexivity. Qed.
Lemma Honest_get_b : Honest get_b.
Proof. apply Honest_pure; intros; unfold get_b; destruct (nth_error _ _); reflexivity. Qed.
Lemma Honest_find_m t : Honest (find_m t).
Proof. apply Honest_pure; reflexivity. Qed.
Lemma Honest_scratch i : Honest (scratch i).
Proof. apply Honest_pure; reflexivity. Qed.

Lemma honest_put k b v : honest (fun j => j <> k) v -> honest (fun j => j <> k) (put k b v).
Proof.
  intros [S H]. split; [exact S|]. intros id ln T. destruct (H id ln T) as [Hin [j [c [Hj [Hc X]]]]].
  split; [exact Hin|]. exists j, c. split; [exact Hj|]. split; [|exact X].
  rewrite nth_put_other by congruence. exact Hc.
Qed.

Lemma Honest_mod_b f : Honest (mod_b f).
Proof.
  intros k v v' r b Hb Ho H E. unfold mod_b in E. rewrite Hb in E. injection E as <- <-.
  split; [apply honest_put, H|]. split; [reflexivity|]. split; [reflexivity|].
  eexists. eapply nth_put_same, Hb.
Qed.

Lemma Honest_push x : Honest (push x).
Proof. apply Honest_mod_b. Qed.
Lemma Honest_next_line : Honest next_line.
Proof. apply Honest_mod_b. Qed.
Lemma Honest_exit : Honest exit_m.
Proof. apply Honest_mod_b. Qed.

Lemma Honest_pop t : Honest (pop t).
Proof.
  apply Honest_bind; [apply Honest_get_b|]. intros b. destruct (b_stack b) as [|x r]; [apply Honest_throw|].
  destruct (accepts t x); [|apply Honest_throw].
  apply Honest_bind; [apply Honest_mod_b|intros; apply Honest_ret].
Qed.

Lemma Honest_prepare a r : Honest (prepare a r).
Proof.
  apply Honest_bind; [apply Honest_get_b|]. intros b. destruct (b_frames b); [apply Honest_throw|apply Honest_mod_b].
Qed.
Lemma Honest_item i : Honest (item i).
Proof. apply Honest_bind; [apply Honest_get_b|]. intros b. apply Honest_lift. Qed.
Lemma Honest_replace i x : Honest (replace i x).
Proof.
  apply Honest_bind; [apply Honest_get_b|]. intros b. destruct (_ <? _); [apply Honest_mod_b|apply Honest_throw].
Qed.
Lemma Honest_store i x : Honest (store i x).
Proof.
  unfold store. destruct (v_src i) as [[m| | | |]|]; try apply Honest_ret.
  intros k v v' r b Hb Ho H E. destruct (_ <? _); injection E as <- <-; eauto.
Qed.

Lemma Honest_fork t : Honest (fork t).
Proof.
  intros k v v' r b Hb Ho H E. unfold fork, bind, get_b in E. rewrite Hb in E.
  match type of E with context[skip_nops ?l ?bps ?nb ?tr] =>
    destruct (skip_nops l bps nb tr) as [[nb' t'] ok] eqn:Es end.
  injection E as <- <-. cbn [v_trig set_trig v_bps v_listing].
  assert (Hk : k < length (v_branches v)) by (eapply nth_error_lt; eauto).
  split; [|split; [reflexivity|split; [reflexivity|]]].
  2:{ exists b. cbn. rewrite nth_error_app1 by exact Hk. exact Hb. }
  destruct H as [S H]. split; [eapply solid_skip; [exact Es|exact S]|].
  intros id ln T. cbn in T |- *. pose proof (skip_nops_spec _ _ _ _ _ _ _ Es) as [A1 _].
  apply (told_skip _ _ _ _ _ _ _ Ho Es) in T. destruct T as [T|[T1 [T2 T3]]].
  - destruct (H id ln T) as [Hin [j [c [Hj [Hc X]]]]]. split; [exact Hin|]. exists j, c.
    split; [exact Hj|]. split; [|exact X]. rewrite nth_error_app1; [exact Hc|]. eapply nth_error_lt; eauto.
  - split; [exact T3|]. exists (length (v_branches v)), nb'. split; [lia|].
    rewrite nth_error_app2 by lia. rewrite Nat.sub_diag. split; [reflexivity|]. split; congruence.
Qed.

Lemma Honest_each {A} (f : A -> M unit) xs : (forall x, Honest (f x)) -> Honest (each f xs).
Proof.
  intros H. induction xs as [|x xs IH]; cbn; [apply Honest_ret|].
  apply Honest_bind; [apply H|intros; exact IH].
Qed.
Lemma Honest_pop_n n t : Honest (pop_n n t).
Proof.
  induction n as [|n IH]; cbn; [apply Honest_ret|].
  apply Honest_bind; [apply Honest_pop|]. intros x.
  apply Honest_bind; [exact IH|]. intros; apply Honest_ret.
Qed.
Lemma Honest_field_type s f : Honest (field_type s f).
Proof. unfold field_type. destruct (spec_by_field s f); [apply Honest_ret|apply Honest_throw]. Qed.
Lemma Honest_jump t : Honest (jump t).
Proof. apply Honest_bind; [apply Honest_find_m|]. intros ln. apply Honest_mod_b. Qed.
Lemma Honest_call t : Honest (call t).
Proof.
  apply Honest_bind; [apply Honest_get_b|]. intros b. apply Honest_bind; [apply Honest_mod_b|]. intros _.
  apply Honest_bind; [apply Honest_find_m|]. intros ln. apply Honest_mod_b.
Qed.
Lemma Honest_simple e :
  Honest (match simple_effect e with Some (ps, qs) => pops_pushes ps qs | None => next_line end).
Proof.
  destruct (simple_effect e) as [[ps qs]|]; [|apply Honest_next_line]. unfold pops_pushes.
  apply Honest_bind; [apply Honest_each; intros; apply Honest_bind; [apply Honest_pop|intros; apply Honest_ret]|].
  intros _. apply Honest_bind; [apply Honest_each; intros; apply Honest_push|]. intros _. apply Honest_next_line.
Qed.

Ltac honest0 :=
  repeat first
    [ apply Honest_simple | apply Honest_push | apply Honest_next_line | apply Honest_exit | apply Honest_pop
    | apply Honest_ret | apply Honest_throw | apply Honest_diverge | apply Honest_get_b | apply Honest_prepare
    | apply Honest_item | apply Honest_replace | apply Honest_store | apply Honest_scratch
    | apply Honest_field_type | apply Honest_jump | apply Honest_call | apply Honest_pop_n | apply Honest_fork
    | apply Honest_mod_b | apply Honest_each; intros | apply Honest_bind; [|intros] ].

Theorem Honest_execute e : Honest (execute e).
Proof.
  split_expr e; try (cbn [execute]; honest0; fail).
  - destruct o; cbn [execute]; honest0.
  - cbn [execute]. apply Honest_bind; [apply Honest_get_b|]. intros b. destruct (b_frames b); honest0.
  - cbn [execute]. apply Honest_bind; [apply Honest_pop|]. intros x. destruct (255 <=? Count_)%N; honest0.
  - cbn [execute]. apply Honest_bind; [apply Honest_get_b|]. intros b. destruct (b_frames b); honest0.
  - cbn [execute]. apply Honest_bind; [apply Honest_get_b|]. intros b. destruct (b_frames b); honest0.
Qed.

(* ------------------------------------------------------------------------------------------ *)
Definition anywhere (j : nat) : Prop := True.

Lemma land_bp l bps i : bps_ok l bps -> In i bps -> land l (Some i) = Some i.
Proof.
  intros Hb Hi. apply land_of_landed. intros j e Hj He. injection Hj as <-.
  destruct (Hb i Hi) as [e' [He' Hn]]. congruence.
Qed.

Lemma honest_skip_loop : forall fuel begin v v',
  bps_ok (v_listing v) (v_bps v) -> honest anywhere v -> skip_loop fuel begin v = Ret v' -> honest anywhere v'.
Proof.
  induction fuel as [|fuel IH]; intros begin v v' Ho H E; [discriminate|]. cbn [skip_loop] in E.
  destruct (nth_error (v_branches v) (v_current v)) as [b|] eqn:Eb; [|injection E as <-; exact H].
  destruct (b_line b) as [i|] eqn:El.
  2:{ match type of E with (if ?c then _ else _) = _ => destruct c end; [injection E as <-; exact H|].
      eapply IH; [| |exact E]; [exact Ho|exact H]. }
  destruct (skip_nops (v_listing v) (v_bps v) b (v_trig v)) as [[b' t'] ok] eqn:Es.
  pose proof (skip_nops_spec _ _ _ _ _ _ _ Es) as [A1 [_ [_ [_ [_ [A6 [A7 _]]]]]]].
  destruct H as [S H].
  (* a branch that was reported does not move *)
  assert (K : forall id ln, told t' id ln -> In ln (v_bps v) /\
    exists j c, nth_error (upd_nth (v_current v) (fun _ => b') (v_branches v)) j = Some c /\ b_id c = id /\ b_line c = Some ln).
  { intros id ln T. apply (told_skip _ _ _ _ _ _ _ Ho Es) in T. destruct T as [T|[T1 [T2 T3]]].
    - destruct (H id ln T) as [Hin [j [c [_ [Hc [X Y]]]]]]. split; [exact Hin|].
      destruct (Nat.eq_dec (v_current v) j) as [<-|Hj].
      + exists (v_current v), b'. rewrite nth_upd_nth_same, Hc. assert (c = b) by congruence. subst c.
        split; [reflexivity|]. split; [congruence|]. rewrite A6, Y. eapply land_bp; eassumption.
      + exists j, c. rewrite nth_upd_nth_other by exact Hj. auto.
    - split; [exact T3|]. exists (v_current v), b'. rewrite nth_upd_nth_same, Eb. split; [reflexivity|]. split; congruence. }
  assert (S' : solid t') by (eapply solid_skip; eassumption).
  destruct ok.
  - injection E as <-. split; [exact S'|]. cbn. intros id ln T. destruct (K id ln T) as [Hin [j [c X]]].
    split; [exact Hin|]. exists j, c. split; [exact I|exact X].
  - eapply IH; [| |exact E]; [exact Ho|]. split; [exact S'|]. cbn. intros id ln T.
    destruct (K id ln T) as [Hin [j [c [Hc [X Y]]]]]. split; [exact Hin|].
    destruct (Nat.eq_dec (v_current v) j) as [<-|Hj].
    + exfalso. rewrite nth_upd_nth_same, Eb in Hc. injection Hc as <-.
      destruct (Ho _ Hin) as [e [He _]]. apply nth_error_lt in He.
      assert (false = true); [|discriminate]. apply A7. exists ln. split; [congruence|exact He].
    + exists j, c. split; [exact I|]. rewrite !nth_upd_nth_other by exact Hj.
      rewrite nth_upd_nth_other in Hc by exact Hj. auto.
Qed.

Lemma honest_weaken (P Q : nat -> Prop) v : (forall j, P j -> Q j) -> honest P v -> honest Q v.
Proof.
  intros PQ [S H]. split; [exact S|]. intros id ln T. destruct (H id ln T) as [Hin [j [b [Hj X]]]].
  split; [exact Hin|]. exists j, b. auto.
Qed.

Lemma honest_nil P v : v_trig v = [] -> honest P v.
Proof.
  intros E. split.
  - rewrite E. intros id ls [].
  - rewrite E. intros id ln [ls [[] _]].
Qed.

Lemma honest_step l ver v v' : wf l ver v -> step v = Ret v' -> honest anywhere v'.
Proof.
  intros W E. destruct (step_cases v (wf_cur _ _ _ W)) as [v1 [E1 [P1 Sp]]]. rewrite E in Sp.
  assert (Ho : bps_ok (v_listing (reset v)) (v_bps (reset v))).
  { cbn. rewrite (wf_listing _ _ _ W). apply (wf_bps _ _ _ W). }
  assert (Env : v_listing v1 = v_listing (reset v) /\ v_bps v1 = v_bps (reset v)).
  { destruct P1 as [[_ [Q2 [_ [_ [Q5 _]]]]] _]. auto. }
  destruct Env as [El Eb]. rewrite <- El, <- Eb in Ho.
  assert (H1 : v_trig v1 = []).
  { (* every branch has landed, nothing is reported *)
    pose proof (wf_landed _ _ _ W) as WL. unfold vm_skip_nops in E1.
    assert (G : forall fuel begin w w', (forall b, In b (v_branches w) -> landed (v_listing w) (b_line b)) ->
      v_trig w = [] -> skip_loop fuel begin w = Ret w' -> v_trig w' = []).
    { clear. induction fuel as [|fuel IH]; intros begin w w' L T E; [discriminate|]. cbn [skip_loop] in E.
      destruct (nth_error (v_branches w) (v_current w)) as [b|] eqn:Eb; [|injection E as <-; exact T].
      pose proof (L b (nth_error_In _ _ Eb)) as Lb.
      destruct (b_line b) as [i|] eqn:El.
      2:{ match type of E with (if ?c then _ else _) = _ => destruct c end; [injection E as <-; exact T|].
          eapply IH; [| |exact E]; assumption. }
      rewrite <- El in Lb. destruct (skip_nops_landed (v_listing w) (v_bps w) b (v_trig w) Lb) as [ok [Es _]].
      rewrite Es in E. destruct ok; [injection E as <-; exact T|].
      eapply IH; [| |exact E]; [|exact T]. intros c Hc. cbn in Hc. apply In_upd_nth in Hc.
      destruct Hc as [->|Hc]; [intros ? ? Q; discriminate|]. cbn. apply In_upd_nth in Hc.
      destruct Hc as [->|Hc]; auto. }
    eapply G; [| |exact E1]; [|reflexivity]. intros b Hb. cbn. apply WL. exact Hb. }
  remember (Ret v') as rv eqn:Erv.
  destruct Sp as [Hn|k b i e r Hk Hc Hb Hl He Hne St].
  - injection Erv as <-. apply honest_nil, H1.
  - destruct St as [Hp|c Hcost Hpos Hlt|c v3 Hcost Hpos Ex|c v3 Hcost Hpos Ex|c v3 b3 b4 t4 ok v5 b5 Hcost Hpos Ex Hb3 Es E5 P5 Hb5];
      try discriminate Erv; injection Erv as <-.
    + apply honest_nil. exact H1.
    + apply honest_nil. exact H1.
    + assert (X : honest (fun j => j <> k) v3).
      { eapply (Honest_execute e); [eapply nth_put_same; exact Hb| | |exact Ex]; [exact Ho|]. apply honest_nil. exact H1. }
      apply (honest_weaken (fun j => j <> k)); [intros; exact I|]. exact X.
    + destruct (Honest_execute e k (put k (pay e c b) v1) v3 (Ret tt) (pay e c b)) as [H3 [L3 [B3 _]]];
        [eapply nth_put_same; exact Hb|exact Ho|apply honest_nil; exact H1|exact Ex|].
      cbn in L3, B3. rewrite <- L3, <- B3 in Ho.
      assert (H4 : honest anywhere (set_trig t4 (put k b4 v3))).
      { destruct H3 as [S H3]. split; [eapply solid_skip; eassumption|]. cbn. intros id ln T.
        pose proof (skip_nops_spec _ _ _ _ _ _ _ Es) as [A1 _].
        apply (told_skip _ _ _ _ _ _ _ Ho Es) in T. destruct T as [T|[T1 [T2 T3]]].
        - destruct (H3 id ln T) as [Hin [j [d [Hj [Hd X]]]]]. split; [exact Hin|]. exists j, d. split; [exact I|].
          rewrite nth_upd_nth_other by congruence. auto.
        - split; [exact T3|]. exists k, b4. rewrite nth_upd_nth_same, Hb3. split; [exact I|]. split; [reflexivity|].
          split; congruence. }
      assert (H5 : honest anywhere v5).
      { eapply honest_skip_loop; [|exact H4|exact E5]. exact Ho. }
      destruct H5 as [S5 H5]. split; [apply solid_update, S5|]. cbn. intros id ln T. apply told_update in T.
      destruct T as [T|[T1 [T2 T3]]].
      * destruct (H5 id ln T) as [Hin X]. auto.
      * split; [exact T3|]. exists k, b5. split; [exact I|]. auto.
Qed.

(* the reports of a reachable machine that has just taken a step *)
Theorem hits_true l ver v v' id ls :
  reach l ver v -> step v = Ret v' -> In (id, ls) (v_trig v') ->
  ls <> [] /\ exists b i, has_branch v' id b /\ on_line b i /\ In i (v_bps v') /\ forall ln, In ln ls -> ln = i.
Proof.
  intros R E Hin. pose proof (reach_wf _ _ _ R) as W. destruct (honest_step _ _ _ _ W E) as [S H].
  split; [eapply S; exact Hin|].
  assert (Hls : ls <> []) by (eapply S; exact Hin).
  destruct ls as [|i r]; [congruence|].
  destruct (H id i) as [Hi [j [b [_ [Hb [Hid Hl]]]]]]; [exists (i :: r); cbn; auto|].
  exists b, i. split; [split; [eapply nth_error_In; exact Hb|exact Hid]|]. split; [exact Hl|]. split; [exact Hi|].
  intros ln Hln. destruct (H id ln) as [_ [j' [b' [_ [Hb' [Hid' Hl']]]]]]; [exists (i :: r); auto|].
  pose proof (step_wf _ _ _ _ W E) as W'.
  pose proof (ids_nth _ _ _ _ _ W' Hb) as Q. pose proof (ids_nth _ _ _ _ _ W' Hb') as Q'.
  assert (j = j') by congruence. subst j'. congruence.
Qed.
