(* Proofs about Vm.v: what one instruction and one step may change. *)
From Verif Require Import Base Expr Fields VmOps Vm.
From Coq Require Import ZifyBool ZifyNat ZifyN.

(* ------------------------------------------------------------------------------------------ *)
(* lists *)
Lemma upd_nth_app_lt {A} k (f : A -> A) a c :
  k < length a -> upd_nth k f (a ++ c) = upd_nth k f a ++ c.
Proof.
  revert k; induction a as [|x a IH]; intros [|k] H; cbn in *; try lia; auto.
  rewrite IH by lia. reflexivity.
Qed.

Lemma upd_nth_twice {A} k (x y : A) a :
  upd_nth k (fun _ => y) (upd_nth k (fun _ => x) a) = upd_nth k (fun _ => y) a.
Proof. revert k; induction a as [|z a IH]; intros [|k]; cbn; auto. f_equal; auto. Qed.

Lemma upd_nth_id {A} k (x : A) a :
  nth_error a k = Some x -> upd_nth k (fun _ => x) a = a.
Proof.
  revert k; induction a as [|z a IH]; intros [|k] H; cbn in *; try congruence.
  f_equal; auto.
Qed.

Lemma nth_error_lt {A} (a : list A) k x : nth_error a k = Some x -> k < length a.
Proof. intros H. apply nth_error_Some. congruence. Qed.

Lemma nth_lt_some {A} (a : list A) k : k < length a -> exists x, nth_error a k = Some x.
Proof.
  intros H. destruct (nth_error a k) as [x|] eqn:E; [eauto|].
  apply nth_error_None in E; lia.
Qed.

Lemma skipn_nth {A} (l : list A) i x : nth_error l i = Some x -> skipn i l = x :: skipn (S i) l.
Proof.
  revert i; induction l as [|y l IH]; intros [|i] H; cbn in *; try congruence.
  apply IH in H. exact H.
Qed.

Lemma skipn_ge {A} (l : list A) i : length l <= i -> skipn i l = [].
Proof. intros H. apply skipn_all2. exact H. Qed.

(* ------------------------------------------------------------------------------------------ *)
(* the line reached by skipping no-ops *)
Fixpoint first_op (ops : list expr) (i : nat) : nat :=
  match ops with
  | [] => i
  | op :: r => if is_nop op then first_op r (S i) else i
  end.
Definition land (l : listing) (x : option nat) : option nat :=
  option_map (fun i => first_op (skipn i l) i) x.

Definition landed (l : listing) (x : option nat) : Prop :=
  forall i e, x = Some i -> nth_error l i = Some e -> is_nop e = false.

Lemma first_op_spec l i :
  i <= first_op (skipn i l) i /\
  (forall e, nth_error l (first_op (skipn i l) i) = Some e -> is_nop e = false) /\
  (i <= length l -> first_op (skipn i l) i <= length l) /\
  (forall j e, i <= j < first_op (skipn i l) i -> nth_error l j = Some e -> is_nop e = true).
Proof.
  remember (length l - i) as n eqn:Hn.
  revert i Hn; induction n as [|n IH]; intros i Hn.
  - rewrite skipn_ge by lia. cbn. split; [lia|]. split; [|split; [lia|intros j e Hj; lia]].
    intros e He. apply nth_error_lt in He. lia.
  - destruct (nth_lt_some l i) as [x Hx]; [lia|].
    rewrite (skipn_nth _ _ _ Hx). cbn [first_op].
    destruct (is_nop x) eqn:Ex.
    + destruct (IH (S i)) as [A [B [C D]]]; [lia|].
      split; [lia|]. split; [exact B|]. split; [lia|].
      intros j e Hj He. destruct (Nat.eq_dec j i) as [->|Hne]; [congruence|].
      apply (D j e); [lia|exact He].
    + split; [lia|]. split; [intros e He; congruence|]. split; [lia|].
      intros j e Hj; lia.
Qed.

Lemma land_landed l x : landed l (land l x).
Proof.
  intros i e Hi He. destruct x as [j|]; cbn in Hi; [|congruence].
  injection Hi as <-. apply (proj1 (proj2 (first_op_spec l j))). exact He.
Qed.

Lemma land_of_landed l x : landed l x -> land l x = x.
Proof.
  intros H. destruct x as [i|]; cbn; [|reflexivity].
  destruct (nth_error l i) as [e|] eqn:E.
  - rewrite (skipn_nth _ _ _ E). cbn. rewrite (H i e eq_refl E). reflexivity.
  - rewrite skipn_ge by (apply nth_error_None; exact E). reflexivity.
Qed.

(* ------------------------------------------------------------------------------------------ *)
(* Triggered *)
Definition hit (id : nat) (t : list (nat * list nat)) : Prop := exists ls, In (id, ls) t.

Lemma hit_nil id : ~ hit id [].
Proof. intros [ls H]; exact H. Qed.

Lemma trig_add_hit id ln t j : hit j (trig_add id ln t) <-> hit j t \/ j = id.
Proof.
  induction t as [|[i ls] t IH]; cbn.
  - split.
    + intros [x [H|[]]]. right. congruence.
    + intros [[x []]| ->]. eexists; left; reflexivity.
  - destruct (Nat.eqb_spec i id) as [->|Hn].
    + split.
      * intros [x [H|H]]; [right; congruence|left; eexists; right; exact H].
      * intros [[x [H|H]]| ->].
        -- injection H as <- <-. eexists; left; reflexivity.
        -- eexists; right; exact H.
        -- eexists; left; reflexivity.
    + split.
      * intros [x [H|H]]; [left; eexists; left; exact H|].
        destruct (proj1 IH (ex_intro _ x H)) as [[y Hy]|Hj];
          [left; eexists; right; exact Hy | right; exact Hj].
      * intros [[x [H|H]]|Hj].
        -- eexists; left; exact H.
        -- destruct (proj2 IH (or_introl (ex_intro _ x H))) as [y Hy]. eexists; right; exact Hy.
        -- destruct (proj2 IH (or_intror Hj)) as [y Hy]. eexists; right; exact Hy.
Qed.

Lemma update_bps_hit bps b t j :
  hit j (update_bps bps b t) <->
  hit j t \/ (j = b_id b /\ exists i, b_line b = Some i /\ In i bps).
Proof.
  unfold update_bps. revert t; induction bps as [|bp bps IH]; intros t; cbn [fold_left].
  - split; [auto|]. intros [H|[_ [i [_ []]]]]; exact H.
  - rewrite IH. destruct (b_line b) as [ln|] eqn:El.
    + destruct (Nat.eqb_spec ln bp) as [->|Hn].
      * rewrite trig_add_hit. split.
        -- intros [[H|H]|[H1 [i [Hi Hin]]]]; auto.
           ++ right; split; [exact H|]. exists bp. cbn; auto.
           ++ right; split; [exact H1|]. exists i. cbn; auto.
        -- intros [H|[H1 [i [Hi Hin]]]]; auto.
      * split.
        -- intros [H|[H1 [i [Hi Hin]]]]; auto.
           right; split; [exact H1|]. exists i; cbn; auto.
        -- intros [H|[H1 [i [Hi [Hin|Hin]]]]]; auto.
           ++ congruence.
           ++ right; split; [exact H1|]. exists i; auto.
    + split.
      * intros [H|[H1 [i [Hi _]]]]; [auto|congruence].
      * intros [H|[H1 [i [Hi _]]]]; [auto|congruence].
Qed.

Definition bps_ok (l : listing) (bps : list nat) : Prop :=
  forall i, In i bps -> exists e, nth_error l i = Some e /\ is_nop e = false.

(* ------------------------------------------------------------------------------------------ *)
(* skipNops of one branch *)
Lemma skip_from_spec l bps : forall n i b t b' t' ok,
  length l - i = n -> b_line b = Some i ->
  skip_from (skipn i l) i bps b t = (b', t', ok) ->
  b_id b' = b_id b /\ b_stack b' = b_stack b /\ b_frames b' = b_frames b /\
  b_budget b' = b_budget b /\ b_trace b' = b_trace b /\
  b_line b' = Some (first_op (skipn i l) i) /\
  (ok = true <-> first_op (skipn i l) i < length l) /\
  (bps_ok l bps -> forall j,
     hit j t' <-> hit j t \/
       (j = b_id b /\ first_op (skipn i l) i <> i /\ In (first_op (skipn i l) i) bps)).
Proof.
  induction n as [|n IH]; intros i b t b' t' ok Hn Hl H.
  - rewrite skipn_ge in H |- * by lia. cbn in H |- *. injection H as <- <- <-.
    repeat split; auto; try lia; try congruence; tauto.
  - destruct (nth_lt_some l i) as [op Hop]; [lia|].
    rewrite (skipn_nth _ _ _ Hop) in H |- *. cbn [skip_from first_op] in H |- *.
    set (b1 := match op with LabelExpr n => set_name n b | _ => b end) in *.
    assert (Hb1 : b_id b1 = b_id b /\ b_stack b1 = b_stack b /\ b_frames b1 = b_frames b /\
                  b_budget b1 = b_budget b /\ b_trace b1 = b_trace b /\ b_line b1 = b_line b).
    { unfold b1. destruct op; cbn; auto 10. }
    destruct Hb1 as [E1 [E2 [E3 [E4 [E5 E6]]]]].
    destruct (is_nop op) eqn:Eo.
    + apply IH in H; [|lia|reflexivity].
      destruct H as [A1 [A2 [A3 [A4 [A5 [A6 [A7 A8]]]]]]].
      cbn [b_id b_stack b_frames b_budget b_trace set_line] in *.
      repeat split; try congruence; try (apply A7).
      * specialize (A8 H j). rewrite A8, update_bps_hit. cbn [b_id b_line set_line].
        rewrite E1. intros [[?|[? [x [Hx Hin]]]]|[? [? ?]]]; auto.
        -- injection Hx as <-. right; split; [assumption|].
           destruct (H _ Hin) as [e [He Hne]].
           rewrite (skipn_nth _ _ _ He). cbn [first_op]. rewrite Hne. split; [lia|exact Hin].
        -- right. destruct (first_op_spec l (S i)) as [Q _].
           repeat split; auto; lia.
      * specialize (A8 H j). rewrite A8, update_bps_hit. cbn [b_id b_line set_line].
        rewrite E1. intros [?|[? [? Hin]]]; auto.
        destruct (Nat.eq_dec (first_op (skipn (S i) l) (S i)) (S i)) as [Heq|Hne].
        -- left; right; split; [assumption|]. exists (S i). split; [reflexivity|congruence].
        -- right; auto.
    + injection H as <- <- <-.
      apply nth_error_lt in Hop.
      repeat split; try congruence; try lia; tauto.
Qed.

Lemma skip_nops_spec l bps b t b' t' ok :
  skip_nops l bps b t = (b', t', ok) ->
  b_id b' = b_id b /\ b_stack b' = b_stack b /\ b_frames b' = b_frames b /\
  b_budget b' = b_budget b /\ b_trace b' = b_trace b /\
  b_line b' = land l (b_line b) /\
  (ok = true <-> exists i, land l (b_line b) = Some i /\ i < length l) /\
  (bps_ok l bps -> forall j,
     hit j t' <-> hit j t \/
       (j = b_id b /\ b_line b' <> b_line b /\ exists i, b_line b' = Some i /\ In i bps)).
Proof.
  unfold skip_nops. destruct (b_line b) as [i|] eqn:El.
  - intros H. apply (skip_from_spec l bps (length l - i)) in H; [|reflexivity|exact El].
    destruct H as [A1 [A2 [A3 [A4 [A5 [A6 [A7 A8]]]]]]].
    cbn [land option_map].
    repeat split; auto.
    + intros H. exists (first_op (skipn i l) i). split; [reflexivity|]. apply A7; exact H.
    + intros [x [Hx Hlt]]. injection Hx as <-. apply A7; exact Hlt.
    + intros Hj. apply A8 in Hj; [|assumption]. destruct Hj as [?|[? [? ?]]]; auto.
      right. rewrite A6. repeat split; auto; [congruence|eauto].
    + intros [?|[? [Hne [x [Hx ?]]]]]; apply A8; auto.
      right. rewrite A6 in Hne, Hx. injection Hx as <-. repeat split; auto; congruence.
  - intros H; injection H as <- <- <-. cbn. rewrite El.
    repeat split; auto; try congruence.
    + intros [x [Hx _]]; congruence.
    + intros [?|[_ [Hne _]]]; [assumption|congruence].
Qed.

(* when nothing has to be skipped *)
Lemma skip_nops_landed l bps b t :
  landed l (b_line b) ->
  exists ok, skip_nops l bps b t = (b, t, ok) /\
             (ok = true <-> exists i, b_line b = Some i /\ i < length l).
Proof.
  intros H. unfold skip_nops. destruct (b_line b) as [i|] eqn:El.
  - destruct (nth_error l i) as [e|] eqn:E.
    + rewrite (skipn_nth _ _ _ E). cbn. rewrite (H i e eq_refl E).
      exists true. split.
      * destruct e; try reflexivity. cbn in *. specialize (H i _ eq_refl E). cbn in H; congruence.
      * split; [intros _|reflexivity]. exists i. split; [reflexivity|]. eapply nth_error_lt; eauto.
    + rewrite skipn_ge by (apply nth_error_None; exact E). cbn. exists false.
      split; [reflexivity|]. split; [discriminate|].
      intros [x [Hx Hlt]]. injection Hx as <-. apply nth_error_None in E. lia.
  - exists false. split; [reflexivity|]. split; [discriminate|]. intros [x [Hx _]]; congruence.
Qed.

(* ------------------------------------------------------------------------------------------ *)
(* find *)
Lemma find_from_spec l target : forall i acc r,
  find_from i l target acc = r ->
  (r = acc /\ (forall j, nth_error l j <> Some (LabelExpr target))) \/
  (exists j, r = Some (i + j) /\ nth_error l j = Some (LabelExpr target) /\
             (forall j', j < j' -> nth_error l j' <> Some (LabelExpr target))).
Proof.
  induction l as [|e l IH]; intros i acc r H; cbn in H.
  - left. split; [congruence|]. intros [|j]; discriminate.
  - apply IH in H. destruct H as [[H Hno]|[j [Hr [Hj Hlast]]]].
    + assert (C : (exists n, e = LabelExpr n /\ n = target) \/
                  (e <> LabelExpr target /\
                   r = acc)).
      { destruct e; try (right; split; [discriminate|exact H]).
        destruct (seqb_spec Name_ target) as [->|Hn]; [left; eauto|].
        right; split; [congruence|exact H]. }
      destruct C as [[n [-> ->]]|[Hne ->]].
      * right. exists 0. rewrite seqb_refl in H. rewrite Nat.add_0_r.
        split; [exact H|]. split; [reflexivity|].
        intros [|j'] Hlt; [lia|]. cbn. apply Hno.
      * left. split; [reflexivity|]. intros [|j]; cbn; [congruence|apply Hno].
    + right. exists (S j). rewrite Hr. split; [f_equal; lia|]. split; [exact Hj|].
      intros [|j'] Hlt; [lia|]. cbn. apply Hlast. lia.
Qed.

Lemma find_some l target i :
  find l target = Some i ->
  nth_error l i = Some (LabelExpr target) /\
  (forall j, i < j -> nth_error l j <> Some (LabelExpr target)).
Proof.
  intros H. destruct (find_from_spec l target 0 None (Some i) H) as [[H1 _]|[j [Hj [A B]]]].
  - discriminate.
  - cbn in Hj. injection Hj as <-. auto.
Qed.

Lemma find_none l target :
  find l target = None -> forall j, nth_error l j <> Some (LabelExpr target).
Proof.
  intros H. destruct (find_from_spec l target 0 None None H) as [[_ H1]|[j [Hj _]]].
  - exact H1.
  - discriminate.
Qed.

Lemma find_bp_moves l bps target i :
  bps_ok l bps -> land l (find l target) = Some i -> In i bps ->
  land l (find l target) <> find l target.
Proof.
  intros Hb Hi Hin Heq. rewrite Heq in Hi. apply find_some in Hi.
  destruct (Hb i Hin) as [e [He Hn]]. destruct Hi as [Hl _].
  rewrite Hl in He. injection He as <-. discriminate.
Qed.

(* ------------------------------------------------------------------------------------------ *)
(* What the execution of an instruction on branch k may change: branch k itself, except for its
   id, budget and trace; the scratch space; new branches at the end. *)
Definition same_env (v v' : vm) : Prop :=
  v_listing v' = v_listing v /\ v_version v' = v_version v /\ v_branch v' = v_branch v /\
  v_current v' = v_current v /\ v_bps v' = v_bps v /\ v_error v' = v_error v /\
  length (v_scratch v') = length (v_scratch v).

Definition born (l : listing) (b nb : branch) : Prop :=
  b_budget nb = b_budget b /\ b_trace nb = b_trace b /\ b_frames nb = [] /\
  exists t, b_line nb = land l (find l t).

Definition stopped_at (bps : list nat) (nb : branch) : Prop :=
  exists i, b_line nb = Some i /\ In i bps.

Definition ext (n k : nat) (v v' : vm) : Prop :=
  same_env v v' /\
  forall b, nth_error (v_branches v) k = Some b ->
  exists b' new,
    v_branches v' = upd_nth k (fun _ => b') (v_branches v) ++ new /\
    b_id b' = b_id b /\ b_budget b' = b_budget b /\ b_trace b' = b_trace b /\
    map b_id new = seq (v_id v) (length new) /\ v_id v' = v_id v + length new /\
    length new <= n /\ Forall (born (v_listing v) b) new /\
    (bps_ok (v_listing v) (v_bps v) -> forall j,
       hit j (v_trig v') <->
       hit j (v_trig v) \/ exists nb, In nb new /\ b_id nb = j /\ stopped_at (v_bps v) nb).

Lemma same_env_refl v : same_env v v.
Proof. repeat split. Qed.

Lemma same_env_trans v1 v2 v3 : same_env v1 v2 -> same_env v2 v3 -> same_env v1 v3.
Proof.
  intros [A1 [A2 [A3 [A4 [A5 [A6 A7]]]]]] [B1 [B2 [B3 [B4 [B5 [B6 B7]]]]]].
  repeat split; congruence.
Qed.

Lemma ext_refl n k v : ext n k v v.
Proof.
  split; [apply same_env_refl|]. intros b Hb. exists b, [].
  rewrite upd_nth_id by exact Hb. rewrite app_nil_r.
  repeat split; auto; cbn; try lia; try constructor; auto.
  intros [?|[nb [[] _]]]; assumption.
Qed.

Lemma ext_weaken n n' k v v' : ext n k v v' -> n <= n' -> ext n' k v v'.
Proof.
  intros [H1 H2] Hn. split; [exact H1|]. intros b Hb.
  destruct (H2 b Hb) as [b' [new [A1 [A2 [A3 [A4 [A5 [A6 [A7 [A8 A9]]]]]]]]]].
  exists b', new. repeat split; auto; try lia; apply A9; auto.
Qed.

Lemma born_same l b b' nb :
  b_budget b' = b_budget b -> b_trace b' = b_trace b -> born l b' nb -> born l b nb.
Proof. intros E1 E2 [A1 [A2 [A3 A4]]]. repeat split; congruence || assumption. Qed.

Lemma ext_trans n1 n2 k v1 v2 v3 :
  ext n1 k v1 v2 -> ext n2 k v2 v3 -> ext (n1 + n2) k v1 v3.
Proof.
  intros [E1 H1] [E2 H2]. split; [eapply same_env_trans; eauto|].
  intros b Hb. destruct (H1 b Hb) as [b1 [new1 [A1 [A2 [A3 [A4 [A5 [A6 [A7 [A8 A9]]]]]]]]]].
  assert (Hk : k < length (v_branches v1)) by (eapply nth_error_lt; eauto).
  assert (Hb1 : nth_error (v_branches v2) k = Some b1).
  { rewrite A1, nth_error_app1 by (rewrite upd_nth_length; exact Hk).
    rewrite nth_upd_nth_same, Hb. reflexivity. }
  destruct (H2 b1 Hb1) as [b2 [new2 [B1 [B2 [B3 [B4 [B5 [B6 [B7 [B8 B9]]]]]]]]]].
  destruct E1 as [F1 [_ [_ [_ [F5 _]]]]].
  exists b2, (new1 ++ new2).
  split. { rewrite B1, A1, upd_nth_app_lt by (rewrite upd_nth_length; exact Hk).
           rewrite upd_nth_twice, app_assoc. reflexivity. }
  split; [congruence|]. split; [congruence|]. split; [congruence|].
  split. { rewrite map_app, A5, B5, A6, app_length, seq_app. reflexivity. }
  split. { rewrite B6, A6, app_length. lia. }
  split. { rewrite app_length. lia. }
  split. { apply Forall_app. split; [exact A8|]. rewrite F1 in B8.
           eapply Forall_impl; [|exact B8]. intros nb. apply born_same; assumption. }
  intros Hok j. rewrite F1, F5 in B9.
  rewrite (B9 Hok j), (A9 Hok j). split.
  - intros [[H|[nb [Hn [Hi Hs]]]]|[nb [Hn [Hi Hs]]]]; auto; right; exists nb;
      (split; [apply in_or_app; auto|auto]).
  - intros [H|[nb [Hn [Hi Hs]]]]; auto. apply in_app_or in Hn. destruct Hn as [Hn|Hn]; eauto 10.
Qed.

Definition Ext (n : nat) {A} (m : M A) : Prop :=
  forall k v v' r, m k v = (v', r) -> ext n k v v'.

Lemma Ext_weaken {A} n n' (m : M A) : Ext n m -> n <= n' -> Ext n' m.
Proof. intros H Hn k v v' r E. eapply ext_weaken; eauto. Qed.

Lemma Ext_bind {A B} n1 n2 (m : M A) (f : A -> M B) :
  Ext n1 m -> (forall a, Ext n2 (f a)) -> Ext (n1 + n2) (bind m f).
Proof.
  intros Hm Hf k v v' r E. unfold bind in E. destruct (m k v) as [v1 [a| |]] eqn:Em.
  - eapply ext_trans; [eapply Hm; eauto|eapply Hf; eauto].
  - injection E as <- <-. eapply ext_weaken; [eapply Hm; eauto|lia].
  - injection E as <- <-. eapply ext_weaken; [eapply Hm; eauto|lia].
Qed.

Lemma Ext_bind0 {A B} n (m : M A) (f : A -> M B) :
  Ext 0 m -> (forall a, Ext n (f a)) -> Ext n (bind m f).
Proof. apply (Ext_bind 0 n). Qed.

Lemma Ext_ret {A} n (a : A) : Ext n (ret a).
Proof. intros k v v' r E. injection E as <- <-. apply ext_refl. Qed.
Lemma Ext_throw {A} n : Ext n (@throw A).
Proof. intros k v v' r E. injection E as <- <-. apply ext_refl. Qed.
Lemma Ext_diverge {A} n : Ext n (@diverge A).
Proof. intros k v v' r E. injection E as <- <-. apply ext_refl. Qed.
Lemma Ext_lift {A} n (x : res A) : Ext n (lift x).
Proof. intros k v v' r E. injection E as <- <-. apply ext_refl. Qed.

Lemma Ext_get_b n : Ext n get_b.
Proof.
  intros k v v' r E. unfold get_b in E. destruct (nth_error _ k);
    injection E as <- <-; apply ext_refl.
Qed.

Lemma Ext_find_m n t : Ext n (find_m t).
Proof. intros k v v' r E. injection E as <- <-. apply ext_refl. Qed.
Lemma Ext_scratch n i : Ext n (scratch i).
Proof. intros k v v' r E. injection E as <- <-. apply ext_refl. Qed.

Lemma put_ext n k v b b' :
  nth_error (v_branches v) k = Some b ->
  b_id b' = b_id b -> b_budget b' = b_budget b -> b_trace b' = b_trace b ->
  ext n k v (put k b' v).
Proof.
  intros Hb E1 E2 E3. split; [repeat split|].
  intros b0 Hb0. assert (b0 = b) by congruence. subst b0.
  exists b', []. cbn. rewrite app_nil_r.
  repeat split; auto; try lia; try constructor; auto.
  intros [?|[nb [[] _]]]; assumption.
Qed.

Definition keeps (f : branch -> branch) : Prop :=
  forall b, b_id (f b) = b_id b /\ b_budget (f b) = b_budget b /\ b_trace (f b) = b_trace b.

Lemma Ext_mod_b n f : keeps f -> Ext n (mod_b f).
Proof.
  intros Hf k v v' r E. unfold mod_b in E. destruct (nth_error _ k) as [b|] eqn:Eb.
  - injection E as <- <-. destruct (Hf b) as [A [B C]]. eapply put_ext; eauto.
  - injection E as <- <-. apply ext_refl.
Qed.

Lemma Ext_push n x : Ext n (push x).
Proof. apply Ext_mod_b. intros b; cbn; auto. Qed.
Lemma Ext_next_line n : Ext n next_line.
Proof. apply Ext_mod_b. intros b; cbn; auto. Qed.
Lemma Ext_exit n : Ext n exit_m.
Proof. apply Ext_mod_b. intros b; cbn; auto. Qed.

Lemma Ext_pop n t : Ext n (pop t).
Proof.
  apply Ext_bind0; [apply Ext_get_b|]. intros b. destruct (b_stack b) as [|x r].
  - apply Ext_throw.
  - destruct (accepts t x); [|apply Ext_throw].
    apply Ext_bind0; [apply Ext_mod_b; intros ?; cbn; auto|intros; apply Ext_ret].
Qed.

Lemma Ext_prepare n a r : Ext n (prepare a r).
Proof.
  apply Ext_bind0; [apply Ext_get_b|]. intros b. destruct (b_frames b) as [|x fs].
  - apply Ext_throw.
  - apply Ext_mod_b; intros ?; cbn; auto.
Qed.

Lemma Ext_item n i : Ext n (item i).
Proof. apply Ext_bind0; [apply Ext_get_b|]. intros b. apply Ext_lift. Qed.

Lemma Ext_replace n i x : Ext n (replace i x).
Proof.
  apply Ext_bind0; [apply Ext_get_b|]. intros b. destruct (_ <? _).
  - apply Ext_mod_b; intros ?; cbn; auto.
  - apply Ext_throw.
Qed.

Lemma Ext_store n i x : Ext n (store i x).
Proof.
  unfold store. destruct (v_src i) as [[m| | | |]|]; try apply Ext_ret.
  intros k v v' r E. destruct (_ <? _); injection E as <- <-; [|apply ext_refl].
  split.
  - repeat split. cbn. apply upd_nth_length.
  - intros b Hb. exists b, []. cbn. rewrite upd_nth_id by exact Hb. rewrite app_nil_r.
    repeat split; auto; cbn; try lia; try constructor; auto.
    intros [?|[nb [[] _]]]; assumption.
Qed.

Lemma Ext_fork t : Ext 1 (fork t).
Proof.
  intros k v v' r E. unfold fork, bind, get_b in E.
  destruct (nth_error (v_branches v) k) as [b|] eqn:Eb;
    [|injection E as <- <-; apply ext_refl].
  match type of E with context[skip_nops ?l ?bps ?nb ?tr] =>
    destruct (skip_nops l bps nb tr) as [[nb' t'] ok] eqn:Es end.
  injection E as <- <-.
  apply skip_nops_spec in Es. cbn in Es.
  destruct Es as [A1 [A2 [A3 [A4 [A5 [A6 [A7 A8]]]]]]].
  split; [repeat split|].
  intros b0 Hb0. assert (b0 = b) by congruence. subst b0.
  exists b, [nb']. cbn. rewrite upd_nth_id by exact Eb.
  repeat split; auto; try lia.
  - rewrite A1. reflexivity.
  - constructor; [|constructor]. repeat split; auto. exists t. exact A6.
  - intros Hj. apply A8 in Hj; [|assumption]. destruct Hj as [Hj|[Hj [Hm Hs]]]; [auto|].
    right. exists nb'. split; [left; reflexivity|]. split; [congruence|exact Hs].
  - intros [Hj|[nb [[<-|[]] [Hj Hs]]]]; apply A8; auto.
    right. split; [congruence|]. split; [|exact Hs].
    destruct Hs as [i [Hi Hin]]. rewrite A6 in Hi |- *.
    eapply find_bp_moves; eauto.
Qed.

Lemma Ext_each0 {A} (f : A -> M unit) xs : (forall x, Ext 0 (f x)) -> Ext 0 (each f xs).
Proof.
  intros H. induction xs as [|x xs IH]; cbn; [apply Ext_ret|].
  apply Ext_bind0; [apply H|intros; exact IH].
Qed.

Lemma Ext_each_fork ts : Ext (length ts) (each fork ts).
Proof.
  induction ts as [|t ts IH]; cbn [each length]; [apply Ext_ret|].
  apply (Ext_bind 1); [apply Ext_fork|intros; exact IH].
Qed.

Lemma Ext_pop_n n t : Ext 0 (pop_n n t).
Proof.
  induction n as [|n IH]; cbn; [apply Ext_ret|].
  apply Ext_bind0; [apply Ext_pop|]. intros x.
  apply Ext_bind0; [exact IH|]. intros; apply Ext_ret.
Qed.

Lemma Ext_field_type n s f : Ext n (field_type s f).
Proof. unfold field_type. destruct (spec_by_field s f); [apply Ext_ret|apply Ext_throw]. Qed.

Lemma Ext_jump n t : Ext n (jump t).
Proof.
  apply Ext_bind0; [apply Ext_find_m|]. intros ln. apply Ext_mod_b; intros ?; cbn; auto.
Qed.

Lemma Ext_call n t : Ext n (call t).
Proof.
  apply Ext_bind0; [apply Ext_get_b|]. intros b.
  apply Ext_bind0; [apply Ext_mod_b; intros ?; cbn; auto|]. intros _.
  apply Ext_bind0; [apply Ext_find_m|]. intros ln. apply Ext_mod_b; intros ?; cbn; auto.
Qed.

Lemma Ext_pops_pushes n ps qs : Ext n (pops_pushes ps qs).
Proof.
  apply Ext_weaken with 0; [|lia]. unfold pops_pushes.
  apply Ext_bind0; [apply Ext_each0; intros; apply Ext_bind0; [apply Ext_pop|intros; apply Ext_ret]|].
  intros _. apply Ext_bind0; [apply Ext_each0; intros; apply Ext_push|].
  intros _. apply Ext_next_line.
Qed.

Lemma Ext_simple n e :
  Ext n (match simple_effect e with
         | Some (ps, qs) => pops_pushes ps qs
         | None => next_line
         end).
Proof.
  destruct (simple_effect e) as [[ps qs]|]; [apply Ext_pops_pushes|apply Ext_next_line].
Qed.

Ltac ext0 :=
  repeat first
    [ apply Ext_simple | apply Ext_push | apply Ext_next_line | apply Ext_exit | apply Ext_pop
    | apply Ext_ret | apply Ext_throw | apply Ext_diverge | apply Ext_get_b | apply Ext_prepare
    | apply Ext_item | apply Ext_replace | apply Ext_store | apply Ext_scratch
    | apply Ext_field_type | apply Ext_jump | apply Ext_call | apply Ext_pop_n
    | apply Ext_each0; intros | apply Ext_bind0; [|intros] ].

Theorem Ext_execute e : Ext (length (uses e)) (execute e).
Proof.
  destruct e as [o| | | | | | | | | | | | | | | | | | | | | | | | | | | | | | | | | | | | | | | | |
                 | | | | | | | | | | | | | | | | | | | | | | | | | | | | | | | | | | | |];
    try (cbn [execute uses labels_of length]; ext0; fail).
  - destruct o; cbn [execute uses labels_of length]; ext0.
  - cbn [execute uses labels_of length].
    apply Ext_bind0; [apply Ext_get_b|]. intros b. destruct (b_frames b) as [|f fs].
    + apply Ext_next_line.
    + ext0. apply Ext_mod_b. intros ?; cbn; auto.
  - cbn [execute uses labels_of length]. apply Ext_bind0; [apply Ext_pop|]. intros _.
    apply (Ext_bind 1 0); [apply Ext_fork|intros; apply Ext_next_line].
  - cbn [execute uses labels_of length]. apply Ext_bind0; [apply Ext_pop|]. intros _.
    apply (Ext_bind 1 0); [apply Ext_fork|intros; apply Ext_next_line].
  - cbn [execute uses labels_of]. apply Ext_bind0; [apply Ext_pop|]. intros _.
    rewrite <- (Nat.add_0_r (length Targets_)).
    apply Ext_bind; [apply Ext_each_fork|intros; apply Ext_next_line].
  - cbn [execute uses labels_of]. apply Ext_bind0; [apply Ext_pop_n|]. intros _.
    apply Ext_bind0; [apply Ext_pop|]. intros _.
    rewrite <- (Nat.add_0_r (length Targets_)).
    apply Ext_bind; [apply Ext_each_fork|intros; apply Ext_next_line].
  - cbn [execute uses labels_of length]. apply Ext_bind0; [apply Ext_pop|]. intros x.
    destruct (255 <=? Count_)%N; ext0.
  - cbn [execute uses labels_of length]. apply Ext_bind0; [apply Ext_get_b|]. intros b.
    destruct (b_frames b); ext0.
  - cbn [execute uses labels_of length]. apply Ext_bind0; [apply Ext_get_b|]. intros b.
    destruct (b_frames b); ext0.
Qed.

