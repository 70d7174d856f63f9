(* Proofs about Vm.Step: the cases of a step and the invariants it keeps. *)
From Verif Require Import Base Expr Fields VmOps Vm VmProofs VmSkip.
From Coq Require Import ZifyBool ZifyNat ZifyN.

(* ------------------------------------------------------------------------------------------ *)
(* costs *)
Lemma lengths_single v : length (lengths v) <= 1.
Proof.
  revert v. fix F 1. intros [T [s|]]; cbn; [|lia].
  destruct s; cbn; try lia. apply F.
Qed.

(* cost c of executing e on branch b, as Step computes it (vm.go:446-457) *)
Definition costs (e : expr) (ver : N) (b : branch) (c : Z) : Prop :=
  cost_of e ver b = Ret [c] \/ (cost_of e ver b = Ret [] /\ c = 1%Z).

Lemma fixed_cost_pos e c : fixed_cost e = Some c -> (1 <= c)%Z.
Proof.
  destruct e as [o| | | | | | | | | | | | | | | | | | | | | | | | | | | | | | | | | | | | | | | | |
                 | | | | | | | | | | | | | | | | | | | | | | | | | | | | | | | | | | | |];
    try discriminate; try (intros H; injection H as <-; lia).
  destruct o; try discriminate; intros H; injection H as <-; lia.
Qed.

Lemma ec_cost_cases bn bls g :
  ec_cost bn bls g = Panic \/ ec_cost bn bls g = Ret [bn] \/ ec_cost bn bls g = Ret [bls].
Proof. unfold ec_cost. destruct g as [|[[?|?|]|[?|?|]|]]; auto. Qed.

Lemma ecdsa_cost tab i :
  (forall c, In c tab -> (1 <= c)%Z) ->
  (letr c := index tab (N.to_nat i) in Ret [c]) = Panic \/
  exists c, (letr c := index tab (N.to_nat i) in Ret [c]) = Ret [c] /\ (1 <= c)%Z.
Proof.
  intros H. unfold index. destruct (nth_error tab (N.to_nat i)) eqn:E; cbn; auto.
  right. exists z. split; [reflexivity|]. apply H. eapply nth_error_In; eauto.
Qed.

Lemma map_lengths f v :
  (forall l, (1 <= f l)%Z) ->
  exists c, (1 <= c)%Z /\ (map f (lengths v) = [c] \/ (map f (lengths v) = [] /\ c = 1%Z)).
Proof.
  intros H. pose proof (lengths_single v) as L. destruct (lengths v) as [|x [|y r]]; cbn in *.
  - exists 1%Z. split; [lia|auto].
  - exists (f x). auto.
  - lia.
Qed.

Lemma cost_cases e ver b :
  cost_of e ver b = Panic \/ exists c, costs e ver b c /\ (1 <= c)%Z.
Proof.
  assert (Fx : (match fixed_cost e with Some c => Ret [c] | None => Ret [] end) = @Panic (list Z) \/
               exists c, ((match fixed_cost e with Some c => Ret [c] | None => Ret [] end) = Ret [c] \/
                         ((match fixed_cost e with Some c => Ret [c] | None => Ret [] end) = Ret [] /\ c = 1%Z))
                         /\ (1 <= c)%Z).
  { right. destruct (fixed_cost e) as [c|] eqn:E.
    - exists c. split; [auto|]. eapply fixed_cost_pos; eauto.
    - exists 1%Z. split; [auto|lia]. }
  assert (Ec : forall bn bls g, (1 <= bn)%Z -> (1 <= bls)%Z ->
             ec_cost bn bls g = Panic \/
             exists c, (ec_cost bn bls g = Ret [c] \/ (ec_cost bn bls g = Ret [] /\ c = 1%Z)) /\ (1 <= c)%Z).
  { intros bn bls g H1 H2. destruct (ec_cost_cases bn bls g) as [H|[H|H]]; auto; right; eauto. }
  assert (Cv : forall x : bool, forall p q : Z, (1 <= p)%Z -> (1 <= q)%Z ->
             exists c, (@Ret (list Z) [if x then p else q] = Ret [c] \/
                        (@Ret (list Z) [if x then p else q] = Ret [] /\ c = 1%Z)) /\ (1 <= c)%Z).
  { intros x p q Hp Hq. exists (if x then p else q). split; [auto|]. destruct x; assumption. }
  assert (Ml : forall f, (forall l, (1 <= f l)%Z) ->
             (match b_stack b with [] => Panic | x :: _ => Ret (map f (lengths x)) end = Panic \/
              exists c, (match b_stack b with [] => Panic | x :: _ => Ret (map f (lengths x)) end = Ret [c] \/
                        (match b_stack b with [] => Panic | x :: _ => Ret (map f (lengths x)) end = Ret [] /\ c = 1%Z))
                        /\ (1 <= c)%Z)).
  { intros f Hf. destruct (b_stack b) as [|x r]; auto. right.
    destruct (map_lengths f x Hf) as [c [Hc [E|[E ->]]]]; exists c || exists 1%Z; rewrite E; auto. }
  unfold costs.
  destruct e as [o| | | | | | | | | | | | | | | | | | | | | | | | | | | | | | | | | | | | | | | | |
                 | | | | | | | | | | | | | | | | | | | | | | | | | | | | | | | | | | | |];
    try exact Fx; try (apply Ec; lia).
  - destruct o; try exact Fx; right; apply Cv; lia.
  - cbn [cost_of]. destruct (ecdsa_cost ecdsaVerifyCosts Index_) as [H|[c [H Hc]]]; auto.
    + intros c [<-|[<-|[]]]; lia.
    + right; eauto.
  - cbn [cost_of]. destruct (ecdsa_cost ecdsaDecompressCosts Index_) as [H|[c [H Hc]]]; auto.
    + intros c [<-|[<-|[]]]; lia.
    + right; eauto.
  - apply Ml. intros l. unfold base64_cost.
    pose proof (Z.div_pos (Z.of_N l) 16). destruct (_ >? _)%Z; lia.
  - apply Ml. intros l. unfold json_cost.
    pose proof (Z.div_pos (2 * Z.of_N l) 7). destruct (_ >? _)%Z; lia.
Qed.

(* ------------------------------------------------------------------------------------------ *)
Definition reset (v : vm) : vm := set_trig [] (set_error false v).

(* the branch after paying for instruction e *)
Definition pay (e : expr) (c : Z) (b : branch) : branch :=
  set_trace (b_trace b ++ [e]) (set_budget (b_budget b - c) b).

Lemma put_put k a b v : put k b (put k a v) = put k b v.
Proof. unfold put. destruct v; cbn. rewrite upd_nth_twice. reflexivity. Qed.

Lemma nth_put_same k b b' v :
  nth_error (v_branches v) k = Some b -> nth_error (v_branches (put k b' v)) k = Some b'.
Proof. intros H. cbn. rewrite nth_upd_nth_same, H. reflexivity. Qed.

Lemma nth_put_other k j b' v :
  k <> j -> nth_error (v_branches (put k b' v)) j = nth_error (v_branches v) j.
Proof. intros H. cbn. apply nth_upd_nth_other; exact H. Qed.

Inductive stepped (v1 : vm) (k : nat) (b : branch) (e : expr) : res vm -> Prop :=
| ST_cost_panic :
    cost_of e (v_version v1) b = Panic -> stepped v1 k b e (Ret (set_error true v1))
| ST_broke c :
    costs e (v_version v1) b c -> (1 <= c)%Z -> (b_budget b < c)%Z ->
    stepped v1 k b e (Ret (put k (exit_branch b) v1))
| ST_panic c v3 :
    costs e (v_version v1) b c -> (1 <= c <= b_budget b)%Z ->
    execute e k (put k (pay e c b) v1) = (v3, Panic) ->
    stepped v1 k b e (Ret (set_error true v3))
| ST_diverge c v3 :
    costs e (v_version v1) b c -> (1 <= c <= b_budget b)%Z ->
    execute e k (put k (pay e c b) v1) = (v3, OutOfFuel) ->
    stepped v1 k b e OutOfFuel
| ST_ok c v3 b3 b4 t4 ok v5 b5 :
    costs e (v_version v1) b c -> (1 <= c <= b_budget b)%Z ->
    execute e k (put k (pay e c b) v1) = (v3, Ret tt) ->
    nth_error (v_branches v3) k = Some b3 ->
    skip_nops (v_listing v3) (v_bps v3) b3 (v_trig v3) = (b4, t4, ok) ->
    vm_skip_nops (set_trig t4 (put k b4 v3)) = Ret v5 ->
    skip_post (set_trig t4 (put k b4 v3)) v5 ->
    nth_error (v_branches v5) k = Some b5 ->
    stepped v1 k b e (Ret (set_trig (update_bps (v_bps v5) b5 (v_trig v5)) v5)).

Inductive step_spec (v : vm) (v1 : vm) : res vm -> Prop :=
| SS_none : v_branch v1 = None -> step_spec v v1 (Ret v1)
| SS_some k b i e r :
    v_branch v1 = Some k -> k = v_current v1 -> nth_error (v_branches v1) k = Some b ->
    b_line b = Some i -> nth_error (v_listing v1) i = Some e -> is_nop e = false ->
    stepped v1 k b e r -> step_spec v v1 r.

Lemma ext_nth n k v v' b :
  ext n k v v' -> nth_error (v_branches v) k = Some b ->
  exists b', nth_error (v_branches v') k = Some b' /\
    b_id b' = b_id b /\ b_budget b' = b_budget b /\ b_trace b' = b_trace b.
Proof.
  intros [_ H] Hb. destruct (H b Hb) as [b' [new [A1 [A2 [A3 [A4 _]]]]]].
  exists b'. rewrite A1, nth_error_app1, nth_upd_nth_same, Hb; cbn; auto.
  rewrite upd_nth_length. eapply nth_error_lt; eauto.
Qed.

Lemma Forall2_nth {A B} (R : A -> B -> Prop) xs ys k x :
  Forall2 R xs ys -> nth_error xs k = Some x -> exists y, nth_error ys k = Some y /\ R x y.
Proof.
  intros H. revert k; induction H as [|a b xs ys Hab H IH]; intros [|k] E; cbn in *; try discriminate.
  - injection E as <-. eauto.
  - eauto.
Qed.

Lemma Forall2_nth_r {A B} (R : A -> B -> Prop) xs ys k y :
  Forall2 R xs ys -> nth_error ys k = Some y -> exists x, nth_error xs k = Some x /\ R x y.
Proof.
  intros H. revert k; induction H as [|a b xs ys Hab H IH]; intros [|k] E; cbn in *; try discriminate.
  - injection E as <-. eauto.
  - eauto.
Qed.

Lemma charge_stepped v1 k b i e c :
  nth_error (v_branches v1) k = Some b -> b_line b = Some i ->
  nth_error (v_listing v1) i = Some e ->
  v_current v1 < length (v_branches v1) ->
  costs e (v_version v1) b c -> (1 <= c)%Z ->
  forall v' r, charge e c k v1 = (v', r) ->
  stepped v1 k b e (match r with Ret _ => Ret v' | Panic => Ret (set_error true v') | OutOfFuel => OutOfFuel end).
Proof.
  intros Hb Hl He Hc Hcost Hpos v' r E.
  unfold charge, bind at 1, get_b in E. rewrite Hb in E.
  destruct (Z.geb_spec (b_budget b) c) as [Hge|Hlt].
  - unfold bind at 1, mod_b in E. rewrite Hb in E.
    fold (pay e c b) in E.
    unfold bind at 1 in E.
    destruct (execute e k (put k (pay e c b) v1)) as [v3 [[]| |]] eqn:Ex.
    + pose proof (Ext_execute e k _ _ _ Ex) as X.
      destruct (ext_nth _ _ _ _ _ X (nth_put_same k b (pay e c b) v1 Hb)) as [b3 [Hb3 _]].
      unfold bind at 1 in E. rewrite Hb3 in E.
      destruct (skip_nops (v_listing v3) (v_bps v3) b3 (v_trig v3)) as [[b4 t4] ok] eqn:Es.
      unfold bind in E.
      assert (Hc4 : v_current (set_trig t4 (put k b4 v3)) < length (v_branches (set_trig t4 (put k b4 v3)))).
      { cbn. rewrite upd_nth_length. destruct X as [[_ [_ [_ [X4 _]]]] X]. rewrite X4. cbn.
        destruct (X _ (nth_put_same k b (pay e c b) v1 Hb)) as [b' [new [A1 _]]].
        rewrite A1, app_length, upd_nth_length. cbn. rewrite upd_nth_length. lia. }
      destruct (vm_skip_nops_spec _ Hc4) as [v5 [E5 P5]]. rewrite E5 in E.
      destruct P5 as [P51 [P52 [P53 P5r]]].
      destruct (Forall2_nth _ _ _ k b4 P53) as [b5 [Hb5 _]].
      { cbn. rewrite nth_upd_nth_same, Hb3. reflexivity. }
      rewrite Hb5 in E. injection E as <- <-.
      eapply ST_ok; eauto; try lia.
      repeat split; try apply P51; try apply P5r; auto.
    + injection E as <- <-. eapply ST_panic; eauto; lia.
    + injection E as <- <-. eapply ST_diverge; eauto; lia.
  - unfold exit_m, mod_b in E. rewrite Hb in E. injection E as <- <-.
    eapply ST_broke; eauto; lia.
Qed.

Lemma bind_lift {A B} (r : A) (f : A -> M B) k v : bind (lift (Ret r)) f k v = f r k v.
Proof. reflexivity. Qed.

Lemma bind_ret_r (m : M unit) k v :
  bind m (fun _ => ret tt) k v = m k v.
Proof.
  unfold bind, ret. destruct (m k v) as [v' [[]| |]]; reflexivity.
Qed.

Lemma step_cases v :
  v_current v < length (v_branches v) ->
  exists v1, vm_skip_nops (reset v) = Ret v1 /\ skip_post (reset v) v1 /\ step_spec v v1 (step v).
Proof.
  intros Hc. destruct (vm_skip_nops_spec (reset v)) as [v1 [E1 P1]]; [exact Hc|].
  exists v1. split; [exact E1|]. split; [exact P1|].
  unfold step. fold (reset v). rewrite E1.
  destruct P1 as [Q1 [Q2 [Q3 [Q4 [Q5 Q6]]]]].
  destruct (v_branch v1) as [k|] eqn:Ek; [|apply SS_none; exact Ek].
  destruct Q6 as [Hk [b [i [e [Hb [Hl [He Hn]]]]]]].
  assert (El : v_listing v1 = v_listing (reset v)) by apply Q1.
  rewrite <- El in He.
  eapply SS_some; eauto.
  unfold step_branch, bind at 1, get_b. rewrite Hb, Hl.
  unfold index. rewrite He. rewrite bind_lift.
  destruct (cost_cases e (v_version v1) b) as [Hp|[c [Hcost Hpos]]].
  - rewrite Hp. cbn. apply ST_cost_panic. exact Hp.
  - assert (Eq : (bind (lift (cost_of e (v_version v1) b))
                  (fun costs => each (charge e) match costs with [] => [1%Z] | _ :: _ => costs end)) k v1
                 = charge e c k v1).
    { destruct Hcost as [Hr|[Hr ->]]; rewrite Hr; rewrite bind_lift; cbn [each];
        apply bind_ret_r. }
    rewrite Eq. destruct (charge e c k v1) as [v' r] eqn:Ec.
    pose proof (charge_stepped v1 k b i e c Hb Hl He Q2 Hcost Hpos v' r Ec) as G.
    destruct r; exact G.
Qed.
