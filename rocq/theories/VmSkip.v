(* Proofs about Vm.skipNops: the search for a branch that is still in the program. *)
From Verif Require Import Base Expr Fields VmOps Vm VmProofs.
From Coq Require Import ZifyBool ZifyNat ZifyN.

(* ------------------------------------------------------------------------------------------ *)
(* Vm.skipNops *)
Definition left_program (l : listing) (b : branch) : Prop :=
  forall i, b_line b = Some i -> length l <= i.

Definition settle (l : listing) (b b' : branch) : Prop :=
  b_id b' = b_id b /\ b_stack b' = b_stack b /\ b_frames b' = b_frames b /\
  b_budget b' = b_budget b /\ b_trace b' = b_trace b /\
  (b_line b' = b_line b \/ b_line b' = land l (b_line b) \/
   (b_line b' = None /\ exists i, land l (b_line b) = Some i /\ length l <= i)).

Lemma settle_refl l b : settle l b b.
Proof. repeat split; auto. Qed.

Lemma land_land l x : land l (land l x) = land l x.
Proof. apply land_of_landed, land_landed. Qed.

Lemma settle_trans l a b c : settle l a b -> settle l b c -> settle l a c.
Proof.
  intros [A1 [A2 [A3 [A4 [A5 A6]]]]] [B1 [B2 [B3 [B4 [B5 B6]]]]].
  repeat split; try congruence.
  destruct A6 as [A6|[A6|[A6 A7]]]; rewrite A6 in B6; try rewrite land_land in B6; auto.
  - destruct B6 as [B6|[B6|B6]]; auto.
  - right; right. destruct B6 as [B6|[B6|[B6 _]]]; cbn in B6; auto.
Qed.

Lemma settle_landed l b b' : settle l b b' -> landed l (b_line b) -> landed l (b_line b').
Proof.
  intros [_ [_ [_ [_ [_ [E|[E|[E _]]]]]]]] H; rewrite E; auto.
  - apply land_landed.
  - intros i e Hi; discriminate.
Qed.

Lemma Forall2_upd {A} (R : A -> A -> Prop) k x y xs ys :
  Forall2 R xs ys -> (forall a, R a a) ->
  nth_error ys k = Some x -> (forall a, R a x -> R a y) ->
  Forall2 R xs (upd_nth k (fun _ => y) ys).
Proof.
  intros H Hr. revert k; induction H as [|a b xs ys Hab H IH]; intros k Hk Hx.
  - destruct k; discriminate.
  - destruct k as [|k]; cbn in *.
    + injection Hk as ->. constructor; auto.
    + constructor; auto.
Qed.

Definition same_skip_env (v v' : vm) : Prop :=
  v_id v' = v_id v /\ v_listing v' = v_listing v /\ v_version v' = v_version v /\
  v_scratch v' = v_scratch v /\ v_bps v' = v_bps v /\ v_error v' = v_error v.

Lemma same_skip_env_refl v : same_skip_env v v.
Proof. repeat split. Qed.

Lemma same_skip_env_trans a b c :
  same_skip_env a b -> same_skip_env b c -> same_skip_env a c.
Proof. intros [A1 [A2 [A3 [A4 [A5 A6]]]]] [B1 [B2 [B3 [B4 [B5 B6]]]]]. repeat split; congruence. Qed.

Definition visited (begin cur j : nat) : Prop :=
  if begin <=? cur then begin <= j < cur else begin <= j \/ j < cur.
Definition remaining (n begin cur : nat) : nat :=
  if begin <=? cur then n - (cur - begin) else begin - cur.

Definition all_landed (v : vm) : Prop :=
  forall b, In b (v_branches v) -> landed (v_listing v) (b_line b).

Definition skip_post (v v' : vm) : Prop :=
  same_skip_env v v' /\ v_current v' < length (v_branches v') /\
  Forall2 (settle (v_listing v)) (v_branches v) (v_branches v') /\
  (all_landed v -> v_trig v' = v_trig v) /\
  (v_bps v = [] -> v_trig v' = v_trig v) /\
  match v_branch v' with
  | Some k => k = v_current v' /\ exists b i e, nth_error (v_branches v') k = Some b /\
                b_line b = Some i /\ nth_error (v_listing v) i = Some e /\ is_nop e = false
  | None => forall b, In b (v_branches v') -> b_line b = None
  end.

Lemma skip_no_bps l b t : snd (fst (skip_nops l [] b t)) = t.
Proof.
  unfold skip_nops. destruct (b_line b) as [i|]; [|reflexivity].
  assert (G : forall ops i b, snd (fst (skip_from ops i [] b t)) = t).
  { induction ops as [|op ops IH]; intros j c; cbn; [reflexivity|].
    destruct (is_nop op); [|reflexivity]. apply IH. }
  apply G.
Qed.

Lemma skip_loop_spec : forall fuel begin v,
  begin < length (v_branches v) -> v_current v < length (v_branches v) ->
  (forall j b, visited begin (v_current v) j -> nth_error (v_branches v) j = Some b ->
               b_line b = None) ->
  (2 * remaining (length (v_branches v)) begin (v_current v) -
     (match nth_error (v_branches v) (v_current v) with
      | Some b => match b_line b with None => 1 | Some _ => 0 end | None => 0 end) < fuel) ->
  exists v', skip_loop fuel begin v = Ret v' /\ skip_post v v'.
Proof.
  induction fuel as [|fuel IH]; intros begin v Hbeg Hcur Hvis Hfuel; [lia|].
  cbn [skip_loop].
  destruct (nth_lt_some _ _ Hcur) as [b Hb]. rewrite Hb in Hfuel |- *.
  destruct (b_line b) as [i|] eqn:El.
  - destruct (skip_nops (v_listing v) (v_bps v) b (v_trig v)) as [[b' t'] ok] eqn:Es.
    assert (Hset : settle (v_listing v) b b').
    { destruct (skip_nops_spec _ _ _ _ _ _ _ Es) as [A1 [A2 [A3 [A4 [A5 [A6 _]]]]]].
      repeat split; auto. }
    assert (Htrig : all_landed v -> t' = v_trig v /\ b' = b).
    { intros Hal. destruct (skip_nops_landed (v_listing v) (v_bps v) b (v_trig v)) as [ok' [Q _]].
      - apply Hal. eapply nth_error_In; eauto.
      - rewrite Q in Es. injection Es as <- <- <-. auto. }
    assert (Htrig0 : v_bps v = [] -> t' = v_trig v).
    { intros E. pose proof (skip_no_bps (v_listing v) b (v_trig v)) as G.
      rewrite <- E in G at 1. rewrite Es in G. exact G. }
    destruct ok.
    + eexists; split; [reflexivity|].
      split; [repeat split|]. cbn. split; [rewrite upd_nth_length; exact Hcur|].
      split.
      { eapply Forall2_upd; [|intros; apply settle_refl|exact Hb|].
        - clear. induction (v_branches v); constructor; auto using settle_refl.
        - intros a Ha. eapply settle_trans; eauto. }
      split; [intros Hal; apply (Htrig Hal)|]. split; [exact Htrig0|].
      split; [reflexivity|].
      destruct (skip_nops_spec _ _ _ _ _ _ _ Es) as [_ [_ [_ [_ [_ [A6 [A7 _]]]]]]].
      destruct (proj1 A7 eq_refl) as [j [Hj Hlt]].
      destruct (nth_lt_some _ _ Hlt) as [e He].
      exists b', j, e. rewrite nth_upd_nth_same, Hb.
      split; [reflexivity|]. split; [congruence|]. split; [exact He|].
      eapply land_landed; eauto.
    + set (v1 := put _ (exit_branch b') _).
      assert (Hlen : length (v_branches v1) = length (v_branches v)).
      { unfold v1; cbn. rewrite !upd_nth_length. reflexivity. }
      destruct (IH begin v1) as [v' [E P]].
      * rewrite Hlen; exact Hbeg.
      * rewrite Hlen; exact Hcur.
      * intros j bj Hj Hn. unfold v1 in Hn; cbn in Hn, Hj.
        rewrite upd_nth_twice in Hn.
        destruct (Nat.eq_dec (v_current v) j) as [<-|Hne].
        -- rewrite nth_upd_nth_same, Hb in Hn. injection Hn as <-. reflexivity.
        -- rewrite nth_upd_nth_other in Hn by exact Hne. eapply Hvis; eauto.
      * assert (Hnth : nth_error (v_branches v1) (v_current v1) = Some (exit_branch b')).
        { unfold v1; cbn. rewrite upd_nth_twice, nth_upd_nth_same, Hb. reflexivity. }
        rewrite Hlen, Hnth. cbn [b_line exit_branch set_name set_line].
        assert (remaining (length (v_branches v)) begin (v_current v) > 0).
        { unfold remaining. destruct (Nat.leb_spec begin (v_current v)); lia. }
        change (v_current v1) with (v_current v). lia.
      * exists v'. split; [exact E|].
        destruct P as [P1 [P2 [P3 [P4 [P5 P6]]]]].
        assert (Hx : settle (v_listing v) b (exit_branch b')).
        { destruct (skip_nops_spec _ _ _ _ _ _ _ Es) as [A1 [A2 [A3 [A4 [A5 [A6 [A7 _]]]]]]].
          repeat split; auto. right; right. split; [reflexivity|].
          rewrite El in *. cbn [land option_map] in *.
          eexists; split; [reflexivity|].
          destruct (le_lt_dec (length (v_listing v)) (first_op (skipn i (v_listing v)) i)) as [|Hlt];
            [assumption|].
          exfalso. assert (false = true) by (apply A7; eauto). discriminate. }
        split; [eapply same_skip_env_trans; [|exact P1]; repeat split|].
        split; [exact P2|].
        split.
        { assert (Q : Forall2 (settle (v_listing v)) (v_branches v) (v_branches v1)).
          { unfold v1; cbn. rewrite upd_nth_twice.
            eapply Forall2_upd; [|intros; apply settle_refl|exact Hb|].
            - clear. induction (v_branches v); constructor; auto using settle_refl.
            - intros a Ha. eapply settle_trans; eauto. }
          change (v_listing v1) with (v_listing v) in P3.
          clear - Q P3. revert Q P3. generalize (v_branches v), (v_branches v1), (v_branches v').
          intros xs ys zs Q. revert zs. induction Q; intros zs P; inversion P; subst; constructor; auto.
          eapply settle_trans; eauto. }
        split.
        { intros Hal. rewrite P4.
          - destruct (Htrig Hal) as [-> _]. reflexivity.
          - intros x Hx'. unfold v1 in Hx'; cbn in Hx'. change (v_listing v1) with (v_listing v).
            rewrite upd_nth_twice in Hx'. apply In_nth_error in Hx'. destruct Hx' as [j Hj].
            destruct (Nat.eq_dec (v_current v) j) as [<-|Hne].
            + rewrite nth_upd_nth_same, Hb in Hj. injection Hj as <-. intros ? ? Q; discriminate.
            + rewrite nth_upd_nth_other in Hj by exact Hne. apply Hal. eapply nth_error_In; eauto. }
        split; [intros Hn; rewrite (P5 Hn); exact (Htrig0 Hn)|].
        exact P6.
  - set (c := if S (v_current v) =? length (v_branches v) then 0 else S (v_current v)).
    assert (Hc : c < length (v_branches v)).
    { unfold c. destruct (Nat.eqb_spec (S (v_current v)) (length (v_branches v))); lia. }
    cbn zeta. destruct (Nat.eqb_spec c begin) as [Hcb|Hcb].
    + eexists; split; [reflexivity|].
      split; [repeat split|]. cbn. split; [exact Hc|].
      split; [clear; induction (v_branches v); constructor; auto using settle_refl|].
      split; [reflexivity|]. split; [reflexivity|].
      intros x Hx. apply In_nth_error in Hx. destruct Hx as [j Hj].
      destruct (Nat.eq_dec j (v_current v)) as [->|Hne]; [congruence|].
      apply (Hvis j); [|exact Hj]. apply nth_error_lt in Hj.
      unfold visited. unfold c in Hcb. destruct (Nat.eqb_spec (S (v_current v)) (length (v_branches v)));
        destruct (Nat.leb_spec begin (v_current v)); lia.
    + destruct (IH begin (set_current c v)) as [v' [E P]].
      * exact Hbeg.
      * exact Hc.
      * cbn. intros j bj Hj Hn.
        destruct (Nat.eq_dec j (v_current v)) as [->|Hne]; [congruence|].
        apply (Hvis j); [|exact Hn]. apply nth_error_lt in Hn.
        unfold visited in *. unfold c in *.
        destruct (Nat.eqb_spec (S (v_current v)) (length (v_branches v)));
          destruct (Nat.leb_spec begin (v_current v));
          match type of Hj with if ?x <=? ?y then _ else _ => destruct (Nat.leb_spec x y) end; lia.
      * cbn [set_current v_branches v_current].
        assert (R : S (remaining (length (v_branches v)) begin c) =
                    remaining (length (v_branches v)) begin (v_current v)).
        { unfold remaining, c in *.
          destruct (Nat.eqb_spec (S (v_current v)) (length (v_branches v)));
          destruct (Nat.leb_spec begin (v_current v));
          match goal with |- S (if ?x <=? ?y then _ else _) = _ => destruct (Nat.leb_spec x y) end; lia. }
        lia.
      * exists v'. split; [exact E|]. exact P.
Qed.

Lemma vm_skip_nops_spec v :
  v_current v < length (v_branches v) ->
  exists v', vm_skip_nops v = Ret v' /\ skip_post v v'.
Proof.
  intros H. unfold vm_skip_nops. apply skip_loop_spec; auto.
  - intros j b Hv. unfold visited in Hv.
    destruct (Nat.leb_spec (v_current v) (v_current v)); lia.
  - unfold remaining. destruct (Nat.leb_spec (v_current v) (v_current v)); [|lia].
    rewrite Nat.sub_diag, Nat.sub_0_r.
    destruct (nth_error _ _) as [b|]; [|lia]. destruct (b_line b); lia.
Qed.
