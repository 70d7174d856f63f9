From Verif Require Import Base Semantics.
From Coq Require Import ZifyBool.

Lemma u32_fits x : fits32 x -> u32 x = x.
Proof. unfold fits32, u32. intros H. apply Z.mod_small. lia. Qed.

Lemma less_false a b : st_less b a = false <-> in_order a b.
Proof.
  unfold st_less, in_order. destruct (Z.eqb_spec (st_line b) (st_line a)) as [E|E].
  - rewrite Z.ltb_ge. lia.
  - rewrite Z.ltb_ge. lia.
Qed.

Lemma sorted_order s : sorted_by_less s <-> StronglySorted in_order s.
Proof.
  unfold sorted_by_less. split; induction 1 as [|a s H IH F]; constructor; auto;
    (eapply Forall_impl; [|exact F]); intros b; apply less_false.
Qed.

Lemma encode_decode prev ts :
  StronglySorted in_order (prev :: ts) -> token_fits prev -> Forall token_fits ts ->
  decode_from (st_line prev) (st_index prev) (encode_from prev ts) = Some ts.
Proof.
  revert prev. induction ts as [|t ts IH]; intros prev S P F; [reflexivity|].
  inversion S as [|? ? S' Hp]; subst. inversion F as [|? ? Ht F']; subst.
  inversion Hp as [|? ? Ho _]; subst.
  pose proof Ht as [T1 [T2 [T3 [T4 T5]]]]. pose proof P as [P1 [P2 _]].
  cbn [encode_from decode_from].
  rewrite (u32_fits (st_line t - st_line prev)) by (unfold fits32 in *; destruct Ho; lia).
  rewrite !(u32_fits (st_length t)), !(u32_fits (st_type t)), !(u32_fits (st_modifiers t)) by assumption.
  replace (st_line prev + (st_line t - st_line prev))%Z with (st_line t) by lia.
  assert (Q : (if (st_line t - st_line prev =? 0)%Z
               then (st_index prev + (if (st_line t =? st_line prev)%Z
                       then u32 (st_index t - st_index prev) else u32 (st_index t)))%Z
               else (if (st_line t =? st_line prev)%Z
                       then u32 (st_index t - st_index prev) else u32 (st_index t))) = st_index t).
  { destruct (Z.eqb_spec (st_line t) (st_line prev)) as [E|E].
    - destruct (Z.eqb_spec (st_line t - st_line prev) 0); [|lia].
      destruct Ho as [Ho|[_ Ho]]; [lia|]. rewrite u32_fits by (unfold fits32 in *; lia). lia.
    - destruct (Z.eqb_spec (st_line t - st_line prev) 0); [lia|]. apply u32_fits; assumption. }
  rewrite Q. rewrite IH by assumption. destruct t; reflexivity.
Qed.

(* every result of Encode decodes to the tokens in document order *)
Theorem encode_lossless ts r :
  Forall token_fits ts -> encodes ts r ->
  exists s, decode r = Some s /\ Permutation ts s /\ StronglySorted in_order s.
Proof.
  intros F [s [[P S] ->]]. exists s. apply sorted_order in S.
  assert (Fs : Forall token_fits s) by (eapply Permutation_Forall; eauto).
  split; [|auto]. unfold decode.
  change 0%Z with (st_line (SToken 0 0 0 0 0)) at 1.
  change 0%Z with (st_index (SToken 0 0 0 0 0)) at 6.
  apply encode_decode; [|repeat split; cbn; lia|exact Fs].
  constructor; [exact S|]. eapply Forall_impl; [|exact Fs].
  intros t [[H1 _] [[H2 _] _]]. unfold in_order. cbn. lia.
Qed.

(* Encode returns five numbers per token *)
Theorem encode_length ts r : encodes ts r -> length r = 5 * length ts.
Proof.
  intros [s [[P _] ->]]. rewrite (Permutation_length P). clear.
  generalize (SToken 0 0 0 0 0). induction s as [|t s IH]; intros p; [reflexivity|].
  cbn [encode_from length]. rewrite IH. lia.
Qed.

(* tokens at different positions: the result does not depend on the sorting algorithm *)
Definition same_place (a b : stoken) : Prop := st_line a = st_line b /\ st_index a = st_index b.

Theorem encode_unique ts r r' :
  (forall a b, In a ts -> In b ts -> same_place a b -> a = b) ->
  encodes ts r -> encodes ts r' -> r = r'.
Proof.
  intros D [s [[P S] ->]] [s' [[P' S'] ->]]. f_equal. apply sorted_order in S, S'.
  assert (D1 : forall a b, In a s -> In b s -> same_place a b -> a = b).
  { intros a b Ha Hb. apply D; (eapply Permutation_in; [apply Permutation_sym; exact P|assumption]). }
  assert (Q : Permutation s s') by (eapply Permutation_trans; [apply Permutation_sym; exact P|exact P']).
  clear - D1 Q S S'. revert s' Q S'. induction S as [|a s S IH Ha]; intros s' Q S'.
  - apply Permutation_nil in Q. congruence.
  - destruct s' as [|b s']; [apply Permutation_sym, Permutation_nil in Q; discriminate|].
    inversion S' as [|? ? S'' Hb]; subst.
    assert (E : a = b).
    { assert (Ia : In a (b :: s')) by (eapply Permutation_in; [exact Q|left; reflexivity]).
      assert (Ib : In b (a :: s)) by (eapply Permutation_in; [apply Permutation_sym; exact Q|left; reflexivity]).
      destruct Ia as [Ia|Ia]; [auto|]. destruct Ib as [Ib|Ib]; [auto|].
      rewrite Forall_forall in Ha, Hb. pose proof (Ha _ Ib) as O1. pose proof (Hb _ Ia) as O2.
      apply D1; [left; reflexivity|right; exact Ib|].
      unfold in_order, same_place in *. lia. }
    subst b. f_equal. apply IH; [|eapply Permutation_cons_inv; exact Q|exact S''].
    intros x y Hx Hy. apply D1; right; assumption.
Qed.

(* a sorted order always exists *)
Fixpoint insert (t : stoken) (s : list stoken) : list stoken :=
  match s with
  | [] => [t]
  | x :: r => if st_less x t then x :: insert t r else t :: s
  end.

Lemma insert_perm t s : Permutation (t :: s) (insert t s).
Proof.
  induction s as [|x s IH]; cbn; [auto|]. destruct (st_less x t); [|auto].
  eapply perm_trans; [apply perm_swap|]. constructor. exact IH.
Qed.

Lemma less_trans a b c : in_order a b -> in_order b c -> in_order a c.
Proof. unfold in_order. lia. Qed.

Lemma insert_sorted t s : StronglySorted in_order s -> StronglySorted in_order (insert t s).
Proof.
  induction 1 as [|x s S IH F]; cbn; [repeat constructor|].
  destruct (st_less x t) eqn:E.
  - constructor; [exact IH|].
    eapply Permutation_Forall; [apply insert_perm|]. constructor; [|exact F].
    unfold st_less in E. unfold in_order. destruct (Z.eqb_spec (st_line x) (st_line t)); lia.
  - apply less_false in E. constructor; [constructor; assumption|].
    constructor; [exact E|]. eapply Forall_impl; [|exact F]. intros y. apply less_trans. exact E.
Qed.

Theorem encode_exists ts : exists r, encodes ts r.
Proof.
  assert (H : exists s, go_sort ts s).
  { induction ts as [|t ts [s [P S]]].
    - exists []. split; [constructor|constructor].
    - exists (insert t s). split.
      + eapply perm_trans; [constructor; exact P|apply insert_perm].
      + apply sorted_order, insert_sorted, sorted_order, S. }
  destruct H as [s H]. eexists. exists s. split; [exact H|reflexivity].
Qed.

(* ------------------------------------------------------------------------------------------ *)
Theorem overlaps_sym a b : overlaps a b = overlaps b a.
Proof. unfold overlaps. lia. Qed.

Theorem overlaps_single_line a b :
  single_line a -> single_line b -> proper a -> proper b ->
  (overlaps a b = true <-> exists l c, in_range a l c /\ in_range b l c).
Proof.
  unfold single_line, proper, in_range, overlaps. intros Ha Hb Pa Pb. split.
  - intros H. exists (r_sl a), (Z.max (r_sc a) (r_sc b)). lia.
  - intros [l [c [H1 H2]]]. lia.
Qed.

Theorem overlaps_sound a b : proper a -> proper b -> overlaps a b = true ->
  exists l c, in_range a l c /\ in_range b l c.
Proof.
  unfold proper, in_range, overlaps. intros Pa Pb H. rewrite !andb_true_iff, !Z.leb_le in H.
  destruct H as [[[H1 H2] H3] H4].
  assert (K : (r_sl a < r_sl b \/ (r_sl a = r_sl b /\ r_sc a <= r_sc b))%Z \/
              (r_sl b < r_sl a \/ (r_sl b = r_sl a /\ r_sc b <= r_sc a))%Z) by lia.
  destruct K as [K|K]; [exists (r_sl b), (r_sc b)|exists (r_sl a), (r_sc a)]; lia.
Qed.
