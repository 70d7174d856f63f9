(* Lemmas about the control-flow specification, and the deletion theorem: removing lines of
   certain kinds from a listing does not change its behaviour. *)
From Verif Require Import Base Expr Flow LintSpec.

Lemma is_nop_silent e : is_nop e = true <-> silent e.
Proof.
  split; [| intros []; reflexivity].
  destruct e; cbn; intros H; try discriminate; constructor.
Qed.

Lemma is_nop_not_silent e : is_nop e = false <-> ~ silent e.
Proof.
  rewrite <- is_nop_silent. destruct (is_nop e); split; congruence.
Qed.

Lemma is_uncond_unconditional e : is_uncond e = true <-> unconditional e.
Proof.
  split; [| intros []; reflexivity].
  destruct e; cbn; intros H; try discriminate; constructor.
Qed.

Lemma names_uses e n : names e n <-> In n (uses e).
Proof.
  split.
  - intros []; cbn; auto.
  - destruct e; cbn; intros H; try contradiction;
      try (destruct H as [<- | []]; constructor); constructor; assumption.
Qed.

(* classification used by every case analysis on fstep *)
Lemma cond_target_names e k n : cond_target e k n -> names e n.
Proof.
  intros []; constructor; eauto using nth_error_In.
Qed.

Lemma fstep_progress l pc ks : exists ev c, fstep l (At pc ks) ev c.
Proof.
  assert (G : forall n ks, exists c, goto l n ks c).
  { intros n ks'. destruct (existsb (fun e => match label_def e with Some m => seqb m n | None => false end) l) eqn:E.
    - apply existsb_exists in E as (e & Hin & He).
      destruct e; cbn in He; try discriminate. apply seqb_eq in He; subst.
      apply In_nth_error in Hin as [k Hk]. eexists; apply goto_def; exact Hk.
    - eexists; apply goto_missing. intros k Hk.
      enough (existsb (fun e => match label_def e with Some m => seqb m n | None => false end) l = true) by congruence.
      apply existsb_exists. exists (LabelExpr n). split; [eapply nth_error_In; exact Hk|].
      cbn. apply seqb_refl. }
  destruct (nth_error l pc) as [e|] eqn:E.
  - destruct e;
      try (eexists _, _; eapply F_plain; [exact E | exact I]);
      try (eexists _, _; eapply F_silent; [exact E | constructor]);
      try (eexists _, _; eapply F_cond_next; [exact E | constructor]).
    + eexists _, _; eapply F_err; exact E.
    + destruct ks; [eexists _, _; eapply F_retsub_fail; exact E | eexists _, _; eapply F_retsub; exact E].
    + eexists _, _; eapply F_return; exact E.
    + destruct (G Label_ ks) as [c Hc]. eexists _, _; eapply F_b; eauto.
    + destruct (G Label_ (S pc :: ks)) as [c Hc]. eexists _, _; eapply F_callsub; eauto.
  - eexists _, _; apply F_end. apply nth_error_None; exact E.
Qed.

Lemma fstep_silent_inv l pc ks e ev c :
  nth_error l pc = Some e -> silent e -> fstep l (At pc ks) ev c -> ev = None /\ c = At (S pc) ks.
Proof.
  intros He Hs Hst. remember (At pc ks) as c0 eqn:E0.
  assert (pc < length l) by (apply nth_error_Some; congruence).
  destruct Hst; try (injection E0; intros; subst); try lia; auto; exfalso;
    rewrite He in *;
    repeat match goal with H : Some _ = Some _ |- _ => injection H as ? end; subst;
    inversion Hs; subst; try discriminate; try contradiction;
    match goal with
    | H : conditional _ |- _ => inversion H
    | H : cond_target _ _ _ |- _ => inversion H
    end.
Qed.

Lemma fstep_b_inv l pc ks n ev c :
  nth_error l pc = Some (BExpr n) -> fstep l (At pc ks) ev c -> ev = None /\ goto l n ks c.
Proof.
  intros He Hst. remember (At pc ks) as c0 eqn:E0.
  assert (pc < length l) by (apply nth_error_Some; congruence).
  destruct Hst; try (injection E0; intros; subst); try lia; rewrite He in *;
    try discriminate;
    match goal with H : Some _ = Some _ |- _ => injection H as ? end; subst; auto; exfalso;
    try contradiction;
    match goal with
    | H : silent _ |- _ => inversion H
    | H : conditional _ |- _ => inversion H
    | H : cond_target _ _ _ |- _ => inversion H
    end.
Qed.

Lemma run_trans l c1 c2 c3 t1 t2 : run l c1 t1 c2 -> run l c2 t2 c3 -> run l c1 (t1 ++ t2) c3.
Proof.
  intros H; revert t2 c3. induction H; intros; cbn; eauto using run_quiet, run_event.
Qed.

Lemma run_quiet_l l c1 c2 c3 t : run l c1 [] c2 -> run l c2 t c3 -> run l c1 t c3.
Proof. intros H1 H2. exact (run_trans _ _ _ _ _ _ H1 H2). Qed.

(* ------------------------------------------------------------------ dead lines *)

(* lines after an unconditional transfer with no used label in between are never reached *)
Definition inv_live (l : listing) (c : cfg) : Prop :=
  match c with
  | At pc ks => ~ after_unconditional l pc /\ Forall (fun r => ~ after_unconditional l r) ks
  | Halted => True
  end.

Lemma after_unconditional_S l i e :
  after_unconditional l (S i) -> nth_error l i = Some e -> ~ unconditional e ->
  after_unconditional l i.
Proof.
  intros (j & e' & Hj & He' & Hu & Hno) He Hne.
  assert (j <> i) by (intros ->; rewrite He in He'; injection He' as <-; contradiction).
  exists j, e'. repeat split; auto; try lia.
  intros k n Hk. apply Hno; lia.
Qed.

Lemma used_label_live l i k n : names_at l i n -> defines l k n -> ~ after_unconditional l k.
Proof.
  intros Hn Hd (j & e & Hj & _ & _ & Hno).
  apply (Hno k n); [lia | exact Hd |]. exists i; exact Hn.
Qed.

Lemma goto_live l pc n ks c :
  names_at l pc n -> Forall (fun r => ~ after_unconditional l r) ks -> goto l n ks c -> inv_live l c.
Proof.
  intros Hn Hks []; cbn; auto. split; auto. eapply used_label_live; eauto.
Qed.

Lemma fstep_live l c ev c' : fstep l c ev c' -> inv_live l c -> inv_live l c'.
Proof.
  assert (Hnext : forall pc e, nth_error l pc = Some e -> ~ unconditional e ->
            ~ after_unconditional l pc -> ~ after_unconditional l (S pc)).
  { intros pc e He Hu Hl Hd. apply Hl. eapply after_unconditional_S; eauto. }
  intros []; cbn [inv_live]; auto; intros [Hpc Hks].
  - split; auto. eapply Hnext; eauto. intros U; inversion U; subst; inversion H0.
  - split; auto. eapply Hnext; eauto. intros U; inversion U; subst; exact H0.
  - eapply goto_live; [|exact Hks|exact H0]. exists (BExpr n); split; [exact H|constructor].
  - split; auto. eapply Hnext; eauto. intros U; inversion U; subst; inversion H0.
  - eapply goto_live; [|exact Hks|exact H1]. exists e; split; [exact H|].
    eapply cond_target_names; eauto.
  - eapply goto_live; [|constructor; [|exact Hks]|exact H0].
    + exists (CallSubExpr n); split; [exact H|constructor].
    + eapply Hnext; eauto. intros U; inversion U.
  - inversion Hks; subst. split; auto.
  - split; auto. eapply Hnext; eauto. intros U; inversion U.
Qed.

Lemma run_live l c tr c' : run l c tr c' -> inv_live l c -> inv_live l c'.
Proof. induction 1; eauto using fstep_live. Qed.

Lemma start_live l : inv_live l start.
Proof. split; [|constructor]. intros (j & e & Hj & _). lia. Qed.

Lemma after_unconditional_unreachable l i : after_unconditional l i -> ~ reachable l i.
Proof.
  intros Hd (tr & ks & Hr). pose proof (run_live _ _ _ _ Hr (start_live l)) as [H _].
  contradiction.
Qed.

(* ------------------------------------------------------------------ deleting lines *)

(* the elements of l whose flag is set *)
Fixpoint select {A} (fs : list bool) (l : list A) : list A :=
  match fs, l with
  | f :: fs', x :: l' => if f then x :: select fs' l' else select fs' l'
  | _, _ => []
  end.

(* where line i of l ends up: the number of kept lines before it *)
Fixpoint pos (fs : list bool) (i : nat) : nat :=
  match i, fs with
  | S i', f :: fs' => (if f then 1 else 0) + pos fs' i'
  | _, _ => 0
  end.

Lemma pos_0 fs : pos fs 0 = 0.
Proof. destruct fs; reflexivity. Qed.

Lemma pos_S fs i f : nth_error fs i = Some f -> pos fs (S i) = pos fs i + (if f then 1 else 0).
Proof.
  revert fs; induction i as [|i IH]; intros [|g fs] H; cbn in *; try discriminate.
  - injection H as ->. rewrite pos_0. lia.
  - rewrite (IH fs H). lia.
Qed.

Lemma pos_S_true fs i : nth_error fs i = Some true -> pos fs (S i) = S (pos fs i).
Proof. intros H. rewrite (pos_S _ _ _ H). lia. Qed.

Lemma pos_S_false fs i : nth_error fs i = Some false -> pos fs (S i) = pos fs i.
Proof. intros H. rewrite (pos_S _ _ _ H). lia. Qed.

Lemma pos_end fs i : length fs <= i -> pos fs i = pos fs (length fs).
Proof.
  revert fs; induction i as [|i IH]; intros [|g fs] H; cbn in *; try lia; auto.
  rewrite (IH fs) by lia. reflexivity.
Qed.

Lemma pos_mono fs i j : i <= j -> pos fs i <= pos fs j.
Proof.
  revert fs j; induction i as [|i IH]; intros fs j H; [rewrite pos_0; lia|].
  destruct j as [|j]; [lia|]. destruct fs as [|g fs]; cbn; [lia|].
  specialize (IH fs j). lia.
Qed.

Lemma select_length {A} fs (l : list A) : length fs = length l -> length (select fs l) = pos fs (length l).
Proof.
  revert l; induction fs as [|f fs IH]; intros [|x l] H; cbn in *; try discriminate; auto.
  destruct f; cbn; rewrite IH; auto.
Qed.

Lemma select_nth {A} fs (l : list A) i x :
  nth_error l i = Some x -> nth_error fs i = Some true -> nth_error (select fs l) (pos fs i) = Some x.
Proof.
  revert l i; induction fs as [|f fs IH]; intros l i Hx Hf; [destruct i; discriminate|].
  destruct l as [|y l]; [destruct i; discriminate|].
  destruct i as [|i]; cbn in *.
  - injection Hf as ->. injection Hx as ->. reflexivity.
  - destruct f; cbn; auto.
Qed.

(* every line of the selection comes from exactly one kept line *)
Lemma select_nth_inv {A} fs (l : list A) m x :
  nth_error (select fs l) m = Some x ->
  exists i, nth_error l i = Some x /\ nth_error fs i = Some true /\ pos fs i = m.
Proof.
  revert l m; induction fs as [|f fs IH]; intros l m H; [destruct m; discriminate|].
  destruct l as [|y l]; [destruct m; discriminate|].
  cbn in H. destruct f.
  - destruct m as [|m]; cbn in H.
    + exists 0. repeat split; cbn; congruence.
    + apply IH in H as (i & H1 & H2 & H3). exists (S i). cbn. repeat split; auto.
  - apply IH in H as (i & H1 & H2 & H3). exists (S i). cbn. repeat split; auto.
Qed.

Lemma pos_inj fs i j :
  nth_error fs i = Some true -> nth_error fs j = Some true -> pos fs i = pos fs j -> i = j.
Proof.
  intros Hi Hj H. destruct (lt_eq_lt_dec i j) as [[L|E]|L]; auto; exfalso.
  - pose proof (pos_mono fs (S i) j ltac:(lia)). rewrite (pos_S_true _ _ Hi) in H0. lia.
  - pose proof (pos_mono fs (S j) i ltac:(lia)). rewrite (pos_S_true _ _ Hj) in H0. lia.
Qed.

Section Deletion.
Variables (l : listing) (fs : list bool).
Hypothesis Hlen : length fs = length l.
Hypothesis Huniq : unique_labels l.
(* what may be deleted: a line that is never reached, a no-op, or a b whose own label comes
   next *)
Hypothesis Hdel : forall i e, nth_error l i = Some e -> nth_error fs i = Some false ->
  after_unconditional l i \/ silent e \/
  exists n k, e = BExpr n /\ i < k /\ defines l k n /\
    forall m, i < m < k -> exists e', nth_error l m = Some e' /\ silent e'.
(* a label that some instruction names is not deleted *)
Hypothesis Hkeep : forall i n, defines l i n -> used l n -> nth_error fs i = Some true.

Let l' := select fs l.

Definition rel (c d : cfg) : Prop :=
  match c, d with
  | Halted, Halted => True
  | At pc ks, At q qs =>
      inv_live l c /\ qs = map (pos fs) ks /\ q <= pos fs pc /\
      (forall m, q <= m < pos fs pc -> exists e, nth_error l' m = Some e /\ silent e)
  | _, _ => False
  end.

Lemma rel_exact pc ks : inv_live l (At pc ks) -> rel (At pc ks) (At (pos fs pc) (map (pos fs) ks)).
Proof.
  intros H. split; [exact H|]. split; [reflexivity|]. split; [lia|]. intros m Hm. lia.
Qed.

Lemma flag_at i e : nth_error l i = Some e -> nth_error fs i = Some true \/ nth_error fs i = Some false.
Proof.
  intros H. assert (i < length fs) by (rewrite Hlen; apply nth_error_Some; congruence).
  apply nth_error_Some in H0. destruct (nth_error fs i) as [[]|]; auto. congruence.
Qed.

Lemma quiet_to pc ks q :
  q <= pos fs pc ->
  (forall m, q <= m < pos fs pc -> exists e, nth_error l' m = Some e /\ silent e) ->
  run l' (At q ks) [] (At (pos fs pc) ks).
Proof.
  intros Hle H.
  remember (pos fs pc - q) as d eqn:Hd. revert q Hle H Hd.
  induction d as [|d IH]; intros q Hle H Hd.
  - replace q with (pos fs pc) by lia. constructor.
  - destruct (H q ltac:(lia)) as (e & He & Hs).
    eapply run_quiet; [eapply F_silent; eauto|].
    apply IH; try lia. intros m Hm. apply H. lia.
Qed.

Lemma defines_kept k n : defines l k n -> used l n -> defines l' (pos fs k) n.
Proof. intros Hd Hu. apply select_nth; eauto. Qed.

Lemma defines_inv m n : defines l' m n -> exists k, defines l k n /\ nth_error fs k = Some true /\ pos fs k = m.
Proof. apply select_nth_inv. Qed.

Lemma goto_fwd pc n ks c :
  names_at l pc n -> Forall (fun r => ~ after_unconditional l r) ks -> goto l n ks c ->
  exists d, goto l' n (map (pos fs) ks) d /\ rel c d.
Proof.
  intros Hn Hks Hg. assert (Hu : used l n) by (exists pc; exact Hn). destruct Hg as [k Hk | Hno].
  - exists (At (pos fs k) (map (pos fs) ks)). split.
    + apply goto_def. apply defines_kept; auto.
    + apply rel_exact. split; auto. eapply used_label_live; eauto.
  - exists Halted. split; [|exact I]. apply goto_missing. intros m Hm.
    apply defines_inv in Hm as (k & Hk & _). exact (Hno k Hk).
Qed.

Lemma goto_bwd pc n ks d :
  names_at l pc n -> Forall (fun r => ~ after_unconditional l r) ks ->
  goto l' n (map (pos fs) ks) d ->
  exists c, goto l n ks c /\ rel c d.
Proof.
  intros Hn Hks Hg. assert (Hu : used l n) by (exists pc; exact Hn). destruct Hg as [m Hm | Hno].
  - apply defines_inv in Hm as (k & Hk & Hf & <-). exists (At k ks). split.
    + apply goto_def; exact Hk.
    + apply rel_exact. split; auto. eapply used_label_live; eauto.
  - exists Halted. split; [|exact I]. apply goto_missing. intros k Hk.
    exact (Hno _ (defines_kept _ _ Hk Hu)).
Qed.

(* at a kept line the two listings make the same step *)
Lemma kept_fwd pc ks e ev c :
  nth_error l pc = Some e -> nth_error fs pc = Some true ->
  inv_live l (At pc ks) -> fstep l (At pc ks) ev c ->
  exists d, fstep l' (At (pos fs pc) (map (pos fs) ks)) ev d /\ rel c d.
Proof.
  intros He Hf Hinv Hst.
  assert (He' : nth_error l' (pos fs pc) = Some e) by (apply select_nth; auto).
  pose proof (fstep_live _ _ _ _ Hst Hinv) as Hinv'.
  assert (Hnext : forall ks, inv_live l (At (S pc) ks) ->
            rel (At (S pc) ks) (At (S (pos fs pc)) (map (pos fs) ks))).
  { intros ks' Hi. rewrite <- (pos_S_true _ _ Hf). apply rel_exact; exact Hi. }
  destruct Hinv as [Hl Hks].
  inversion Hst; subst; try (assert (e0 = e) by congruence; subst e0).
  - exfalso. assert (pc < length l) by (apply nth_error_Some; congruence). lia.
  - eexists; split; [eapply F_silent; eauto | auto].
  - eexists; split; [eapply F_plain; eauto | auto].
  - eexists; split; [eapply F_err; congruence | exact I].
  - eexists; split; [eapply F_return; congruence | exact I].
  - assert (e = BExpr n) by congruence; subst e.
    destruct (goto_fwd pc n ks c) as (d & Hd & Hr); auto.
    { exists (BExpr n); split; [auto|constructor]. }
    exists d; split; [eapply F_b; eauto | auto].
  - eexists; split; [eapply F_cond_next; eauto | auto].
  - destruct (goto_fwd pc n ks c) as (d & Hd & Hr); auto.
    { exists e; split; [auto|]. eapply cond_target_names; eauto. }
    exists d; split; [eapply F_cond_taken; eauto | auto].
  - assert (e = CallSubExpr n) by congruence; subst e.
    assert (HS : ~ after_unconditional l (S pc)).
    { intros Ha. apply Hl. eapply after_unconditional_S; eauto. intros U; inversion U. }
    destruct (goto_fwd pc n (S pc :: ks) c) as (d & Hd & Hr); auto.
    { exists (CallSubExpr n); split; [auto|constructor]. }
    exists d; split; [|auto]. eapply F_callsub; eauto.
    cbn [map] in Hd. rewrite (pos_S_true _ _ Hf) in Hd. exact Hd.
  - assert (e = RetSubExpr) by congruence; subst e.
    cbn [map]. eexists; split; [eapply F_retsub; eauto|]. apply rel_exact; exact Hinv'.
  - assert (e = RetSubExpr) by congruence; subst e.
    eexists; split; [eapply F_retsub_next; eauto|]. apply (Hnext []). exact Hinv'.
  - assert (e = RetSubExpr) by congruence; subst e.
    eexists; split; [eapply F_retsub_fail; eauto| exact I].
Qed.

Lemma kept_bwd pc ks e ev d :
  nth_error l pc = Some e -> nth_error fs pc = Some true ->
  inv_live l (At pc ks) -> fstep l' (At (pos fs pc) (map (pos fs) ks)) ev d ->
  exists c, fstep l (At pc ks) ev c /\ rel c d.
Proof.
  intros He Hf Hinv Hst.
  assert (He' : nth_error l' (pos fs pc) = Some e) by (apply select_nth; auto).
  assert (Hnext : forall ks ev, fstep l (At pc ks) ev (At (S pc) ks) -> inv_live l (At pc ks) ->
            rel (At (S pc) ks) (At (S (pos fs pc)) (map (pos fs) ks))).
  { intros ks' ev' Hst' Hi'. pose proof (fstep_live _ _ _ _ Hst' Hi') as Hi.
    rewrite <- (pos_S_true _ _ Hf). apply rel_exact; exact Hi. }
  pose proof Hinv as [Hl Hks].
  inversion Hst; subst; try (assert (e0 = e) by congruence; subst e0).
  - exfalso. assert (pos fs pc < length l') by (apply nth_error_Some; congruence). lia.
  - assert (S1 : fstep l (At pc ks) None (At (S pc) ks)) by (eapply F_silent; eauto).
    eexists; split; [exact S1 | eapply Hnext; eauto].
  - assert (S1 : fstep l (At pc ks) (Some (e, 0)) (At (S pc) ks)) by (eapply F_plain; eauto).
    eexists; split; [exact S1 | eapply Hnext; eauto].
  - eexists; split; [eapply F_err; congruence | exact I].
  - eexists; split; [eapply F_return; congruence | exact I].
  - assert (e = BExpr n) by congruence; subst e.
    destruct (goto_bwd pc n ks d) as (c & Hd & Hr); auto.
    { exists (BExpr n); split; [auto|constructor]. }
    exists c; split; [eapply F_b; eauto | auto].
  - assert (S1 : fstep l (At pc ks) (Some (e, 0)) (At (S pc) ks)) by (eapply F_cond_next; eauto).
    eexists; split; [exact S1 | eapply Hnext; eauto].
  - destruct (goto_bwd pc n ks d) as (c & Hd & Hr); auto.
    { exists e; split; [auto|]. eapply cond_target_names; eauto. }
    exists c; split; [eapply F_cond_taken; eauto | auto].
  - assert (e = CallSubExpr n) by congruence; subst e.
    assert (HS : ~ after_unconditional l (S pc)).
    { intros Ha. apply Hl. eapply after_unconditional_S; eauto. intros U; inversion U. }
    destruct (goto_bwd pc n (S pc :: ks) d) as (c & Hd & Hr); auto.
    { exists (CallSubExpr n); split; [auto|constructor]. }
    { cbn [map]. rewrite (pos_S_true _ _ Hf). assumption. }
    exists c; split; [|auto]. eapply F_callsub; eauto.
  - assert (e = RetSubExpr) by congruence; subst e.
    destruct ks as [|rr kss]; [discriminate|]. cbn [map] in *.
    match goal with H : _ :: _ = _ :: _ |- _ => injection H as -> -> end.
    eexists; split; [eapply F_retsub; eauto|].
    inversion Hks; subst. apply rel_exact. split; auto.
  - assert (e = RetSubExpr) by congruence; subst e.
    destruct ks as [|rr kss]; [|discriminate].
    assert (S1 : fstep l (At pc []) (Some (RetSubExpr, 1)) (At (S pc) [])) by (eapply F_retsub_next; eauto).
    eexists; split; [exact S1 | apply (Hnext [] _ S1 Hinv)].
  - assert (e = RetSubExpr) by congruence; subst e.
    destruct ks as [|rr kss]; [|discriminate].
    eexists; split; [eapply F_retsub_fail; eauto| exact I].
Qed.

(* one step of the original is matched by the shortened listing *)
Lemma fwd c d ev c' : rel c d -> fstep l c ev c' ->
  exists d', run l' d (match ev with Some x => [x] | None => [] end) d' /\ rel c' d'.
Proof.
  intros HR Hst.
  destruct c as [pc ks|]; [|inversion Hst].
  destruct d as [q qs|]; [|contradiction].
  destruct HR as (Hinv & -> & Hle & Hmid).
  pose proof (fstep_live _ _ _ _ Hst Hinv) as Hinv'.
  assert (Hq := quiet_to pc (map (pos fs) ks) q Hle Hmid).
  destruct (nth_error l pc) as [e|] eqn:He.
  2:{ assert (Hpc := proj1 (nth_error_None _ _) He).
      inversion Hst; subst; try congruence.
      exists Halted. split; [|exact I].
      eapply run_quiet_l; [exact Hq|]. eapply run_quiet; [|constructor].
      apply F_end. unfold l'. rewrite select_length by auto.
      apply pos_mono; lia. }
  destruct (flag_at _ _ He) as [Hf|Hf].
  - destruct (kept_fwd _ _ _ _ _ He Hf Hinv Hst) as (d & Hd & HR).
    exists d; split; auto. eapply run_quiet_l; [exact Hq|].
    destruct ev; [eapply run_event | eapply run_quiet]; eauto using run_refl.
  - pose proof (pos_S_false _ _ Hf) as HpS.
    destruct (Hdel _ _ He Hf) as [Hdead | [Hs | (n & k & -> & Hk & Hdef & Hbet)]].
    + destruct Hinv; contradiction.
    + assert (ev = None /\ c' = At (S pc) ks) as [-> ->].
      { eapply fstep_silent_inv; eauto. }
      exists (At q (map (pos fs) ks)). split; [constructor|].
      repeat split; auto; try apply Hinv'; try rewrite HpS; auto.
    + assert (ev = None /\ goto l n ks c') as [-> Hg].
      { eapply fstep_b_inv; eauto. }
      assert (Hu : used l n) by (exists pc; eexists; split; [exact He|constructor]).
      inversion Hg; subst.
      * assert (k0 = k) by (eapply Huniq; eauto). subst k0.
        exists (At (pos fs pc) (map (pos fs) ks)). split; [exact Hq|].
        split; [auto|]. split; [auto|]. split; [apply pos_mono; lia|].
        intros m Hm.
        assert (m < length l').
        { unfold l'. rewrite select_length by auto.
          assert (k < length l) by (apply nth_error_Some; rewrite Hdef; discriminate).
          pose proof (pos_mono fs k (length l) ltac:(lia)). lia. }
        destruct (nth_error l' m) as [e'|] eqn:Em; [|apply nth_error_None in Em; lia].
        exists e'; split; auto.
        apply select_nth_inv in Em as (i & Hi & Hfi & Hpi).
        assert (pc < i).
        { destruct (le_lt_dec i pc) as [Hle'|]; auto. exfalso.
          assert (i <> pc) by congruence.
          pose proof (pos_mono fs (S i) pc ltac:(lia)). rewrite (pos_S_true _ _ Hfi) in *. lia. }
        assert (i < k).
        { destruct (le_lt_dec k i) as [Hle'|]; auto. exfalso.
          pose proof (pos_mono fs k i Hle'). lia. }
        destruct (Hbet i ltac:(lia)) as (e'' & He'' & Hs''). congruence.
      * exfalso; eapply H; eauto.
Qed.

(* one step of the shortened listing is matched by the original *)
Lemma bwd c d ev d' : rel c d -> fstep l' d ev d' ->
  exists c', run l c (match ev with Some x => [x] | None => [] end) c' /\ rel c' d'.
Proof.
  intros HR Hst.
  destruct d as [q qs|]; [|inversion Hst].
  destruct c as [pc ks|]; [|contradiction].
  remember (length l - pc) as fuel eqn:Hfuel.
  assert (Hb : length l - pc <= fuel) by lia. clear Hfuel.
  revert pc ks HR Hb.
  induction fuel as [fuel IH] using lt_wf_ind; intros pc ks HR Hb.
  pose proof HR as (Hinv & -> & Hle & Hmid).
  destruct (Nat.eq_dec q (pos fs pc)) as [->|Hneq].
  2:{ (* a no-op of the shortened listing before the matching line *)
      destruct (Hmid q ltac:(lia)) as (e & He & Hs).
      assert (ev = None /\ d' = At (S q) (map (pos fs) ks)) as [-> ->].
      { eapply fstep_silent_inv; eauto. }
      exists (At pc ks). split; [constructor|]. repeat split; try apply Hinv; try lia.
      intros m Hm. apply Hmid; lia. }
  destruct (nth_error l pc) as [e|] eqn:He.
  2:{ assert (Hpc := proj1 (nth_error_None _ _) He).
      assert (Hend : length l' <= pos fs pc).
      { unfold l'. rewrite select_length by auto. apply pos_mono; lia. }
      assert (Hn : nth_error l' (pos fs pc) = None) by (apply nth_error_None; auto).
      inversion Hst; subst; try congruence.
      exists Halted; split; [|exact I]. eapply run_quiet; [apply F_end; auto|constructor]. }
  assert (Hpl : pc < length l) by (apply nth_error_Some; congruence).
  destruct (flag_at _ _ He) as [Hf|Hf].
  - destruct (kept_bwd _ _ _ _ _ He Hf Hinv Hst) as (c & Hc & HR').
    exists c; split; auto.
    destruct ev; [eapply run_event | eapply run_quiet]; eauto using run_refl.
  - pose proof (pos_S_false _ _ Hf) as HpS.
    destruct (Hdel _ _ He Hf) as [Hdead | [Hs | (n & k & -> & Hk & Hdef & Hbet)]].
    + destruct Hinv; contradiction.
    + assert (S1 : fstep l (At pc ks) None (At (S pc) ks)) by (eapply F_silent; eauto).
      pose proof (fstep_live _ _ _ _ S1 Hinv) as Hinv'.
      destruct (IH (length l - S pc) ltac:(lia) (S pc) ks) as (c & Hc & HR'); auto.
      { repeat split; try apply Hinv'; rewrite HpS; auto. }
      exists c; split; auto. eapply run_quiet; eauto.
    + assert (S1 : fstep l (At pc ks) None (At k ks)) by (eapply F_b; eauto using goto_def).
      pose proof (fstep_live _ _ _ _ S1 Hinv) as Hinv'.
      destruct (fwd _ _ _ _ HR S1) as (d1 & Hd1 & HR1).
      destruct (IH (length l - k) ltac:(lia) k ks) as (c & Hc & HR'); auto.
      { split; [auto|]. split; [auto|]. split; [apply pos_mono; lia|].
        intros m Hm.
        assert (m < length l').
        { unfold l'. rewrite select_length by auto.
          assert (k < length l) by (apply nth_error_Some; rewrite Hdef; discriminate).
          pose proof (pos_mono fs k (length l) ltac:(lia)). lia. }
        destruct (nth_error l' m) as [e'|] eqn:Em; [|apply nth_error_None in Em; lia].
        exists e'; split; auto.
        apply select_nth_inv in Em as (i & Hi & Hfi & Hpi).
        assert (pc < i).
        { destruct (le_lt_dec i pc) as [Hle'|]; auto. exfalso.
          assert (i <> pc) by congruence.
          pose proof (pos_mono fs (S i) pc ltac:(lia)). rewrite (pos_S_true _ _ Hfi) in *. lia. }
        assert (i < k).
        { destruct (le_lt_dec k i) as [Hle'|]; auto. exfalso.
          pose proof (pos_mono fs k i Hle'). lia. }
        destruct (Hbet i ltac:(lia)) as (e'' & He'' & Hs''). congruence. }
      exists c; split; auto. eapply run_quiet; eauto.
Qed.

Lemma run_fwd c d tr c' : rel c d -> run l c tr c' -> exists d', run l' d tr d' /\ rel c' d'.
Proof.
  intros HR H; revert d HR. induction H as [c|c c1 c2 tr Hs H IH|c c1 c2 ev tr Hs H IH]; intros d HR.
  - exists d; split; auto using run_refl.
  - destruct (fwd _ _ _ _ HR Hs) as (d1 & H1 & HR1).
    destruct (IH _ HR1) as (d2 & H2 & HR2). exists d2; split; auto.
    eapply run_quiet_l; eauto.
  - destruct (fwd _ _ _ _ HR Hs) as (d1 & H1 & HR1).
    destruct (IH _ HR1) as (d2 & H2 & HR2). exists d2; split; auto.
    apply (run_trans _ _ _ _ [ev] tr H1 H2).
Qed.

Lemma run_bwd c d tr d' : rel c d -> run l' d tr d' -> exists c', run l c tr c' /\ rel c' d'.
Proof.
  intros HR H; revert c HR. induction H as [d|d d1 d2 tr Hs H IH|d d1 d2 ev tr Hs H IH]; intros c HR.
  - exists c; split; auto using run_refl.
  - destruct (bwd _ _ _ _ HR Hs) as (c1 & H1 & HR1).
    destruct (IH _ HR1) as (c2 & H2 & HR2). exists c2; split; auto.
    eapply run_quiet_l; eauto.
  - destruct (bwd _ _ _ _ HR Hs) as (c1 & H1 & HR1).
    destruct (IH _ HR1) as (c2 & H2 & HR2). exists c2; split; auto.
    apply (run_trans _ _ _ _ [ev] tr H1 H2).
Qed.

Lemma rel_start : rel start start.
Proof.
  unfold start. pose proof (rel_exact 0 [] (start_live l)) as H. rewrite pos_0 in H. exact H.
Qed.

Lemma rel_halted_l d : rel Halted d -> d = Halted.
Proof. destruct d; cbn; intuition. Qed.
Lemma rel_halted_r c : rel c Halted -> c = Halted.
Proof. destruct c; cbn; intuition. Qed.

Theorem deletion_same_behaviour : same_behaviour l (select fs l).
Proof.
  intros tr. split; split.
  - intros [c Hc]. destruct (run_fwd _ _ _ _ rel_start Hc) as (d & Hd & _). exists d; auto.
  - intros [d Hd]. destruct (run_bwd _ _ _ _ rel_start Hd) as (c & Hc & _). exists c; auto.
  - intros Hc. destruct (run_fwd _ _ _ _ rel_start Hc) as (d & Hd & HR).
    apply rel_halted_l in HR as ->. exact Hd.
  - intros Hd. destruct (run_bwd _ _ _ _ rel_start Hd) as (c & Hc & HR).
    apply rel_halted_r in HR as ->. exact Hc.
Qed.
End Deletion.

Lemma same_behaviour_trans l1 l2 l3 :
  same_behaviour l1 l2 -> same_behaviour l2 l3 -> same_behaviour l1 l3.
Proof.
  intros H1 H2 tr. specialize (H1 tr). specialize (H2 tr). tauto.
Qed.

Lemma select_unique_labels fs l : length fs = length l -> unique_labels l -> unique_labels (select fs l).
Proof.
  intros Hlen Hu i j n Hi Hj.
  apply select_nth_inv in Hi as (i' & Hi & Hfi & <-).
  apply select_nth_inv in Hj as (j' & Hj & Hfj & <-).
  f_equal. eapply Hu; eauto.
Qed.
