(* What the optimizer leaves alone: the listings that Optimize maps to themselves, and how many
   rounds it takes to get there. *)
From Verif Require Import Base Expr Linter Compiler Flow LintSpec FlowProofs LinterProofs CompilerSpec
  CompilerProofs LinterThms.

Lemma subseq_length {A} (s l : list A) : subseq s l -> length s <= length l.
Proof. induction 1; cbn; lia. Qed.

Lemma subseq_full {A} (s l : list A) : subseq s l -> length s = length l -> s = l.
Proof.
  induction 1 as [|x s l H IH|x s l H IH]; cbn; intros E; auto.
  - f_equal. apply IH. lia.
  - apply subseq_length in H. lia.
Qed.

Lemma select_full {A} fs (l : list A) : length fs = length l ->
  (select fs l = l <-> forall i, nth_error fs i <> Some false).
Proof.
  revert l; induction fs as [|f fs IH]; intros [|x l] H; try discriminate.
  - split; auto. intros _ [|i]; discriminate.
  - injection H as H. cbn. destruct f.
    + split.
      * intros E. injection E as E. intros [|i]; cbn; [discriminate|]. exact (proj1 (IH l H) E i).
      * intros Hf. f_equal. apply IH; auto. intros i. apply (Hf (S i)).
    + split.
      * intros E. exfalso. assert (L := subseq_length _ _ (select_subseq fs l H)).
        rewrite E in L. cbn in L. lia.
      * intros Hf. exfalso. apply (Hf 0). reflexivity.
Qed.

(* nothing is deleted as a whole iff no pass deletes anything *)
Lemma optimize_fix_passes l : optimize l = l <->
  remove_unused l = l /\ remove_ops_after_unconditional_branch l = l /\
  remove_b_just_before_its_target_label l = l.
Proof.
  rewrite optimize_unfold. split.
  - intros E.
    assert (L1 := subseq_length _ _ (remove_unused_subseq l)).
    assert (L2 := subseq_length _ _ (remove_ops_subseq (remove_unused l))).
    assert (L3 := subseq_length _ _ (remove_b_subseq (remove_ops_after_unconditional_branch (remove_unused l)))).
    rewrite E in L3.
    assert (E1 : remove_unused l = l) by (apply subseq_full; [apply remove_unused_subseq|lia]).
    rewrite E1 in *.
    assert (E2 : remove_ops_after_unconditional_branch l = l)
      by (apply subseq_full; [apply remove_ops_subseq|lia]).
    rewrite E2 in E. auto.
  - intros (-> & -> & ->). reflexivity.
Qed.

(* ------------------------------------------------------------------ the dead code pass *)

Lemma silent_nop e : silent e <-> is_nop e = true.
Proof. split; [intros []; reflexivity|]. destruct e; try discriminate; constructor. Qed.

Lemma clean_true_spec l i e : clean_from true l = true ->
  nth_error l i = Some e -> ~ silent e -> exists k n, k < i /\ defines l k n.
Proof.
  revert i; induction l as [|o l IH]; intros i Hc Hi Hs; [destruct i; discriminate|].
  cbn in Hc. destruct i as [|i].
  - injection Hi as ->. exfalso. apply Hs, silent_nop. destruct e; cbn in Hc; auto; discriminate.
  - cbn in Hi. assert (Hlab : (exists n, o = LabelExpr n) \/ clean_from true l = true).
    { destruct o; cbn in Hc; eauto; discriminate. }
    destruct Hlab as [[n ->]|Hc'].
    + exists 0, n. split; [lia|reflexivity].
    + destruct (IH i Hc' Hi Hs) as (k & n & Hk & Hd). exists (S k), n. split; [lia|exact Hd].
Qed.

Lemma clean_spec b l j i u e : clean_from b l = true ->
  nth_error l j = Some u -> unconditional u -> j < i -> nth_error l i = Some e -> ~ silent e ->
  exists k n, j < k < i /\ defines l k n.
Proof.
  revert b i j; induction l as [|o l IH]; intros b i j Hc Hj Hu Hji Hi Hs; [destruct j; discriminate|].
  destruct i as [|i]; [lia|]. cbn in Hi.
  destruct j as [|j].
  - injection Hj as ->. assert (Hc' : clean_from true l = true).
    { cbn in Hc. destruct b; destruct Hu; cbn in Hc; auto; discriminate. }
    destruct (clean_true_spec l i e Hc' Hi Hs) as (k & n & Hk & Hd).
    exists (S k), n. split; [lia|exact Hd].
  - cbn in Hj. assert (Hc' : exists b', clean_from b' l = true).
    { cbn in Hc. destruct b; [|eauto]. destruct o; cbn in Hc; eauto; discriminate. }
    destruct Hc' as [b' Hc'].
    destruct (IH b' i j Hc' Hj Hu ltac:(lia) Hi Hs) as (k & n & Hk & Hd).
    exists (S k), n. split; [lia|exact Hd].
Qed.

Lemma remove_ops_fix l : remove_ops_after_unconditional_branch l = l <-> dead_code_behind_labels l.
Proof.
  split.
  - intros E i j e Hr Hj Hu Hji. apply c17 in Hr as [(x & Hx & Hs) _].
    assert (Hc : clean_from false l = true).
    { rewrite <- E. apply remove_ops_clean. }
    eapply clean_spec; eauto.
  - intros H. unfold remove_ops_after_unconditional_branch. rewrite remove_ops_select.
    apply select_full; [apply flags_ops_length|]. intros i Hf.
    destruct (flags_ops_false l [] l false i eq_refl ltac:(discriminate) Hf)
      as (e & He & Hs & j & u & Hj & Hju & Hu & Hno). cbn in Hj, Hno.
    assert (Hr : In (UnreachableCodeError i) (lint l)).
    { apply c17. split; [exists e; auto|]. exact (proj1 (flags_ops_dead l i e He Hf)). }
    destruct (H i j u Hr Hju Hu Hj) as (k & n & Hk & Hd). apply (Hno k n); auto. lia.
Qed.

Lemma remove_b_fix l : remove_b_just_before_its_target_label l = l <->
  forall i, ~ In (BJustBeforeLabelError i) (lint l).
Proof.
  rewrite remove_b_select. rewrite (select_full (flags_b l) l (flags_b_length l)). split.
  - intros H i Hi. apply c18_exact, flags_b_nth in Hi. exact (H i Hi).
  - intros H i Hi. apply flags_b_nth, c18_exact in Hi. exact (H i Hi).
Qed.

(* ------------------------------------------------------------------ the label pass *)

Lemma followed_spec l : followed_by_retsub_or_proto l = true <->
  exists k e, nth_error l k = Some e /\ (e = RetSubExpr \/ exists a r, e = ProtoExpr a r) /\
    forall m, m < k -> exists e', nth_error l m = Some e' /\ silent e'.
Proof.
  induction l as [|o l IH].
  - split; [discriminate|]. intros (k & e & H & _). destruct k; discriminate.
  - split.
    + intros H.
      assert (Ho : (o = RetSubExpr \/ exists a r, o = ProtoExpr a r) \/
                   (silent o /\ followed_by_retsub_or_proto l = true)).
      { destruct o; cbn in H; try discriminate; eauto; right; split; auto; constructor. }
      destruct Ho as [Ho|[Hs Hf]].
      * exists 0, o. split; [reflexivity|]. split; [exact Ho|]. intros m Hm; lia.
      * apply IH in Hf as (k & e & Hk & He & Hm). exists (S k), e. split; [exact Hk|].
        split; [exact He|]. intros [|m] Hlt; [exists o; split; auto|]. apply Hm; lia.
    + intros (k & e & Hk & He & Hm). destruct k as [|k].
      * injection Hk as ->. destruct He as [->|(a & r & ->)]; reflexivity.
      * assert (Hl : followed_by_retsub_or_proto l = true).
        { apply IH. exists k, e. split; [exact Hk|]. split; [exact He|].
          intros m Hlt. apply (Hm (S m)). lia. }
        destruct (Hm 0 ltac:(lia)) as (e' & E & Hs). injection E as <-.
        destruct Hs; exact Hl.
Qed.

Lemma skipn_nth {A} (l : list A) n k : nth_error (skipn n l) k = nth_error l (n + k).
Proof.
  revert l; induction n as [|n IH]; intros l; auto. destruct l as [|x l]; cbn.
  - destruct k; reflexivity.
  - apply IH.
Qed.

Lemma followed_at l i : followed_by_retsub_or_proto (skipn (S i) l) = true <-> before_retsub_or_proto l i.
Proof.
  rewrite followed_spec. split.
  - intros (k & e & Hk & He & Hm). rewrite skipn_nth in Hk. exists (S i + k), e.
    split; [lia|]. split; [exact Hk|]. split; [exact He|]. intros m Hlt.
    destruct (Hm (m - S i) ltac:(lia)) as (e' & E & Hs). rewrite skipn_nth in E.
    replace (S i + (m - S i)) with m in E by lia. eauto.
  - intros (k & e & Hlt & Hk & He & Hm). exists (k - S i), e. rewrite skipn_nth.
    replace (S i + (k - S i)) with k by lia. split; [exact Hk|]. split; [exact He|].
    intros m Hl. destruct (Hm (S i + m) ltac:(lia)) as (e' & E & Hs). exists e'.
    rewrite skipn_nth. auto.
Qed.

Lemma flags_unused_kept us prev l : (forall i, nth_error (flags_unused us prev l) i <> Some false) ->
  (forall i n, nth_error l i = Some (LabelExpr n) ->
     In n us \/ followed_by_retsub_or_proto (skipn (S i) l) = true) /\
  (forall i, nth_error l i = Some RetSubExpr ->
     match i with
     | 0 => exists n, prev = Some (LabelExpr n) /\ In n us
     | S j => exists n, nth_error l j = Some (LabelExpr n) /\ In n us
     end).
Proof.
  revert prev; induction l as [|o l IH]; intros prev H.
  { split; intros [|i]; discriminate. }
  cbn [flags_unused] in H.
  assert (Hgo : (forall i, nth_error (flags_unused us (Some o) l) i <> Some false) ->
     (forall n, o = LabelExpr n -> In n us \/ followed_by_retsub_or_proto l = true) ->
     (o = RetSubExpr -> exists n, prev = Some (LabelExpr n) /\ In n us) ->
     (forall i n, nth_error (o :: l) i = Some (LabelExpr n) ->
        In n us \/ followed_by_retsub_or_proto (skipn (S i) (o :: l)) = true) /\
     (forall i, nth_error (o :: l) i = Some RetSubExpr ->
        match i with
        | 0 => exists n, prev = Some (LabelExpr n) /\ In n us
        | S j => exists n, nth_error (o :: l) j = Some (LabelExpr n) /\ In n us
        end)).
  { intros H1 H2 H3. apply IH in H1 as [Ha Hb]. split.
    - intros [|i] n Hi; cbn in Hi.
      + injection Hi as ->. cbn. apply H2. reflexivity.
      + exact (Ha i n Hi).
    - intros [|i] Hi; cbn in Hi.
      + injection Hi as ->. auto.
      + specialize (Hb i Hi). destruct i as [|i].
        * destruct Hb as (n & E & Hn). injection E as ->. exists n. auto.
        * exact Hb. }
  destruct o;
    try (apply Hgo; [intros i; exact (H (S i)) | discriminate | discriminate]).
  - (* retsub *)
    destruct prev as [p|]; [|exfalso; apply (H 0); reflexivity].
    destruct p; try (exfalso; apply (H 0); reflexivity).
    destruct (mem Name_ us) eqn:E; [|exfalso; apply (H 0); reflexivity].
    apply Hgo; [intros i; exact (H (S i)) | discriminate |].
    intros _. exists Name_. split; auto. apply mem_In; exact E.
  - destruct (mem Name_ us || followed_by_retsub_or_proto l) eqn:E; [|exfalso; apply (H 0); reflexivity].
    apply Hgo; [intros i; exact (H (S i)) | | discriminate].
    intros n En. injection En as <-. apply orb_true_iff in E as [E|E]; auto.
    left. apply mem_In; exact E.
Qed.

Lemma flags_unused_label us prev l i n : nth_error l i = Some (LabelExpr n) ->
  In n us \/ followed_by_retsub_or_proto (skipn (S i) l) = true ->
  nth_error (flags_unused us prev l) i = Some true.
Proof.
  revert prev i; induction l as [|o l IH]; intros prev i Hi H; [destruct i; discriminate|].
  destruct i as [|i].
  - injection Hi as ->. cbn in *. assert (E : mem n us || followed_by_retsub_or_proto l = true).
    { apply orb_true_iff. destruct H as [H|H]; auto. left. apply mem_In; exact H. }
    rewrite E. reflexivity.
  - cbn in Hi. cbn [skipn] in H.
    assert (Hgo : forall p, nth_error (flags_unused us p l) i = Some true) by (intros p; apply IH; auto).
    cbn [flags_unused]. destruct o; cbn [nth_error]; auto.
    + destruct prev as [[]|]; cbn [nth_error]; auto. destruct (mem _ _); cbn [nth_error]; auto.
    + destruct (_ || _); cbn [nth_error]; auto.
Qed.

Lemma remove_unused_fix l : remove_unused l = l <->
  retsubs_below_used_labels l /\
  (forall i n, In (UnusedLabelError i n) (lint l) -> before_retsub_or_proto l i).
Proof.
  unfold remove_unused. rewrite remove_unused_select.
  rewrite (select_full (flags_unused (used_names l) None l) l (flags_unused_length _ _ l)). split.
  - intros H. apply flags_unused_kept in H as [Ha Hb]. split.
    + intros i Hi. specialize (Hb i Hi). destruct i as [|j].
      * destruct Hb as (n & E & _). discriminate.
      * destruct Hb as (n & E & Hn). exists j, n. split; auto. split; [exact E|].
        apply used_names_used; exact Hn.
    + intros i n Hr. apply c15 in Hr as [Hd Hn]. destruct (Ha i n Hd) as [Hu|Hf].
      * exfalso. apply Hn, used_names_used, Hu.
      * apply followed_at; exact Hf.
  - intros [Hr Hl] i Hf.
    assert (Hi : exists e, nth_error l i = Some e).
    { destruct (nth_error l i) as [e|] eqn:E; eauto. exfalso.
      apply nth_error_None in E. rewrite <- (flags_unused_length (used_names l) None l) in E.
      apply nth_error_None in E. congruence. }
    destruct Hi as [e He].
    destruct (flags_unused_false _ _ _ _ _ He Hf) as [->|(n & -> & Hn)].
    + destruct (Hr i He) as (j & n & -> & Hd & Hu).
      rewrite (flags_unused_retsub (used_names l) None l (S j) He) in Hf; [discriminate|].
      exists n. split; [exact Hd|]. apply used_names_used; exact Hu.
    + rewrite (flags_unused_label (used_names l) None l i n He) in Hf; [discriminate|].
      right. apply followed_at. apply (Hl i n). apply c15. split; [exact He|].
      intros Hu. apply Hn, used_names_used, Hu.
Qed.

(* ------------------------------------------------------------------ fixpoints *)

Lemma optimize_fix l : optimize l = l <->
  retsubs_below_used_labels l /\
  (forall i n, In (UnusedLabelError i n) (lint l) -> before_retsub_or_proto l i) /\
  dead_code_behind_labels l /\
  (forall i, ~ In (BJustBeforeLabelError i) (lint l)).
Proof.
  rewrite optimize_fix_passes, remove_unused_fix, remove_ops_fix, remove_b_fix. tauto.
Qed.

Lemma optimize_iter l n : length l <= n ->
  optimize (Nat.iter n optimize l) = Nat.iter n optimize l.
Proof.
  revert l; induction n as [|n IH]; intros l Hn.
  - destruct l; [reflexivity|cbn in Hn; lia].
  - assert (Hc : forall k x, Nat.iter (S k) optimize x = Nat.iter k optimize (optimize x)).
    { induction k as [|k IHk]; intros x; [reflexivity|]. change (optimize (Nat.iter (S k) optimize x) = optimize (Nat.iter k optimize (optimize x))).
      rewrite IHk. reflexivity. }
    rewrite Hc. destruct (Nat.eq_dec (length (optimize l)) (length l)) as [E|E].
    + apply (subseq_full _ _ (optimize_subseq l)) in E.
      assert (Hs : forall k, Nat.iter k optimize l = l).
      { induction k as [|k IHk]; [reflexivity|]. change (optimize (Nat.iter k optimize l) = l).
        rewrite IHk. exact E. }
      rewrite E, Hs. exact E.
    + apply IH. pose proof (subseq_length _ _ (optimize_subseq l)). lia.
Qed.
