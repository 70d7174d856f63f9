(* Proofs about the optimizer and Compile (Compiler.v). *)
From Verif Require Import Base Expr Linter Compiler Flow LintSpec FlowProofs LinterProofs CompilerSpec.

(* ------------------------------------------------------------------ mergeLabels *)

Lemma merge_labels_from_id prev l :
  (forall n, prev <> Some (LabelExpr n)) -> merge_labels_from prev l = l.
Proof.
  revert prev; induction l as [|o l IH]; intros prev Hp; cbn; auto.
  assert (IH' : merge_labels_from (if is_nop o then prev else Some o) l = l).
  { apply IH. destruct o; cbn; auto; discriminate. }
  rewrite IH'. destruct o; auto. destruct prev as [p|]; auto. destruct p; auto.
  exfalso; eapply Hp; reflexivity.
Qed.

Lemma merge_labels_id l : merge_labels l = l.
Proof. apply merge_labels_from_id. discriminate. Qed.

(* ------------------------------------------------------------------ flags of the passes *)

Fixpoint flags_ops (skip : bool) (l : listing) : list bool :=
  match l with
  | [] => []
  | o :: l' =>
      if skip then
        match o with
        | LabelExpr _ => true :: flags_ops false l'
        | _ => is_nop o :: flags_ops true l'
        end
      else true :: flags_ops (is_uncond o) l'
  end.

Lemma flags_ops_length skip l : length (flags_ops skip l) = length l.
Proof. revert skip; induction l as [|o l IH]; intros []; cbn; auto; destruct o; cbn; auto. Qed.

Lemma remove_ops_select skip l : remove_ops_from skip l = select (flags_ops skip l) l.
Proof.
  revert skip; induction l as [|o l IH]; intros []; cbn; auto.
  - destruct o; cbn; rewrite ?IH; reflexivity.
  - rewrite IH; reflexivity.
Qed.

Fixpoint flags_b (l : listing) : list bool :=
  match l with
  | [] => []
  | o :: l' =>
      match o with BExpr n => negb (next_label_is n l') | _ => true end :: flags_b l'
  end.

Lemma flags_b_length l : length (flags_b l) = length l.
Proof. induction l; cbn; auto. Qed.

Lemma remove_b_cons o l :
  remove_b_just_before_its_target_label (o :: l) =
  (match o with BExpr n => if next_label_is n l then [] else [o] | _ => [o] end) ++
  remove_b_just_before_its_target_label l.
Proof. destruct l; destruct o; reflexivity. Qed.

Lemma remove_b_select l : remove_b_just_before_its_target_label l = select (flags_b l) l.
Proof.
  induction l as [|o l IH]; auto. rewrite remove_b_cons, IH. cbn [flags_b select].
  destruct o; try reflexivity. destruct (next_label_is Label_ l); reflexivity.
Qed.

Fixpoint flags_unused (used : list str) (prev : option expr) (l : listing) : list bool :=
  match l with
  | [] => []
  | o :: l' =>
      match o with
      | LabelExpr n =>
          if mem n used || followed_by_retsub_or_proto l'
          then true :: flags_unused used (Some o) l'
          else false :: flags_unused used prev l'
      | RetSubExpr =>
          match prev with
          | Some (LabelExpr n) =>
              if mem n used then true :: flags_unused used (Some o) l'
              else false :: flags_unused used prev l'
          | _ => false :: flags_unused used (Some o) l'
          end
      | _ => true :: flags_unused used (Some o) l'
      end
  end.

Lemma flags_unused_length used prev l : length (flags_unused used prev l) = length l.
Proof.
  revert prev; induction l as [|o l IH]; intros prev; cbn; auto.
  destruct o; cbn; auto.
  - destruct prev as [[]|]; cbn; auto. destruct (mem _ _); cbn; auto.
  - destruct (_ || _); cbn; auto.
Qed.

Lemma remove_unused_select used prev l :
  remove_unused_from used prev l = select (flags_unused used prev l) l.
Proof.
  revert prev; induction l as [|o l IH]; intros prev; cbn; auto.
  destruct o; cbn; rewrite ?IH; auto.
  - destruct prev as [[]|]; cbn; rewrite ?IH; auto. destruct (mem _ _); cbn; rewrite ?IH; auto.
  - destruct (_ || _); cbn; rewrite ?IH; auto.
Qed.

(* what each pass deletes *)

Lemma flags_ops_false l pre rest skip i :
  l = pre ++ rest ->
  (skip = true -> exists j e', j < length pre /\ nth_error l j = Some e' /\ unconditional e' /\
     forall k n, j < k < length pre -> ~ defines l k n) ->
  nth_error (flags_ops skip rest) i = Some false ->
  exists e, nth_error rest i = Some e /\ ~ silent e /\
  exists j e', j < length pre + i /\ nth_error l j = Some e' /\ unconditional e' /\
     forall k n, j < k <= length pre + i -> ~ defines l k n.
Proof.
  revert pre skip i. induction rest as [|o rest IH]; intros pre skip i Hl Hskip Hf.
  - destruct i; discriminate.
  - assert (Ho : nth_error l (length pre) = Some o).
    { subst l. rewrite nth_error_app2 by lia. rewrite Nat.sub_diag. reflexivity. }
    assert (Hl' : l = (pre ++ [o]) ++ rest) by (rewrite <- app_assoc; exact Hl).
    assert (Hlen : length (pre ++ [o]) = S (length pre)) by (rewrite app_length; cbn; lia).
    assert (IH' := fun skip' i' => IH (pre ++ [o]) skip' i' Hl'). rewrite Hlen in IH'. clear IH.
    destruct i as [|i].
    + (* the head is deleted *)
      destruct skip; [|discriminate].
      destruct (Hskip eq_refl) as (j & e' & Hj & He' & Hu & Hno).
      assert (Hn : is_nop o = false).
      { destruct o; cbn in Hf; auto; discriminate. }
      exists o. split; [reflexivity|]. split; [apply is_nop_not_silent; exact Hn|].
      exists j, e'. split; [lia|]. split; [exact He'|]. split; [exact Hu|].
      intros k n Hk Hd. destruct (Nat.eq_dec k (length pre)) as [->|].
      * unfold defines in Hd. rewrite Ho in Hd. injection Hd as ->. discriminate.
      * apply (Hno k n); [lia|exact Hd].
    + assert (Hgo : forall skip', nth_error (flags_ops skip' rest) i = Some false ->
        (skip' = true -> exists j e', j < S (length pre) /\ nth_error l j = Some e' /\ unconditional e' /\
          forall k n, j < k < S (length pre) -> ~ defines l k n) ->
        exists e, nth_error (o :: rest) (S i) = Some e /\ ~ silent e /\
        exists j e', j < length pre + S i /\ nth_error l j = Some e' /\ unconditional e' /\
          forall k n, j < k <= length pre + S i -> ~ defines l k n).
      { intros skip' H1 H2. destruct (IH' skip' i H2 H1) as (e & He & Hs & j & e' & Hj & He' & Hu & Hno).
        exists e. split; [exact He|]. split; [exact Hs|]. exists j, e'. split; [lia|].
        split; [exact He'|]. split; [exact Hu|]. intros k n Hk. apply Hno. lia. }
      destruct skip.
      * assert (Hstay : (forall n, o <> LabelExpr n) -> true = true -> exists j e', j < S (length pre) /\
           nth_error l j = Some e' /\ unconditional e' /\ forall k n, j < k < S (length pre) -> ~ defines l k n).
        { intros Hnl _. destruct (Hskip eq_refl) as (j & e' & Hj & He' & Hu & Hno).
          exists j, e'. split; [lia|]. split; [exact He'|]. split; [exact Hu|].
          intros k n Hk Hd. destruct (Nat.eq_dec k (length pre)) as [->|].
          - unfold defines in Hd. rewrite Ho in Hd. injection Hd as ->. eapply Hnl; reflexivity.
          - apply (Hno k n); [lia|exact Hd]. }
        destruct o; cbn [flags_ops nth_error] in Hf;
          try (apply (Hgo true Hf); apply Hstay; discriminate).
        apply (Hgo false Hf). discriminate.
      * cbn [flags_ops nth_error] in Hf. apply (Hgo _ Hf). intros Hu.
        exists (length pre), o. split; [lia|]. split; [exact Ho|].
        split; [apply is_uncond_unconditional; exact Hu|]. intros k n Hk; lia.
Qed.

Lemma flags_ops_dead l i e :
  nth_error l i = Some e -> nth_error (flags_ops false l) i = Some false ->
  after_unconditional l i /\ ~ silent e.
Proof.
  intros He Hf. destruct (flags_ops_false l [] l false i eq_refl ltac:(discriminate) Hf)
    as (e0 & He0 & Hs & j & e' & Hj & He' & Hu & Hno).
  rewrite He in He0; injection He0 as <-. split; auto.
  exists j, e'. cbn in *. repeat split; auto. intros k n Hk Hd. exfalso; eapply Hno; eauto.
Qed.

Lemma flags_b_nth l i : nth_error (flags_b l) i = Some false <-> b_before_own_label l i.
Proof.
  revert i; induction l as [|o l IH]; intros i.
  - split; [destruct i; discriminate|]. intros (n & k & H & _). destruct i; discriminate.
  - destruct i as [|i]; cbn [flags_b nth_error].
    + rewrite b_before_own_label_0. split.
      * destruct o; try discriminate. intros H. injection H as H. apply negb_false_iff in H. eauto.
      * intros (n & -> & ->). reflexivity.
    + rewrite b_before_own_label_S. apply IH.
Qed.

Lemma flags_unused_false used prev l i e :
  nth_error l i = Some e -> nth_error (flags_unused used prev l) i = Some false ->
  e = RetSubExpr \/ exists n, e = LabelExpr n /\ ~ In n used.
Proof.
  revert prev i; induction l as [|o l IH]; intros prev i He Hf; [destruct i; discriminate|].
  destruct i as [|i].
  - cbn in He. injection He as ->. cbn in Hf. destruct e; try discriminate.
    + auto.
    + destruct (mem Name_ used) eqn:E; cbn in Hf; [discriminate|].
      right. exists Name_. split; auto. apply mem_not_In; exact E.
  - cbn in He. cbn [flags_unused] in Hf. destruct o; cbn [nth_error] in Hf; eauto.
    + destruct prev as [[]|]; cbn [nth_error] in Hf; eauto.
      destruct (mem Name_ used); cbn [nth_error] in Hf; eauto.
    + destruct (_ || _); cbn [nth_error] in Hf; eauto.
Qed.

(* ------------------------------------------------------------------ behaviour *)

Lemma used_names_used l n : In n (used_names l) <-> used l n.
Proof.
  unfold used_names. rewrite in_flat_map. split.
  - intros (e & Hin & Hn). apply In_nth_error in Hin as [i Hi]. exists i, e. split; auto.
    apply names_uses; exact Hn.
  - intros (i & e & He & Hn). exists e. split; [eapply nth_error_In; eauto|]. apply names_uses; exact Hn.
Qed.

Lemma flag_true_or (l : listing) (fs : list bool) i e : length fs = length l -> nth_error l i = Some e ->
  nth_error fs i <> Some false -> nth_error fs i = Some true.
Proof.
  intros Hlen He Hf. assert (i < length fs) by (rewrite Hlen; apply nth_error_Some; congruence).
  apply nth_error_Some in H. destruct (nth_error fs i) as [[]|]; congruence.
Qed.

Lemma remove_ops_same l : unique_labels l ->
  same_behaviour l (remove_ops_after_unconditional_branch l).
Proof.
  intros Hu. unfold remove_ops_after_unconditional_branch. rewrite remove_ops_select.
  apply deletion_same_behaviour; auto using flags_ops_length.
  - intros i e He Hf. left. eapply flags_ops_dead; eauto.
  - intros i n Hd _. apply (flag_true_or l _ i (LabelExpr n)); auto using flags_ops_length.
    intros Hf. destruct (flags_ops_dead _ _ _ Hd Hf) as [_ Hs]. apply Hs. constructor.
Qed.

Lemma remove_b_same l : unique_labels l ->
  same_behaviour l (remove_b_just_before_its_target_label l).
Proof.
  intros Hu. rewrite remove_b_select.
  apply deletion_same_behaviour; auto using flags_b_length.
  - intros i e He Hf. right; right.
    apply flags_b_nth in Hf as (n & k & Hb & Hk & Hd & Hm).
    exists n, k. rewrite He in Hb; injection Hb as ->. repeat split; auto.
    intros m Hlt. destruct (Hm m Hlt) as (e' & He' & Hs & _). eauto.
  - intros i n Hd _. apply (flag_true_or l _ i (LabelExpr n)); auto using flags_b_length.
    intros Hf. apply flags_b_nth in Hf as (n' & k & Hb & _). unfold defines in Hd. congruence.
Qed.

(* the first pass is only safe if it drops no retsub *)
Lemma remove_unused_same l : unique_labels l ->
  (forall i, nth_error l i = Some RetSubExpr ->
     nth_error (flags_unused (used_names l) None l) i = Some true) ->
  same_behaviour l (remove_unused l).
Proof.
  intros Hu Hret. unfold remove_unused. rewrite remove_unused_select.
  apply deletion_same_behaviour; auto using flags_unused_length.
  - intros i e He Hf. right; left.
    destruct (flags_unused_false _ _ _ _ _ He Hf) as [->|(n & -> & _)].
    + rewrite (Hret i He) in Hf. discriminate.
    + constructor.
  - intros i n Hd Hus. apply (flag_true_or l _ i (LabelExpr n)); auto using flags_unused_length.
    intros Hf. destruct (flags_unused_false _ _ _ _ _ Hd Hf) as [E|(n' & E & Hn)]; [discriminate|].
    injection E as <-. apply Hn. apply used_names_used; exact Hus.
Qed.

(* in a run of the first pass, prev is the last line if that line is a used label *)
Lemma flags_unused_retsub us prev l i :
  nth_error l i = Some RetSubExpr ->
  match i with
  | 0 => exists n, prev = Some (LabelExpr n) /\ In n us
  | S j => exists n, nth_error l j = Some (LabelExpr n) /\ In n us
  end ->
  nth_error (flags_unused us prev l) i = Some true.
Proof.
  revert prev i; induction l as [|o l IH]; intros prev i He Hp; [destruct i; discriminate|].
  destruct i as [|i].
  - cbn in He. injection He as ->. destruct Hp as (n & -> & Hn). cbn.
    apply mem_In in Hn. rewrite Hn. reflexivity.
  - cbn in He.
    assert (Hstep : forall prev', (i = 0 -> exists n, prev' = Some (LabelExpr n) /\ In n us) ->
              nth_error (flags_unused us prev' l) i = Some true).
    { intros prev' Hp'. apply IH; auto. destruct i as [|i]; auto. }
    cbn [flags_unused].
    assert (Hlab : (forall n, o <> LabelExpr n) -> forall prev', nth_error (flags_unused us prev' l) i = Some true).
    { intros Hno prev'. apply Hstep. intros ->. cbn in Hp. destruct Hp as (n & E & _).
      injection E as ->. exfalso; eapply Hno; reflexivity. }
    destruct o; cbn [nth_error]; try (apply Hlab; discriminate).
    + destruct prev as [[]|]; try (apply Hlab; discriminate).
      destruct (mem Name_ us); apply Hlab; discriminate.
    + destruct (mem Name_ us) eqn:E; cbn [orb].
      * apply Hstep. intros ->. exists Name_; split; auto. apply mem_In; exact E.
      * assert (i <> 0).
        { intros ->. cbn in Hp. destruct Hp as (n & En & Hn). injection En as ->.
          apply mem_In in Hn. congruence. }
        destruct (followed_by_retsub_or_proto l); apply Hstep; intros ->; congruence.
Qed.

Lemma optimize_unfold l :
  optimize l = remove_b_just_before_its_target_label
                 (remove_ops_after_unconditional_branch (remove_unused l)).
Proof. unfold optimize. apply merge_labels_id. Qed.

Lemma remove_unused_unique l : unique_labels l -> unique_labels (remove_unused l).
Proof.
  intros H. unfold remove_unused. rewrite remove_unused_select.
  apply select_unique_labels; auto using flags_unused_length.
Qed.

Lemma remove_ops_unique l : unique_labels l -> unique_labels (remove_ops_after_unconditional_branch l).
Proof.
  intros H. unfold remove_ops_after_unconditional_branch. rewrite remove_ops_select.
  apply select_unique_labels; auto using flags_ops_length.
Qed.

Lemma optimize_same l : unique_labels l -> retsubs_below_used_labels l -> same_behaviour l (optimize l).
Proof.
  intros Hu Hr. rewrite optimize_unfold.
  eapply same_behaviour_trans; [apply remove_unused_same; auto|].
  - intros i Hi. apply flags_unused_retsub; auto.
    destruct (Hr i Hi) as (j & n & -> & Hd & Hn). exists n. split; auto.
    apply used_names_used; exact Hn.
  - eapply same_behaviour_trans; [apply remove_ops_same; auto using remove_unused_unique|].
    apply remove_b_same. apply remove_ops_unique, remove_unused_unique, Hu.
Qed.

(* events come from the listing *)
Lemma run_events l c tr c' ev : run l c tr c' -> In ev tr -> In (fst ev) l.
Proof.
  induction 1 as [|c c1 c2 tr Hs H IH|c c1 c2 ev0 tr Hs H IH]; cbn; intros Hin; auto; [contradiction|].
  destruct Hin as [->|Hin]; auto.
  inversion Hs; subst; cbn; eauto using nth_error_In.
Qed.

(* ------------------------------------------------------------------ only deletes *)

Lemma select_subseq {A} fs (l : list A) : length fs = length l -> subseq (select fs l) l.
Proof.
  revert l; induction fs as [|f fs IH]; intros [|x l] H; try discriminate; [constructor|].
  cbn. injection H as H. destruct f; constructor; auto.
Qed.

Lemma subseq_trans {A} (a b c : list A) : subseq a b -> subseq b c -> subseq a c.
Proof.
  intros H1 H2; revert a H1. induction H2 as [|x s l H2 IH|x s l H2 IH]; intros a H1; auto.
  - inversion H1; subst; constructor; auto.
  - constructor; auto.
Qed.

Lemma remove_unused_subseq l : subseq (remove_unused l) l.
Proof. unfold remove_unused. rewrite remove_unused_select. apply select_subseq, flags_unused_length. Qed.
Lemma remove_ops_subseq l : subseq (remove_ops_after_unconditional_branch l) l.
Proof.
  unfold remove_ops_after_unconditional_branch. rewrite remove_ops_select.
  apply select_subseq, flags_ops_length.
Qed.
Lemma remove_b_subseq l : subseq (remove_b_just_before_its_target_label l) l.
Proof. rewrite remove_b_select. apply select_subseq, flags_b_length. Qed.

Lemma optimize_subseq l : subseq (optimize l) l.
Proof.
  rewrite optimize_unfold.
  eapply subseq_trans; [apply remove_b_subseq|].
  eapply subseq_trans; [apply remove_ops_subseq|]. apply remove_unused_subseq.
Qed.

Lemma subseq_in {A} (s l : list A) x : subseq s l -> In x s -> In x l.
Proof. induction 1; cbn; intuition. Qed.

Lemma subseq_used s l n : subseq s l -> used s n -> used l n.
Proof.
  intros H. rewrite <- !used_names_used. unfold used_names. rewrite !in_flat_map.
  intros (e & Hin & Hn). exists e. split; auto. eapply subseq_in; eauto.
Qed.

Lemma definitions_select n fs l : length fs = length l ->
  (forall i, defines l i n -> nth_error fs i = Some true) ->
  definitions n (select fs l) = definitions n l.
Proof.
  revert l; induction fs as [|f fs IH]; intros [|x l] Hlen Hk; try discriminate; auto.
  injection Hlen as Hlen.
  assert (IH' : definitions n (select fs l) = definitions n l).
  { apply IH; auto. intros i Hi. apply (Hk (S i) Hi). }
  cbn [select]. destruct f.
  - cbn [definitions]. destruct x; auto. 
  - rewrite IH'. destruct x; auto. cbn. destruct (str_dec Name_ n) as [->|]; auto.
    specialize (Hk 0 eq_refl). discriminate.
Qed.

Lemma remove_unused_definitions l n : used l n -> definitions n (remove_unused l) = definitions n l.
Proof.
  intros Hus. unfold remove_unused. rewrite remove_unused_select.
  apply definitions_select; [apply flags_unused_length|]. intros i Hd.
  apply (flag_true_or l _ i (LabelExpr n)); auto using flags_unused_length.
  intros Hf. destruct (flags_unused_false _ _ _ _ _ Hd Hf) as [E|(n' & E & Hn)]; [discriminate|].
  injection E as <-. apply Hn. apply used_names_used; exact Hus.
Qed.

Lemma remove_ops_definitions l n :
  definitions n (remove_ops_after_unconditional_branch l) = definitions n l.
Proof.
  unfold remove_ops_after_unconditional_branch. rewrite remove_ops_select.
  apply definitions_select; [apply flags_ops_length|]. intros i Hd.
  apply (flag_true_or l _ i (LabelExpr n)); auto using flags_ops_length.
  intros Hf. destruct (flags_ops_dead _ _ _ Hd Hf) as [_ Hs]. apply Hs. constructor.
Qed.

Lemma remove_b_definitions l n :
  definitions n (remove_b_just_before_its_target_label l) = definitions n l.
Proof.
  rewrite remove_b_select. apply definitions_select; [apply flags_b_length|]. intros i Hd.
  apply (flag_true_or l _ i (LabelExpr n)); auto using flags_b_length.
  intros Hf. apply flags_b_nth in Hf as (n' & k & Hb & _). unfold defines in Hd. congruence.
Qed.

Lemma optimize_definitions l n : used (optimize l) n -> definitions n (optimize l) = definitions n l.
Proof.
  intros Hu. assert (Hul : used l n) by (eapply subseq_used; [apply optimize_subseq|exact Hu]).
  rewrite optimize_unfold, remove_b_definitions, remove_ops_definitions.
  apply remove_unused_definitions; exact Hul.
Qed.

(* ------------------------------------------------------------------ what is clean afterwards *)

(* after an unconditional transfer there is nothing but no-ops up to the next label *)
Fixpoint clean_from (skip : bool) (l : listing) : bool :=
  match l with
  | [] => true
  | o :: l' =>
      if skip then
        match o with
        | LabelExpr _ => clean_from false l'
        | _ => is_nop o && clean_from true l'
        end
      else clean_from (is_uncond o) l'
  end.

Lemma remove_ops_clean skip l : clean_from skip (remove_ops_from skip l) = true.
Proof.
  revert skip; induction l as [|o l IH]; intros []; cbn; auto.
  destruct o; cbn; auto.
Qed.

Lemma next_label_after_removal n l :
  clean_from true l = true ->
  next_label_is n (remove_b_just_before_its_target_label l) = true -> next_label_is n l = true.
Proof.
  induction l as [|o l IH]; auto. rewrite remove_b_cons.
  destruct o; cbn; try discriminate; auto.
Qed.

Lemma remove_b_clean_b skip l i :
  clean_from skip l = true -> ~ b_before_own_label (remove_b_just_before_its_target_label l) i.
Proof.
  revert skip i; induction l as [|o l IH]; intros skip i Hc Hb.
  - destruct Hb as (n & k & Hb & _). destruct i; discriminate.
  - rewrite remove_b_cons in Hb.
    assert (Hc' : exists skip', clean_from skip' l = true).
    { cbn in Hc. destruct skip; [|eauto]. destruct o; cbn in Hc; eauto; discriminate. }
    destruct Hc' as [skip' Hc'].
    assert (Hother : (forall n, o <> BExpr n) -> b_before_own_label (o :: remove_b_just_before_its_target_label l) i -> False).
    { intros Hno H. destruct i as [|i].
      - apply (proj1 (b_before_own_label_0 _ _)) in H as (n & -> & _). eapply Hno; reflexivity.
      - apply (proj1 (b_before_own_label_S _ _ _)) in H. exact (IH _ _ Hc' H). }
    destruct o; try (apply Hother in Hb; [exact Hb | discriminate]).
    assert (Hcb : clean_from true l = true).
    { cbn in Hc. destruct skip; [discriminate|exact Hc]. }
    destruct (next_label_is Label_ l) eqn:E; cbn [app] in Hb.
    + eapply IH; eauto.
    + destruct i as [|i].
      * apply (proj1 (b_before_own_label_0 _ _)) in Hb as (n & En & Hn). injection En as <-.
        apply next_label_after_removal in Hn; auto. congruence.
      * apply (proj1 (b_before_own_label_S _ _ _)) in Hb. eapply IH; eauto.
Qed.

Lemma optimize_no_b_before l i : ~ b_before_own_label (optimize l) i.
Proof. rewrite optimize_unfold. eapply remove_b_clean_b. apply remove_ops_clean. Qed.

(* ------------------------------------------------------------------ Compile *)

Section PexprInd.
Variable P : pexpr -> Prop.
Hypothesis Hop : forall e, P (POp e).
Hypothesis Hlist : forall es, Forall P es -> P (PList es).
Hypothesis Hprog : forall es, P (PProgram es).
Hypothesis Hlst : forall l, P (PListing l).
Hypothesis Hoth : P POther.
Fixpoint pexpr_rect' (e : pexpr) : P e :=
  match e with
  | POp e => Hop e
  | PList es =>
      Hlist es ((fix go (es : list pexpr) : Forall P es :=
        match es with
        | [] => Forall_nil _
        | e :: es' => Forall_cons _ (pexpr_rect' e) (go es')
        end) es)
  | PProgram es => Hprog es
  | PListing l => Hlst l
  | POther => Hoth
  end.
End PexprInd.

Fixpoint compile_all (to : list cop) (es : list pexpr) : res (list cop) :=
  match es with
  | [] => Ret to
  | e :: es' => letr to' := compile1 to e in compile_all to' es'
  end.

Lemma compile1_list to es : compile1 to (PList es) = compile_all to es.
Proof.
  cbn [compile1]. revert to. induction es as [|e es IH]; intros to; cbn; auto.
Qed.

Lemma program_compile_all to es : program_compile_from to es = compile_all to es.
Proof.
  revert to; induction es as [|e es IH]; intros to; cbn; auto.
Qed.

Lemma compile1_plain e : forall to, plain_tree e -> compile1 to e = Ret (to ++ map COp (leaves e)).
Proof.
  induction e as [e|es IH|es|l|] using pexpr_rect'; intros to Hp; try (inversion Hp; fail).
  - reflexivity.
  - rewrite compile1_list. inversion Hp as [|es0 Hin]; subst es0. clear Hp.
    revert to. induction es as [|e es IHes]; intros to; cbn.
    + rewrite app_nil_r; reflexivity.
    + inversion IH; subst. rewrite H1 by (apply Hin; left; auto). cbn.
      rewrite IHes; auto. 2:{ intros e' He'. apply Hin; right; auto. }
      rewrite map_app, app_assoc. reflexivity.
Qed.

Lemma compile_plain es : (forall e, In e es -> plain_tree e) ->
  compile es = Ret (map COp (flat_map leaves es)).
Proof.
  intros H. unfold compile, program_compile. rewrite program_compile_all.
  cbn [compile_all]. rewrite compile1_plain by (constructor; auto). reflexivity.
Qed.

Lemma compile1_total e : forall to, (exists out, compile1 to e = Ret out) \/ compile1 to e = Panic.
Proof.
  induction e as [e|es IH|es|l|] using pexpr_rect'; intros to; try (left; eexists; reflexivity);
    try (right; reflexivity).
  rewrite compile1_list. revert to. induction es as [|e es IHes]; intros to; cbn; [eauto|].
  inversion IH; subst. destruct (H1 to) as [[out ->]| ->]; cbn; auto.
Qed.

Lemma compile1_panic e : forall to, compile1 to e = Panic <-> has_other e.
Proof.
  induction e as [e|es IH|es|l|] using pexpr_rect'; intros to;
    try (split; [discriminate | intros H; inversion H]).
  - rewrite compile1_list. revert to. induction es as [|e es IHes]; intros to; cbn.
    + split; [discriminate|]. intros H; inversion H; contradiction.
    + inversion IH; subst. specialize (H1 to).
      destruct (compile1_total e to) as [[out E]|E]; rewrite E in *; cbn.
      * rewrite IHes by auto. split; intros H; inversion H; subst.
        -- econstructor; [right; eauto|auto].
        -- destruct H3 as [->|Hin]; [|econstructor; eauto]. apply H1 in H4. discriminate.
      * split; auto. intros _. econstructor; [left; eauto|]. apply H1; auto.
  - split; auto. constructor.
Qed.

Lemma compile_panic es : compile es = Panic <-> exists e, In e es /\ has_other e.
Proof.
  unfold compile, program_compile. rewrite program_compile_all. cbn [compile_all].
  split.
  - intros H. destruct (compile1_total (PList es) []) as [[out E]|E]; rewrite E in H; [discriminate|].
    apply compile1_panic in E. inversion E; eauto.
  - intros (e & Hin & Ho). rewrite (proj2 (compile1_panic (PList es) [])); auto.
    econstructor; eauto.
Qed.
