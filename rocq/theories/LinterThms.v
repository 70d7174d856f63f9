(* The statements about the linter, derived from LinterProofs.v. *)
From Verif Require Import Base Expr Linter Flow LintSpec FlowProofs LinterProofs CompilerProofs.

Lemma c14 l i n :
  In (DuplicateLabelError i n) (lint l) <->
  defines l i n /\ exists j, j <> i /\ defines l j n.
Proof.
  rewrite lint_duplicate, run_duplicate_in. split.
  - intros (i' & n' & E & H). injection E as <- <-. exact H.
  - intros H. exists i, n. auto.
Qed.

Lemma NoDup_filter_app {A} (f : A -> bool) (xs ys : list A) :
  NoDup (filter f xs) -> (forall y, In y ys -> f y = false) -> NoDup (filter f (xs ++ ys)).
Proof.
  intros H Hy. rewrite filter_app. replace (filter f ys) with (@nil A); [rewrite app_nil_r; auto|].
  symmetry. induction ys as [|y ys IH]; cbn; auto. rewrite Hy by (left; auto). apply IH.
  intros y' Hy'. apply Hy; right; auto.
Qed.

Lemma NoDup_filter {A} (f : A -> bool) (xs : list A) : NoDup xs -> NoDup (filter f xs).
Proof. apply List.NoDup_filter. Qed.

Definition is_duplicate_report (e : line_error) : bool :=
  match e with DuplicateLabelError _ _ => true | _ => false end.
Definition is_unused_report (e : line_error) : bool :=
  match e with UnusedLabelError _ _ => true | _ => false end.

Lemma c14_once l : NoDup (filter is_duplicate_report (lint l)).
Proof.
  unfold lint. apply NoDup_filter_app; [apply NoDup_filter, run_duplicate_NoDup|].
  intros y Hy. rewrite !in_app_iff in Hy.
  destruct y; auto. exfalso. destruct Hy as [H|[H|[H|[H|[H|H]]]]]; not_in H.
Qed.

Lemma c15 l i n :
  In (UnusedLabelError i n) (lint l) <-> defines l i n /\ ~ used l n.
Proof.
  rewrite lint_unused, run_unused_in. split.
  - intros (i' & n' & E & H). injection E as <- <-. exact H.
  - intros H. exists i, n. auto.
Qed.

Lemma c15_redundant l i n :
  In (RedundantLabelLine i n) (lint_redundant l) <-> In (UnusedLabelError i n) (lint l).
Proof.
  rewrite c15. unfold lint_redundant. rewrite in_app_iff. split.
  - intros [H|H].
    + apply red_unused_in in H as (i' & n' & E & H). injection E as <- <-. exact H.
    + apply red_b_before_in in H as (i' & E & _). discriminate.
  - intros H. left. apply red_unused_in. exists i, n. auto.
Qed.

Lemma filter_none {A} (f : A -> bool) xs : (forall x, In x xs -> f x = false) -> filter f xs = [].
Proof.
  induction xs as [|x xs IH]; cbn; auto. intros H. rewrite H by (left; auto). apply IH.
  intros y Hy. apply H; right; auto.
Qed.

Lemma c15_once l : NoDup (filter is_unused_report (lint l)).
Proof.
  unfold lint. rewrite filter_app.
  rewrite (filter_none _ (run_duplicate_labels l)).
  2:{ intros x Hx. apply run_duplicate_in in Hx as (? & ? & -> & _). reflexivity. }
  cbn [app]. apply NoDup_filter_app; [apply NoDup_filter, run_unused_NoDup|].
  intros y Hy. rewrite !in_app_iff in Hy.
  destruct y; auto. exfalso. destruct Hy as [H|[H|[H|[H|H]]]]; not_in H.
Qed.

Lemma c17 l i :
  In (UnreachableCodeError i) (lint l) <-> instruction_at l i /\ after_unconditional l i.
Proof.
  rewrite lint_unreachable, run_unreachable_in. split.
  - intros (i' & E & H). injection E as <-. exact H.
  - intros H. exists i. auto.
Qed.

Lemma c16 l i : In (UnreachableCodeError i) (lint l) -> ~ reachable l i.
Proof. intros H. apply c17 in H as [_ H]. apply after_unconditional_unreachable; exact H. Qed.

Lemma c18_exact l i : In (BJustBeforeLabelError i) (lint l) <-> b_before_own_label l i.
Proof.
  rewrite lint_b_before, run_b_before_in. split.
  - intros (i' & E & H). injection E as <-. exact H.
  - intros H. exists i. auto.
Qed.

Lemma c18_redundant l i : In (RedundantBLine i) (lint_redundant l) <-> In (BJustBeforeLabelError i) (lint l).
Proof.
  rewrite c18_exact. unfold lint_redundant. rewrite in_app_iff. split.
  - intros [H|H].
    + apply red_unused_in in H as (i' & n' & E & H). discriminate.
    + apply red_b_before_in in H as (i' & E & H). injection E as <-. exact H.
  - intros H. right. apply red_b_before_in. exists i. auto.
Qed.

(* deleting lines is selecting the others *)
Definition flags_of (i : nat) (is : list nat) (len : nat) : list bool :=
  map (fun k => negb (existsb (Nat.eqb k) is)) (seq i len).

Lemma delete_lines_select i is l : delete_lines_from i is l = select (flags_of i is (length l)) l.
Proof.
  revert i; induction l as [|e l IH]; intros i; cbn; auto.
  destruct (existsb (Nat.eqb i) is); cbn; rewrite IH; reflexivity.
Qed.

Lemma flags_of_length i is len : length (flags_of i is len) = len.
Proof. unfold flags_of. rewrite map_length, seq_length. reflexivity. Qed.

Lemma flags_of_nth is (l : listing) i e : nth_error l i = Some e ->
  nth_error (flags_of 0 is (length l)) i = Some (negb (existsb (Nat.eqb i) is)).
Proof.
  intros H. unfold flags_of.
  assert (Hi : i < length l) by (apply nth_error_Some; congruence).
  rewrite nth_error_map. rewrite (nth_error_nth' (seq 0 (length l)) 0) by (rewrite seq_length; exact Hi).
  rewrite seq_nth by exact Hi. reflexivity.
Qed.

Lemma delete_lines_same l is :
  unique_labels l ->
  (forall i, In i is -> b_before_own_label l i \/ exists n, defines l i n /\ ~ used l n) ->
  same_behaviour l (delete_lines is l).
Proof.
  intros Hu His. unfold delete_lines. rewrite delete_lines_select.
  apply deletion_same_behaviour; auto using flags_of_length.
  - intros i e He Hf. rewrite (flags_of_nth _ _ _ _ He) in Hf.
    assert (Hin : In i is).
    { destruct (existsb (Nat.eqb i) is) eqn:E; [|discriminate].
      apply existsb_exists in E as (k & Hk & E). apply Nat.eqb_eq in E; subst; auto. }
    right. destruct (His i Hin) as [(n & k & Hb & Hk & Hd & Hm)|(n & Hd & _)].
    + right. exists n, k. rewrite He in Hb; injection Hb as ->. repeat split; auto.
      intros m Hlt. destruct (Hm m Hlt) as (e' & He' & Hs & _). eauto.
    + left. unfold defines in Hd. rewrite He in Hd. injection Hd as ->. constructor.
  - intros i n Hd Hus. rewrite (flags_of_nth _ _ _ _ Hd).
    destruct (existsb (Nat.eqb i) is) eqn:E; auto. exfalso.
    apply existsb_exists in E as (k & Hk & E). apply Nat.eqb_eq in E; subst k.
    destruct (His i Hk) as [(n' & k & Hb & _)|(n' & Hd' & Hn)]; unfold defines in *.
    + congruence.
    + rewrite Hd in Hd'. injection Hd' as <-. contradiction.
Qed.

Lemma delete_line_lines_from i k l : i <= k -> delete_lines_from i [k] l = delete_line (k - i) l.
Proof.
  revert i; induction l as [|e l IH]; intros i Hik; cbn.
  - unfold delete_line. rewrite firstn_nil, skipn_nil. reflexivity.
  - rewrite orb_false_r. destruct (Nat.eqb_spec i k) as [->|Hne].
    + rewrite Nat.sub_diag. unfold delete_line. cbn.
      assert (Hnone : forall j, k < j -> delete_lines_from j [k] l = l).
      { clear. induction l as [|e l IH]; intros j Hj; cbn; auto.
        destruct (Nat.eqb_spec j k); [lia|]. cbn. rewrite IH by lia. reflexivity. }
      apply Hnone. lia.
    + replace (k - i) with (S (k - S i)) by lia. unfold delete_line. cbn.
      rewrite IH by lia. reflexivity.
Qed.

Lemma c18_line l i : unique_labels l -> In (BJustBeforeLabelError i) (lint l) -> same_behaviour l (delete_line i l).
Proof.
  intros Hu H. apply c18_exact in H.
  pose proof (delete_line_lines_from 0 i l ltac:(lia)) as E. rewrite Nat.sub_0_r in E.
  rewrite <- E. apply (delete_lines_same l [i] Hu). intros k [<-|[]]. auto.
Qed.

Lemma c18_all l : unique_labels l ->
  same_behaviour l (delete_lines (map red_line (lint_redundant l)) l).
Proof.
  intros Hu. apply delete_lines_same; auto. intros i Hi.
  apply in_map_iff in Hi as (r & <- & Hr). destruct r as [i n|i]; cbn.
  - right. exists n. apply c15. apply c15_redundant. exact Hr.
  - left. apply c18_exact. apply c18_redundant. exact Hr.
Qed.

Lemma c19 l i n :
  In (MissingLabelError i n) (lint l) <-> names_at l i n /\ forall k, ~ defines l k n.
Proof.
  rewrite lint_missing, run_missing_in. split.
  - intros (i' & n' & E & H). injection E as <- <-. exact H.
  - intros H. exists i, n. auto.
Qed.

Lemma trap_run l j i c tr c' :
  trap l j i -> run l c tr c' ->
  (exists pc ks, c = At pc ks /\ j <= pc <= i) ->
  (exists pc ks, c' = At pc ks /\ j <= pc <= i) \/
  (c' = Halted /\ exists m n, j <= m <= i /\ names_at l m n /\ forall k, ~ defines l k n).
Proof.
  intros Ht. induction 1 as [c|c c1 c2 tr Hs H IH|c c1 c2 ev tr Hs H IH]; intros (pc & ks & -> & Hpc).
  - left; eauto.
  - destruct (Ht _ _ _ _ Hpc Hs) as [Hin|(-> & n & Hn & Hno)].
    + apply IH; exact Hin.
    + right. inversion H; subst; try (match goal with X : fstep _ Halted _ _ |- _ => inversion X end).
      split; auto. exists pc, n. auto.
  - destruct (Ht _ _ _ _ Hpc Hs) as [Hin|(-> & n & Hn & Hno)].
    + apply IH; exact Hin.
    + right. inversion H; subst; try (match goal with X : fstep _ Halted _ _ |- _ => inversion X end).
      split; auto. exists pc, n. auto.
Qed.

Lemma c20 l i : In (InfiniteLoopError i) (lint l) ->
  exists j n, nth_error l i = Some (BExpr n) /\ j < i /\ defines l j n /\
    forall pc ks tr c, j <= pc <= i -> run l (At pc ks) tr c ->
      (exists pc' ks', c = At pc' ks' /\ j <= pc' <= i) \/
      (c = Halted /\ exists m n', j <= m <= i /\ In (MissingLabelError m n') (lint l)).
Proof.
  rewrite lint_loops, run_loops_in. intros (i' & j & n & E & Hi & Hj & Hd & _ & Hc).
  injection E as <-. exists j, n. repeat split; auto.
  intros pc ks tr c Hpc Hr.
  destruct (trap_run _ _ _ _ _ _ (no_escape_trap _ _ _ _ Hi Hj Hd Hc) Hr) as [H|(-> & m & n' & Hm & Hn)]; eauto.
  right. split; auto. exists m, n'. split; auto. apply c19. exact Hn.
Qed.

Lemma c21 l i :
  In (PragmaVersionAfterInstrError i) (lint l) <->
  pragma_at l i /\ exists j, j < i /\ (instruction_at l j \/ pragma_at l j).
Proof.
  rewrite lint_pragma, run_pragma_in. split.
  - intros (i' & E & H). injection E as <-. exact H.
  - intros H. exists i. auto.
Qed.

(* every report is about a line of the listing *)
Lemma lint_line_in_range l e : In e (lint l) -> le_line e < length l.
Proof.
  assert (Hd : forall i n, defines l i n -> i < length l).
  { intros i n H. apply nth_error_Some. unfold defines in H. congruence. }
  assert (Hn : forall i n, names_at l i n -> i < length l).
  { intros i n (o & H & _). apply nth_error_Some. congruence. }
  intros H. destruct e; cbn.
  - apply c14 in H as [H _]. eauto.
  - apply c15 in H as [H _]. eauto.
  - apply c17 in H as [(o & H & _) _]. apply nth_error_Some. congruence.
  - apply c18_exact in H as (n & k & H & _). apply nth_error_Some. congruence.
  - apply c19 in H as [H _]. eauto.
  - apply c20 in H as (j & n & H & _). apply nth_error_Some. congruence.
  - apply c21 in H as [(v & H) _]. apply nth_error_Some. congruence.
Qed.

(* an executed instruction stands on a reachable line *)
Lemma run_event_line l c tr c' ev : run l c tr c' -> In ev tr ->
  exists tr0 i ks, run l c tr0 (At i ks) /\ nth_error l i = Some (fst ev).
Proof.
  induction 1 as [|c c1 c2 tr Hs H IH|c c1 c2 ev0 tr Hs H IH]; cbn; intros Hin; [contradiction| |].
  - destruct (IH Hin) as (tr0 & i & ks & Hr & Hi). exists tr0, i, ks. split; auto.
    eapply run_quiet; eauto.
  - destruct Hin as [->|Hin].
    + inversion Hs; subst; exists [], pc; eexists; (split; [apply run_refl|]); cbn; eauto.
    + destruct (IH Hin) as (tr0 & i & ks & Hr & Hi). exists (ev0 :: tr0), i, ks. split; auto.
      eapply run_event; eauto.
Qed.

Lemma may_do_line l tr ev : may_do l tr -> In ev tr ->
  exists i, reachable l i /\ nth_error l i = Some (fst ev).
Proof.
  intros [c Hc] Hin. destruct (run_event_line _ _ _ _ _ Hc Hin) as (tr0 & i & ks & Hr & Hi).
  exists i. split; auto. exists tr0, ks. exact Hr.
Qed.

(* deciding uniqueness of labels on concrete listings *)
Fixpoint unique_labels_b (l : listing) : bool :=
  match l with
  | [] => true
  | LabelExpr n :: l' =>
      negb (existsb (fun e => match e with LabelExpr m => seqb m n | _ => false end) l') && unique_labels_b l'
  | _ :: l' => unique_labels_b l'
  end.

Lemma unique_labels_b_sound l : unique_labels_b l = true -> unique_labels l.
Proof.
  assert (Hcons : forall o l, unique_labels l ->
     (forall n k, o = LabelExpr n -> ~ defines l k n) -> unique_labels (o :: l)).
  { intros o l' Hu Ho [|i] [|j] n Hi Hj; auto.
    - cbn in Hi. injection Hi as ->. exfalso; eapply Ho; eauto.
    - cbn in Hj. injection Hj as ->. exfalso; eapply Ho; eauto.
    - f_equal. eapply Hu; eauto. }
  induction l as [|o l IH]; intros H.
  - intros i j n Hi. unfold defines in Hi. destruct i; discriminate.
  - destruct o; cbn in H; try (apply Hcons; [auto | discriminate]).
    apply andb_true_iff in H as [H1 H2]. apply Hcons; auto.
    intros n k En Hk. injection En as ->. apply negb_true_iff in H1.
    enough (existsb (fun e => match e with LabelExpr m => seqb m n | _ => false end) l = true) by congruence.
    apply existsb_exists. exists (LabelExpr n). split; [eapply nth_error_In; eauto|apply seqb_refl].
Qed.
