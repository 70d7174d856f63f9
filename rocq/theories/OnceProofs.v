(* How often a problem is reported. *)
From Verif Require Import Base LexSpec Lexer LexerProofs Expr Flow LintSpec Linter LinterProofs LinterThms Fields Strconv Literals
  Codec OpTable Process OnceSpec.
From Coq Require Import Lia.

(* ------------------------------------------------------------------------------------------ *)
(* the linter *)
Lemma unreachable_from_lines u l : forall i s e, In e (unreachable_from u i s l) -> i <= le_line e.
Proof.
  induction l as [|o l IH]; intros i s e H; [destruct H|]. cbn [unreachable_from] in H.
  assert (Q : forall s, In e (unreachable_from u (S i) s l) -> i <= le_line e) by (intros s0 I; apply IH in I; lia).
  destruct s; [|eapply Q; eassumption].
  destruct o; try (destruct (0 <? _); eapply Q; eassumption);
    (destruct (is_nop _); [eapply Q; eassumption|]; destruct H as [<-|H]; [cbn; lia|eapply Q; eassumption]).
Qed.
Lemma unreachable_NoDup u l : forall i s, NoDup (unreachable_from u i s l).
Proof.
  induction l as [|o l IH]; intros i s; [constructor|]. cbn [unreachable_from].
  assert (Q : NoDup (UnreachableCodeError i :: unreachable_from u (S i) true l)).
  { constructor; [|apply IH]. intros H. apply unreachable_from_lines in H. cbn in H. lia. }
  destruct s; [|apply IH].
  destruct o; try (destruct (0 <? _); apply IH); (destruct (is_nop _); [apply IH|exact Q]).
Qed.
Lemma b_before_NoDup l : forall i, NoDup (b_before_label_from i l).
Proof.
  induction l as [|o l IH]; intros i; [constructor|]. rewrite b_before_cons.
  assert (Q : ~ In i (b_before_label_from (S i) l)) by (rewrite b_before_from_in; lia).
  destruct o; try apply IH. destruct (next_label_is _ _); [|apply IH]. constructor; [exact Q|apply IH].
Qed.
Lemma run_loops_NoDup l : NoDup (run_loops l).
Proof.
  unfold run_loops. generalize (seq_NoDup (length l) 0). generalize (seq 0 (length l)) as is.
  induction is as [|i is IH]; intros N; [constructor|]. inversion N as [|? ? N1 N2]; subst. specialize (IH N2).
  cbn [flat_map].
  match goal with |- NoDup (?x ++ ?y) => assert (Q : x = [] \/ x = [InfiniteLoopError i] /\ ~ In (InfiniteLoopError i) y) end.
  { destruct (i =? 0); [auto|]. destruct (nth_error l i) as [[]|]; auto. destruct (find_back _ _ _); auto. destruct (can_escape _ _ _); auto.
    right. split; [reflexivity|]. intros H. apply in_flat_map in H as (j & J & H).
    assert (j = i); [|congruence]. destruct (j =? 0); [destruct H|]. destruct (nth_error l j) as [[]|]; try (destruct H; fail).
    destruct (find_back _ _ _); [|destruct H]. destruct (can_escape _ _ _); [destruct H|]. destruct H as [H|[]]. congruence. }
  destruct Q as [-> |[-> Q]]; [exact IH|]. constructor; [exact Q|exact IH].
Qed.
Lemma pragma_NoDup l : forall i p, NoDup (pragma_from i p l).
Proof.
  induction l as [|o l IH]; intros i p; [constructor|]. cbn [pragma_from].
  destruct o; try (destruct (is_nop _); apply IH).
  destruct p; [|apply IH]. constructor; [|apply IH]. rewrite pragma_from_in. intros (k & H & _). injection H as H. lia.
Qed.

(* the findings other than missing labels *)
Definition is_missing_report (e : line_error) : bool := match e with MissingLabelError _ _ => true | _ => false end.

Lemma count_none {A} (dec : forall a b : A, {a = b} + {a <> b}) l x : ~ In x l -> count_occ dec l x = 0.
Proof. apply count_occ_not_In. Qed.
Lemma count_once {A} (dec : forall a b : A, {a = b} + {a <> b}) l x : NoDup l -> In x l -> count_occ dec l x = 1.
Proof.
  intros N I. apply (count_occ_In dec) in I. rewrite (NoDup_count_occ dec) in N. specialize (N x). lia.
Qed.

Lemma run_missing_count l i n : In (MissingLabelError i n) (run_missing l) ->
  count_occ finding_dec (run_missing l) (MissingLabelError i n) = due l (MissingLabelError i n).
Proof.
  intros I. apply run_missing_in in I as (i' & n' & E & _ & D). injection E as <- <-.
  unfold run_missing.
  assert (C : forall m, NoDup (map fst m) -> count_occ finding_dec
    (flat_map (fun '(name, users) => if existsb (fun p => seqb name (fst p)) (get_all_labels l) then []
       else map (fun user => MissingLabelError user name) users) m) (MissingLabelError i n) =
    count_occ Nat.eq_dec (imap_get m n) i).
  { assert (U : existsb (fun p => seqb n (fst p)) (get_all_labels l) = false).
    { apply Bool.not_true_iff_false. intros X. apply existsb_exists in X as [[k vs] [K X]]. cbn [fst] in X. apply seqb_eq in X. subst k.
      apply (imap_in _ _ _ (all_labels_imap_wf l)) in K as [-> K].
      destruct (imap_get (get_all_labels l) n) as [|k ks] eqn:G; [congruence|].
      apply (D k). apply all_labels_in. rewrite G. left. reflexivity. }
    induction m as [|[k vs] m IH]; intros N; [reflexivity|]. cbn [map fst] in N. inversion N as [|? ? N1 N2]; subst.
    cbn [flat_map imap_get]. rewrite count_occ_app, (IH N2).
    destruct (seqb n k) eqn:S0.
    - apply seqb_eq in S0. subst k. rewrite U.
      replace (count_occ Nat.eq_dec (imap_get m n) i) with 0.
      + rewrite Nat.add_0_r. clear. induction vs as [|v vs IH]; [reflexivity|]. cbn [map count_occ].
        destruct (Nat.eq_dec v i) as [->|Q]; destruct (finding_dec _ _) as [Q'|Q']; try congruence; lia.
      + symmetry. apply count_none. intros X. apply N1.
        clear - X. induction m as [|[k vs] m IH]; [destruct X|]. cbn [imap_get] in X. cbn [map fst].
        destruct (seqb n k) eqn:E; [left; apply seqb_eq in E; congruence|right; exact (IH X)].
    - replace (count_occ _ _ _) with 0; [reflexivity|]. symmetry. apply count_none. intros X.
      destruct (existsb (fun p => seqb k (fst p)) (get_all_labels l)) in X; [destruct X|]. apply in_map_iff in X as (u & X & _). injection X as _ X. subst k.
      rewrite (proj2 (seqb_eq n n) eq_refl) in S0. discriminate. }
  rewrite (C _ (proj1 (users_imap_wf l))). clear C D.
  unfold get_labels_users. rewrite label_users_get. cbn [imap_get app].
  assert (C : forall l k, count_occ Nat.eq_dec (use_lines k l n) i =
    if k <=? i then match nth_error l (i - k) with Some x => count_occ text_dec (mentions x) n | None => 0 end else 0).
  { clear. induction l as [|o l IH]; intros k; cbn [use_lines].
    - destruct (k <=? i); [|reflexivity]. destruct (i - k); reflexivity.
    - rewrite count_occ_app, IH.
      assert (M : forall j xs, count_occ Nat.eq_dec (map (fun _ : str => k) (filter (seqb n) xs)) j =
        if Nat.eqb j k then count_occ text_dec xs n else 0).
      { intros j xs. induction xs as [|x xs IHx]; [destruct (j =? k); reflexivity|]. cbn [filter count_occ].
        destruct (text_dec x n) as [->|Q].
        - rewrite (proj2 (seqb_eq n n) eq_refl). cbn [map count_occ]. rewrite IHx.
          destruct (Nat.eqb_spec j k), (Nat.eq_dec k j); congruence || lia.
        - destruct (seqb n x) eqn:S0; [apply seqb_eq in S0; congruence|]. exact IHx. }
      rewrite M. destruct (Nat.leb_spec k i) as [L|L].
      + destruct (Nat.eqb_spec i k) as [->|Q].
        * rewrite Nat.sub_diag. cbn [nth_error]. destruct (Nat.leb_spec (S k) k); [lia|].
          rewrite Nat.add_0_r. f_equal. destruct o; reflexivity.
        * destruct (Nat.leb_spec (S k) i); [|lia]. replace (i - k) with (S (i - S k)) by lia. reflexivity.
      + destruct (Nat.eqb_spec i k); [lia|]. destruct (Nat.leb_spec (S k) i); [lia|]. reflexivity. }
  rewrite C. cbn [Nat.leb]. rewrite Nat.sub_0_r. reflexivity.
Qed.

Theorem lint_count l e : In e (lint l) -> count_occ finding_dec (lint l) e = due l e.
Proof.
  intros I. unfold lint in *. rewrite !count_occ_app. rewrite !in_app_iff in I.
  assert (Z : forall xs, ~ In e xs -> count_occ finding_dec xs e = 0) by (intros; apply count_none; assumption).
  assert (H1 : In e (run_duplicate_labels l) -> match e with DuplicateLabelError _ _ => True | _ => False end) by (rewrite run_duplicate_in; intros (? & ? & -> & _); exact Logic.I).
  assert (H2 : In e (run_unused_labels l) -> match e with UnusedLabelError _ _ => True | _ => False end) by (rewrite run_unused_in; intros (? & ? & -> & _); exact Logic.I).
  assert (H3 : In e (run_unreachable l) -> match e with UnreachableCodeError _ => True | _ => False end) by (rewrite run_unreachable_in; intros (? & -> & _); exact Logic.I).
  assert (H4 : In e (run_b_before_label l) -> match e with BJustBeforeLabelError _ => True | _ => False end) by (rewrite run_b_before_in; intros (? & -> & _); exact Logic.I).
  assert (H5 : In e (run_missing l) -> match e with MissingLabelError _ _ => True | _ => False end) by (rewrite run_missing_in; intros (? & ? & -> & _); exact Logic.I).
  assert (H6 : In e (run_loops l) -> match e with InfiniteLoopError _ => True | _ => False end) by (rewrite run_loops_in; intros (? & ? & ? & -> & _); exact Logic.I).
  assert (H7 : In e (run_pragma l) -> match e with PragmaVersionAfterInstrError _ => True | _ => False end) by (rewrite run_pragma_in; intros (? & -> & _); exact Logic.I).
  destruct e;
    repeat match goal with
    | H : In _ ?xs -> False |- _ => rewrite (Z xs H)
    | H : _ -> True |- _ => clear H
    end; cbn [Nat.add due]; rewrite ?Nat.add_0_r.
  - apply count_once; [apply run_duplicate_NoDup|tauto].
  - apply count_once; [apply run_unused_NoDup|tauto].
  - apply count_once; [apply unreachable_NoDup|tauto].
  - apply count_once; [|tauto]. apply NoDup_map_inj; [congruence|apply b_before_NoDup].
  - apply run_missing_count. tauto.
  - apply count_once; [apply run_loops_NoDup|tauto].
  - apply count_once; [apply pragma_NoDup|tauto].
Qed.
