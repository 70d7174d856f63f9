(* Proofs about the lint rules (Linter.v) against LintSpec.v. *)
From Verif Require Import Base Expr Linter Flow LintSpec FlowProofs.

(* ------------------------------------------------------------------ the string maps *)

Definition imap_wf (m : imap) : Prop :=
  NoDup (map fst m) /\ Forall (fun p => snd p <> []) m.

Lemma imap_get_append m k v k' :
  imap_get (imap_append m k v) k' = imap_get m k' ++ (if seqb k' k then [v] else []).
Proof.
  induction m as [|[k0 vs] m IH]; cbn.
  - destruct (seqb k' k); reflexivity.
  - destruct (seqb k k0) eqn:E1; cbn.
    + apply seqb_eq in E1; subst k0. destruct (seqb k' k) eqn:E2; [reflexivity|].
      rewrite app_nil_r; reflexivity.
    + destruct (seqb k' k0) eqn:E2; auto.
      apply seqb_eq in E2; subst k0. rewrite (seqb_sym k' k), E1, app_nil_r. reflexivity.
Qed.

Lemma imap_append_keys m k v k' :
  In k' (map fst (imap_append m k v)) <-> In k' (map fst m) \/ k' = k.
Proof.
  induction m as [|[k0 vs] m IH]; cbn; [intuition|].
  destruct (seqb k k0) eqn:E; cbn.
  - apply seqb_eq in E; subst. intuition.
  - rewrite IH. intuition.
Qed.

Lemma imap_append_wf m k v : imap_wf m -> imap_wf (imap_append m k v).
Proof.
  intros [Hn Hf]. split.
  - induction m as [|[k0 vs] m IH]; cbn; [repeat constructor; auto|].
    cbn in Hn. inversion Hn; subst. inversion Hf; subst.
    destruct (seqb k k0) eqn:E; cbn; constructor; auto.
    rewrite imap_append_keys. intros [H|H]; [contradiction|subst; rewrite seqb_refl in E; discriminate].
  - induction m as [|[k0 vs] m IH]; cbn; [repeat constructor; discriminate|].
    inversion Hn; subst. inversion Hf; subst.
    destruct (seqb k k0) eqn:E; constructor; auto; cbn in *; destruct vs; discriminate.
Qed.

Lemma imap_in m k vs : imap_wf m -> (In (k, vs) m <-> vs = imap_get m k /\ vs <> []).
Proof.
  intros [Hn Hf]. induction m as [|[k0 vs0] m IH]; cbn.
  - split; [contradiction|]. intros [-> H]; congruence.
  - cbn in Hn. inversion Hn; subst. inversion Hf; subst. cbn in *.
    destruct (seqb k k0) eqn:E.
    + apply seqb_eq in E; subst k0. split.
      * intros [H|H]; [injection H as <-; auto|].
        exfalso; apply H1. apply (in_map fst) in H. exact H.
      * intros [-> _]; auto.
    + rewrite <- IH by auto. split; [|auto]. intros [H|H]; auto.
      injection H as -> ->. rewrite seqb_refl in E; discriminate.
Qed.

Lemma imap_keys m k : imap_wf m -> (In k (map fst m) <-> imap_get m k <> []).
Proof.
  intros Hw. rewrite in_map_iff. split.
  - intros ([k0 vs] & <- & H). apply (imap_in _ _ _ Hw) in H as [-> H]. exact H.
  - intros H. exists (k, imap_get m k); split; auto. apply imap_in; auto.
Qed.

(* the lines of l (numbered from i) that define n, in order *)
Fixpoint def_lines (i : nat) (l : listing) (n : str) : list nat :=
  match l with
  | [] => []
  | o :: l' =>
      match o with LabelExpr m => if seqb n m then [i] else [] | _ => [] end ++ def_lines (S i) l' n
  end.

(* the lines of l (numbered from i) that name n, once per occurrence *)
Fixpoint use_lines (i : nat) (l : listing) (n : str) : list nat :=
  match l with
  | [] => []
  | o :: l' => map (fun _ => i) (filter (seqb n) (uses o)) ++ use_lines (S i) l' n
  end.

Lemma all_labels_get i m l n :
  imap_get (all_labels_from i m l) n = imap_get m n ++ def_lines i l n.
Proof.
  revert i m; induction l as [|o l IH]; intros i m; cbn.
  - rewrite app_nil_r; reflexivity.
  - rewrite IH. destruct o; cbn; auto.
    rewrite imap_get_append, <- app_assoc. reflexivity.
Qed.

Lemma all_labels_wf i m l : imap_wf m -> imap_wf (all_labels_from i m l).
Proof.
  revert i m; induction l as [|o l IH]; intros i m H; cbn; auto.
  apply IH. destruct o; auto using imap_append_wf.
Qed.

Lemma imap_nil_wf : imap_wf [].
Proof. split; constructor. Qed.

Lemma fold_append_get ls i m n :
  imap_get (fold_left (fun m n => imap_append m n i) ls m) n =
  imap_get m n ++ map (fun _ => i) (filter (seqb n) ls).
Proof.
  revert m; induction ls as [|k ls IH]; intros m; cbn.
  - rewrite app_nil_r; reflexivity.
  - rewrite IH, imap_get_append, <- app_assoc. destruct (seqb n k); reflexivity.
Qed.

Lemma fold_append_wf ls i m : imap_wf m -> imap_wf (fold_left (fun m n => imap_append m n i) ls m).
Proof.
  revert m; induction ls as [|k ls IH]; intros m H; cbn; auto using imap_append_wf.
Qed.

Lemma label_users_get i m l n :
  imap_get (label_users_from i m l) n = imap_get m n ++ use_lines i l n.
Proof.
  revert i m; induction l as [|o l IH]; intros i m; cbn.
  - rewrite app_nil_r; reflexivity.
  - rewrite IH. unfold uses. destruct (labels_of o) as [ls|]; cbn.
    + rewrite fold_append_get, <- app_assoc. reflexivity.
    + reflexivity.
Qed.

Lemma label_users_wf i m l : imap_wf m -> imap_wf (label_users_from i m l).
Proof.
  revert i m; induction l as [|o l IH]; intros i m H; cbn; auto.
  apply IH. destruct (labels_of o); auto using fold_append_wf.
Qed.

Lemma in_def_lines i l n k :
  In k (def_lines i l n) <-> i <= k /\ defines l (k - i) n.
Proof.
  revert i; induction l as [|o l IH]; intros i; cbn.
  - split; [contradiction|]. intros [_ H]. unfold defines in H. destruct (k - i); discriminate.
  - rewrite in_app_iff, IH. unfold defines.
    assert (E : forall P : Prop, (i <= k /\ nth_error (o :: l) (k - i) = Some (LabelExpr n)) <->
        (k = i /\ o = LabelExpr n) \/ (S i <= k /\ nth_error l (k - S i) = Some (LabelExpr n))).
    { intros _. split.
      - intros [Hle H]. destruct (Nat.eq_dec k i) as [->|Hne].
        + rewrite Nat.sub_diag in H. cbn in H. injection H as ->. auto.
        + replace (k - i) with (S (k - S i)) in H by lia. cbn in H. right. split; [lia|auto].
      - intros [[-> ->]|[Hle H]].
        + rewrite Nat.sub_diag. auto.
        + replace (k - i) with (S (k - S i)) by lia. split; [lia|exact H]. }
    rewrite (E True). apply or_iff_compat_r.
    destruct o; cbn; try (split; [contradiction|intros [_ H]; discriminate]).
    destruct (seqb n Name_) eqn:Es.
    + apply seqb_eq in Es; subst. cbn. intuition.
    + split; [contradiction|]. intros [_ H]. injection H as ->. rewrite seqb_refl in Es; discriminate.
Qed.

Lemma def_lines_NoDup i l n : NoDup (def_lines i l n).
Proof.
  revert i; induction l as [|o l IH]; intros i; cbn; [constructor|].
  destruct o; cbn; auto. destruct (seqb n Name_); cbn; auto.
  constructor; auto. rewrite in_def_lines. lia.
Qed.

Lemma in_use_lines i l n k :
  In k (use_lines i l n) <-> i <= k /\ names_at l (k - i) n.
Proof.
  revert i; induction l as [|o l IH]; intros i; cbn.
  - split; [contradiction|]. intros [_ (e & H & _)]. destruct (k - i); discriminate.
  - rewrite in_app_iff, IH.
    assert (Hh : In k (map (fun _ => i) (filter (seqb n) (uses o))) <-> k = i /\ names o n).
    { rewrite in_map_iff, names_uses. split.
      - intros (x & <- & H). apply filter_In in H as [H E]. apply seqb_eq in E; subst; auto.
      - intros [-> H]. exists n; split; auto. apply filter_In; split; auto using seqb_refl. }
    rewrite Hh. unfold names_at. split.
    + intros [[-> H]|[Hle (e & He & Hn)]].
      * rewrite Nat.sub_diag. split; auto. exists o; auto.
      * replace (k - i) with (S (k - S i)) by lia. split; [lia|]. exists e; auto.
    + intros [Hle (e & He & Hn)]. destruct (Nat.eq_dec k i) as [->|Hne].
      * rewrite Nat.sub_diag in He. cbn in He. injection He as ->. auto.
      * replace (k - i) with (S (k - S i)) in He by lia. cbn in He. right. split; [lia|].
        exists e; auto.
Qed.

(* the two maps of the linter, in terms of lines *)
Lemma all_labels_in l n k : In k (imap_get (get_all_labels l) n) <-> defines l k n.
Proof.
  unfold get_all_labels. rewrite all_labels_get. cbn. rewrite in_def_lines, Nat.sub_0_r.
  intuition lia.
Qed.

Lemma users_in l n k : In k (imap_get (get_labels_users l) n) <-> names_at l k n.
Proof.
  unfold get_labels_users. rewrite label_users_get. cbn. rewrite in_use_lines, Nat.sub_0_r.
  intuition lia.
Qed.

Lemma all_labels_imap_wf l : imap_wf (get_all_labels l).
Proof. apply all_labels_wf, imap_nil_wf. Qed.
Lemma users_imap_wf l : imap_wf (get_labels_users l).
Proof. apply label_users_wf, imap_nil_wf. Qed.

Lemma all_labels_NoDup l n : NoDup (imap_get (get_all_labels l) n).
Proof. unfold get_all_labels. rewrite all_labels_get. apply def_lines_NoDup. Qed.

Lemma users_nil l n : imap_get (get_labels_users l) n = [] <-> ~ used l n.
Proof.
  split.
  - intros H [k Hk]. apply users_in in Hk. rewrite H in Hk. contradiction.
  - intros H. destruct (imap_get (get_labels_users l) n) as [|k ks] eqn:E; auto.
    exfalso; apply H. exists k. apply users_in. rewrite E. left; auto.
Qed.

Lemma users_len_0 l n : (length (imap_get (get_labels_users l) n) =? 0) = true <-> ~ used l n.
Proof.
  rewrite <- users_nil, Nat.eqb_eq. destruct (imap_get (get_labels_users l) n); cbn; split; congruence.
Qed.

Lemma users_len_pos l n : (0 <? length (imap_get (get_labels_users l) n)) = true <-> used l n.
Proof.
  destruct (imap_get (get_labels_users l) n) as [|k ks] eqn:E; cbn.
  - split; [discriminate|]. intros H. apply users_nil in E. contradiction.
  - split; auto. intros _. exists k. apply users_in. rewrite E. left; auto.
Qed.

(* ------------------------------------------------------------------ LINT0001 *)

Lemma two_elements {A} (xs : list A) : NoDup xs -> forall x, In x xs ->
  ((1 <? length xs) = true <-> exists y, In y xs /\ y <> x).
Proof.
  intros Hn x Hx. destruct xs as [|a [|b xs]]; cbn in *.
  - contradiction.
  - destruct Hx as [<-|[]]. split; [cbn; discriminate|]. intros (y & [<-|[]] & H); congruence.
  - split; auto. intros _. inversion Hn; subst. cbn in *.
    destruct Hx as [<-|Hx].
    + exists b; split; [right; left; reflexivity|]. intros E. apply H1. left; exact E.
    + exists a; split; [left; reflexivity|]. intros E. apply H1. rewrite E. exact Hx.
Qed.

Lemma run_duplicate_in l e :
  In e (run_duplicate_labels l) <->
  exists i n, e = DuplicateLabelError i n /\ defines l i n /\ exists j, j <> i /\ defines l j n.
Proof.
  unfold run_duplicate_labels. rewrite in_flat_map. split.
  - intros ([n lines] & Hin & He).
    apply (imap_in _ _ _ (all_labels_imap_wf l)) in Hin as [-> Hne].
    destruct (1 <? length (imap_get (get_all_labels l) n)) eqn:E; [|contradiction].
    apply in_map_iff in He as (i & <- & Hi). exists i, n. split; auto.
    destruct (proj1 (two_elements _ (all_labels_NoDup l n) i Hi) E) as (j & Hj & Hij).
    apply all_labels_in in Hi. apply all_labels_in in Hj. eauto.
  - intros (i & n & -> & Hi & j & Hij & Hj).
    apply all_labels_in in Hi. apply all_labels_in in Hj.
    exists (n, imap_get (get_all_labels l) n). split.
    + apply imap_in; [apply all_labels_imap_wf|]. split; auto.
      intros E; rewrite E in Hi; contradiction.
    + cbv beta iota.
      rewrite (proj2 (two_elements _ (all_labels_NoDup l n) i Hi)) by eauto.
      apply in_map_iff; eauto.
Qed.

(* ------------------------------------------------------------------ LINT0002 *)

Lemma unused_shape {B} (f : nat -> str -> B) l e :
  In e (flat_map
    (fun '(name, lines) =>
       if length (imap_get (get_labels_users l) name) =? 0
       then map (fun line => f line name) lines else [])
    (get_all_labels l)) <->
  exists i n, e = f i n /\ defines l i n /\ ~ used l n.
Proof.
  rewrite in_flat_map. split.
  - intros ([n lines] & Hin & He).
    apply (imap_in _ _ _ (all_labels_imap_wf l)) in Hin as [-> Hne].
    destruct (_ =? 0) eqn:E; [|contradiction].
    apply in_map_iff in He as (i & <- & Hi). exists i, n. split; auto.
    apply all_labels_in in Hi. apply users_len_0 in E. auto.
  - intros (i & n & -> & Hi & Hu). apply all_labels_in in Hi.
    exists (n, imap_get (get_all_labels l) n). split.
    + apply imap_in; [apply all_labels_imap_wf|]. split; auto.
      intros E; rewrite E in Hi; contradiction.
    + cbv beta iota. rewrite (proj2 (users_len_0 l n) Hu). apply in_map_iff; eauto.
Qed.

Lemma run_unused_in l e :
  In e (run_unused_labels l) <->
  exists i n, e = UnusedLabelError i n /\ defines l i n /\ ~ used l n.
Proof. apply (unused_shape UnusedLabelError). Qed.

Lemma red_unused_in l e :
  In e (red_unused_labels l) <->
  exists i n, e = RedundantLabelLine i n /\ defines l i n /\ ~ used l n.
Proof. apply (unused_shape RedundantLabelLine). Qed.

(* at most one report per line *)
Lemma NoDup_app_intro {A} (xs ys : list A) :
  NoDup xs -> NoDup ys -> (forall x, In x xs -> In x ys -> False) -> NoDup (xs ++ ys).
Proof.
  induction xs as [|x xs IH]; cbn; intros Hx Hy Hd; auto.
  inversion Hx; subst. constructor.
  - rewrite in_app_iff. intros [H|H]; eauto.
  - apply IH; eauto.
Qed.

Lemma NoDup_map_inj {A B} (f : A -> B) xs :
  (forall x y, f x = f y -> x = y) -> NoDup xs -> NoDup (map f xs).
Proof.
  intros Hf. induction 1; cbn; constructor; auto.
  rewrite in_map_iff. intros (y & E & Hy). apply Hf in E as ->. contradiction.
Qed.

Lemma NoDup_imap_reports {B} (f : nat -> str -> B) (c : str -> list nat -> bool) m :
  (forall i n i' n', f i n = f i' n' -> i = i' /\ n = n') ->
  NoDup (map fst m) -> (forall p, In p m -> NoDup (snd p)) ->
  NoDup (flat_map (fun '(name, lines) => if c name lines then map (fun line => f line name) lines else []) m).
Proof.
  intros Hinj. induction m as [|[n vs] m IH]; cbn; intros Hn Hv; [constructor|].
  inversion Hn; subst.
  apply NoDup_app_intro.
  - destruct (c n vs); [|constructor]. apply NoDup_map_inj.
    + intros x y E. apply Hinj in E as [-> _]; auto.
    + apply (Hv (n, vs)); auto.
  - apply IH; auto.
  - intros x Hx Hy. destruct (c n vs); [|contradiction].
    apply in_map_iff in Hx as (i & <- & _).
    apply in_flat_map in Hy as ([n' vs'] & Hin & Hx).
    destruct (c n' vs'); [|contradiction]. apply in_map_iff in Hx as (v' & E & _).
    apply Hinj in E as [_ ->]. apply H1. apply (in_map fst) in Hin. exact Hin.
Qed.

Lemma all_labels_entries_NoDup l p : In p (get_all_labels l) -> NoDup (snd p).
Proof.
  destruct p as [n vs]. intros H. apply (imap_in _ _ _ (all_labels_imap_wf l)) in H as [-> _].
  apply all_labels_NoDup.
Qed.

Lemma run_duplicate_NoDup l : NoDup (run_duplicate_labels l).
Proof.
  apply (NoDup_imap_reports DuplicateLabelError (fun _ lines => 1 <? length lines)).
  - intros ? ? ? ? E; injection E; auto.
  - apply all_labels_imap_wf.
  - apply all_labels_entries_NoDup.
Qed.

Lemma run_unused_NoDup l : NoDup (run_unused_labels l).
Proof.
  apply (NoDup_imap_reports UnusedLabelError (fun n _ => length (imap_get (get_labels_users l) n) =? 0)).
  - intros ? ? ? ? E; injection E; auto.
  - apply all_labels_imap_wf.
  - apply all_labels_entries_NoDup.
Qed.

Lemma red_unused_NoDup l : NoDup (red_unused_labels l).
Proof.
  apply (NoDup_imap_reports RedundantLabelLine (fun n _ => length (imap_get (get_labels_users l) n) =? 0)).
  - intros ? ? ? ? E; injection E; auto.
  - apply all_labels_imap_wf.
  - apply all_labels_entries_NoDup.
Qed.

(* ------------------------------------------------------------------ LINT0003 *)

(* l = pre ++ rest: the rule run from the middle *)
Lemma unreachable_from_in l pre rest skip e :
  l = pre ++ rest ->
  (skip = true <-> exists j e', j < length pre /\ nth_error l j = Some e' /\ unconditional e' /\
     forall k n, j < k < length pre -> defines l k n -> ~ used l n) ->
  (In e (unreachable_from (get_labels_users l) (length pre) skip rest) <->
   exists i, e = UnreachableCodeError i /\ length pre <= i /\ instruction_at l i /\ after_unconditional l i).
Proof.
  revert pre skip. induction rest as [|o rest IH]; intros pre skip Hl Hskip.
  - cbn. split; [contradiction|]. intros (i & _ & Hi & (e' & He' & _) & _).
    subst l. rewrite app_nil_r in He'. assert (i < length pre) by (apply nth_error_Some; congruence). lia.
  - assert (Ho : nth_error l (length pre) = Some o).
    { subst l. rewrite nth_error_app2 by lia. rewrite Nat.sub_diag. reflexivity. }
    assert (Hl' : l = (pre ++ [o]) ++ rest) by (rewrite <- app_assoc; exact Hl).
    assert (Hlen : length (pre ++ [o]) = S (length pre)) by (rewrite app_length; cbn; lia).
    assert (IH' := fun skip' => IH (pre ++ [o]) skip' Hl'). rewrite Hlen in IH'. clear IH.
    assert (Hcont : forall skip',
      (skip' = true <-> exists j e', j < S (length pre) /\ nth_error l j = Some e' /\ unconditional e' /\
         forall k n, j < k < S (length pre) -> defines l k n -> ~ used l n) ->
      ~ (instruction_at l (length pre) /\ after_unconditional l (length pre)) ->
      (In e (unreachable_from (get_labels_users l) (S (length pre)) skip' rest) <->
       exists i, e = UnreachableCodeError i /\ length pre <= i /\ instruction_at l i /\ after_unconditional l i)).
    { intros skip' H1 H2. rewrite (IH' skip' H1). split.
      - intros (i & -> & Hi & Hx). exists i. repeat split; try tauto. lia.
      - intros (i & -> & Hi & Hx & Hy). exists i. repeat split; auto.
        destruct (Nat.eq_dec i (length pre)) as [->|]; [exfalso; auto | lia]. }
    (* a no-op never counts as an instruction *)
    assert (Hnop : is_nop o = true -> ~ (instruction_at l (length pre) /\ after_unconditional l (length pre))).
    { intros Hn [(e' & He' & Hs) _]. rewrite Ho in He'. injection He' as <-.
      apply Hs. apply is_nop_silent. exact Hn. }
    (* the inner loop goes on *)
    assert (Hstay : skip = true -> (forall n, o = LabelExpr n -> ~ used l n) ->
       (true = true <-> exists j e', j < S (length pre) /\ nth_error l j = Some e' /\ unconditional e' /\
         forall k n, j < k < S (length pre) -> defines l k n -> ~ used l n)).
    { intros Hs Hlab. split; [intros _|auto].
      apply Hskip in Hs as (j & e' & Hj & He' & Hu & Hno). exists j, e'. repeat split; auto.
      intros k n Hk Hd. destruct (Nat.eq_dec k (length pre)) as [->|].
      - unfold defines in Hd. rewrite Ho in Hd. injection Hd as ->. eauto.
      - apply (Hno k n); auto. lia. }
    destruct skip; cbn [unreachable_from].
    + destruct o;
        try (cbn [is_nop]; (apply Hcont; [apply Hstay; [auto|discriminate] | apply Hnop; reflexivity]));
        try (cbn [is_nop]; cbn [In]; rewrite (IH' true (Hstay eq_refl ltac:(discriminate)));
             split;
             [ intros [<- | (i & -> & Hi & Hx)];
               [ exists (length pre); split; [reflexivity|]; split; [lia|]; split;
                 [ eexists; split; [exact Ho|]; intros Hs; inversion Hs
                 | destruct (proj1 Hskip eq_refl) as (j & e' & Hj & He' & Hu & Hno);
                   exists j, e'; split; [exact Hj|]; split; [exact He'|]; split; [exact Hu|];
                   intros k n Hk Hd;
                   destruct (Nat.eq_dec k (length pre)) as [->|];
                   [ unfold defines in Hd; rewrite Ho in Hd; discriminate
                   | apply (Hno k n); [lia|exact Hd] ] ]
               | exists i; repeat split; try tauto; lia ]
             | intros (i & -> & Hi & Hx & Hy);
               destruct (Nat.eq_dec i (length pre)) as [->|];
               [ left; reflexivity | right; exists i; repeat split; auto; lia ] ]).
      (* a label *)
      destruct (0 <? length (imap_get (get_labels_users l) Name_)) eqn:E.
      * apply Hcont; [|apply Hnop; reflexivity]. split; [discriminate|].
        apply users_len_pos in E.
        intros (j & e' & Hj & He' & Hu & Hno). exfalso.
        destruct (Nat.eq_dec j (length pre)) as [->|].
        -- rewrite Ho in He'. injection He' as <-. inversion Hu.
        -- apply (Hno (length pre) Name_); auto. lia.
      * apply Hcont; [|apply Hnop; reflexivity]. apply Hstay; auto.
        intros n En Hu. injection En as ->. apply users_len_pos in Hu. congruence.
    + assert (Hnd : ~ (instruction_at l (length pre) /\ after_unconditional l (length pre))).
      { intros [_ (j & e' & Hj & He' & Hu & Hno)].
        enough (false = true) by discriminate. apply Hskip. exists j, e'. repeat split; auto.
        intros k n Hk. apply Hno. lia. }
      apply Hcont; auto. rewrite is_uncond_unconditional. split.
      * intros Hu. exists (length pre), o. repeat split; auto; try lia.
      * intros (j & e' & Hj & He' & Hu & Hno).
        destruct (Nat.eq_dec j (length pre)) as [->|].
        -- rewrite Ho in He'. injection He' as ->. auto.
        -- exfalso. enough (false = true) by discriminate. apply Hskip.
           exists j, e'. repeat split; auto; try lia. intros k n' Hk. apply Hno. lia.
Qed.

Lemma run_unreachable_in l e :
  In e (run_unreachable l) <->
  exists i, e = UnreachableCodeError i /\ instruction_at l i /\ after_unconditional l i.
Proof.
  unfold run_unreachable. rewrite (unreachable_from_in l [] l false e eq_refl).
  - cbn. split; intros (i & H); exists i; intuition lia.
  - split; [discriminate|]. intros (j & e' & Hj & _). cbn in Hj. lia.
Qed.

(* ------------------------------------------------------------------ LINT0004 *)

Lemma next_label_is_spec n l :
  next_label_is n l = true <->
  exists k, nth_error l k = Some (LabelExpr n) /\
    forall m, m < k -> exists e, nth_error l m = Some e /\ silent e /\ (forall n', e <> LabelExpr n').
Proof.
  assert (Hcons : forall o l', (forall n', o <> LabelExpr n') -> silent o ->
    ((exists k, nth_error l' k = Some (LabelExpr n) /\
        forall m, m < k -> exists e, nth_error l' m = Some e /\ silent e /\ (forall n', e <> LabelExpr n')) <->
     (exists k, nth_error (o :: l') k = Some (LabelExpr n) /\
        forall m, m < k -> exists e, nth_error (o :: l') m = Some e /\ silent e /\ (forall n', e <> LabelExpr n')))).
  { intros o l' Hno Hs. split.
    - intros (k & Hk & Hm). exists (S k). split; auto. intros [|m] Hlt; [exists o; auto|].
      apply Hm; lia.
    - intros ([|k] & Hk & Hm); cbn in Hk; [congruence|]. exists k; split; auto.
      intros m Hlt. apply (Hm (S m)). lia. }
  induction l as [|o l IH]; cbn [next_label_is].
  - split; [discriminate|]. intros (k & Hk & _). destruct k; discriminate.
  - destruct o;
      try (cbn [is_nop]; rewrite IH; apply Hcons; [discriminate | constructor]);
      try (cbn [is_nop]; split; [discriminate|]; intros ([|k] & Hk & Hm); cbn in Hk; [discriminate|];
           destruct (Hm 0 ltac:(lia)) as (e & He & Hs & _); cbn in He; injection He as <-; inversion Hs).
    split.
    + intros E. apply seqb_eq in E; subst. exists 0. split; auto. intros m Hm; lia.
    + intros ([|k] & Hk & Hm); cbn in Hk.
      * injection Hk as ->. apply seqb_refl.
      * destruct (Hm 0 ltac:(lia)) as (e & He & Hs & Hl). cbn in He. injection He as <-.
        exfalso; eapply Hl; reflexivity.
Qed.

Lemma b_before_cons i o l :
  b_before_label_from i (o :: l) =
  (match o with BExpr n => if next_label_is n l then [i] else [] | _ => [] end) ++ b_before_label_from (S i) l.
Proof. destruct l; destruct o; reflexivity. Qed.

Lemma b_before_own_label_0 o l :
  b_before_own_label (o :: l) 0 <-> exists n, o = BExpr n /\ next_label_is n l = true.
Proof.
  split.
  - intros (n & k & Hb & Hk & Hd & Hm). cbn in Hb. injection Hb as ->. exists n; split; auto.
    apply next_label_is_spec. destruct k as [|k]; [lia|]. exists k. split; auto.
    intros m Hlt. apply (Hm (S m)). lia.
  - intros (n & -> & H). apply next_label_is_spec in H as (k & Hk & Hm).
    exists n, (S k). repeat split; auto; try lia.
    intros [|m] Hlt; [lia|]. apply Hm. lia.
Qed.

Lemma b_before_own_label_S o l i : b_before_own_label (o :: l) (S i) <-> b_before_own_label l i.
Proof.
  split.
  - intros (n & k & Hb & Hk & Hd & Hm). destruct k as [|k]; [lia|].
    exists n, k. repeat split; auto; try lia. intros m Hlt. apply (Hm (S m)). lia.
  - intros (n & k & Hb & Hk & Hd & Hm). exists n, (S k). repeat split; auto; try lia.
    intros [|m] Hlt; [lia|]. apply Hm. lia.
Qed.

Lemma b_before_from_in i l k :
  In k (b_before_label_from i l) <-> i <= k /\ b_before_own_label l (k - i).
Proof.
  revert i; induction l as [|o l IH]; intros i.
  - cbn. split; [contradiction|]. intros (_ & n & k' & Hb & _). destruct (k - i); discriminate.
  - rewrite b_before_cons, in_app_iff, IH.
    assert (Hh : In k (match o with BExpr n => if next_label_is n l then [i] else [] | _ => [] end) <->
                 k = i /\ b_before_own_label (o :: l) 0).
    { rewrite b_before_own_label_0. split.
      - destruct o; try contradiction. destruct (next_label_is Label_ l) eqn:E; [|contradiction].
        intros [<-|[]]. eauto.
      - intros [-> (n & -> & ->)]. left; auto. }
    rewrite Hh. split.
    + intros [[-> H]|[Hle H]].
      * rewrite Nat.sub_diag. auto.
      * replace (k - i) with (S (k - S i)) by lia. rewrite b_before_own_label_S. split; auto; lia.
    + intros [Hle H]. destruct (Nat.eq_dec k i) as [->|].
      * rewrite Nat.sub_diag in H. auto.
      * replace (k - i) with (S (k - S i)) in H by lia. rewrite b_before_own_label_S in H.
        right; split; auto; lia.
Qed.

Lemma run_b_before_in l e :
  In e (run_b_before_label l) <-> exists i, e = BJustBeforeLabelError i /\ b_before_own_label l i.
Proof.
  unfold run_b_before_label. rewrite in_map_iff. split.
  - intros (i & <- & H). apply b_before_from_in in H as [_ H]. rewrite Nat.sub_0_r in H. eauto.
  - intros (i & -> & H). exists i; split; auto. apply b_before_from_in. rewrite Nat.sub_0_r. split; auto; lia.
Qed.

Lemma red_b_before_in l e :
  In e (red_b_before_label l) <-> exists i, e = RedundantBLine i /\ b_before_own_label l i.
Proof.
  unfold red_b_before_label. rewrite in_map_iff. split.
  - intros (i & <- & H). apply b_before_from_in in H as [_ H]. rewrite Nat.sub_0_r in H. eauto.
  - intros (i & -> & H). exists i; split; auto. apply b_before_from_in. rewrite Nat.sub_0_r. split; auto; lia.
Qed.

(* ------------------------------------------------------------------ LINT0005 *)

Lemma run_missing_in l e :
  In e (run_missing l) <->
  exists i n, e = MissingLabelError i n /\ names_at l i n /\ forall k, ~ defines l k n.
Proof.
  assert (Hall : forall n, existsb (fun p => seqb n (fst p)) (get_all_labels l) = true <-> exists k, defines l k n).
  { intros n. rewrite existsb_exists. split.
    - intros ([k vs] & Hin & E). apply seqb_eq in E; cbn in E; subst k.
      apply (imap_in _ _ _ (all_labels_imap_wf l)) in Hin as [-> Hne].
      destruct (imap_get (get_all_labels l) n) as [|k ks] eqn:Ek; [congruence|].
      exists k. apply all_labels_in. rewrite Ek; left; auto.
    - intros [k Hk]. apply all_labels_in in Hk.
      exists (n, imap_get (get_all_labels l) n). split; [|apply seqb_refl].
      apply imap_in; [apply all_labels_imap_wf|]. split; auto. intros E; rewrite E in Hk; contradiction. }
  unfold run_missing. rewrite in_flat_map. split.
  - intros ([n users] & Hin & He).
    apply (imap_in _ _ _ (users_imap_wf l)) in Hin as [-> Hne].
    destruct (existsb _ (get_all_labels l)) eqn:E; [contradiction|].
    apply in_map_iff in He as (i & <- & Hi). exists i, n. split; auto.
    apply users_in in Hi. split; auto. intros k Hk.
    enough (existsb (fun p => seqb n (fst p)) (get_all_labels l) = true) by congruence.
    apply Hall; eauto.
  - intros (i & n & -> & Hi & Hno). apply users_in in Hi.
    exists (n, imap_get (get_labels_users l) n). split.
    + apply imap_in; [apply users_imap_wf|]. split; auto. intros E; rewrite E in Hi; contradiction.
    + cbv beta iota. destruct (existsb (fun p => seqb n (fst p)) (get_all_labels l)) eqn:E.
      * apply Hall in E as [k Hk]. exfalso; eapply Hno; eauto.
      * apply in_map_iff; eauto.
Qed.

Lemma find_back_spec l n i j :
  find_back l n i = Some j <->
  j < i /\ defines l j n /\ forall k, j < k < i -> ~ defines l k n.
Proof.
  revert j; induction i as [|i IH]; intros j; cbn [find_back].
  - split; [discriminate|]. intros [H _]; lia.
  - assert (Hskip : ~ defines l i n -> (find_back l n i = Some j <->
       j < S i /\ defines l j n /\ forall k, j < k < S i -> ~ defines l k n)).
    { intros Hi. rewrite IH. split.
      - intros (Hj & Hd & Hno). repeat split; auto; try lia. intros k Hk.
        destruct (Nat.eq_dec k i) as [->|]; auto. apply Hno; lia.
      - intros (Hj & Hd & Hno). assert (j <> i) by (intros ->; contradiction).
        repeat split; auto; try lia. intros k Hk. apply Hno; lia. }
    unfold defines in Hskip at 1.
    destruct (nth_error l i) as [o|] eqn:E; [|apply Hskip; congruence].
    destruct o; try (apply Hskip; congruence).
    destruct (seqb Name_ n) eqn:Es.
    + apply seqb_eq in Es; subst. split.
      * intros H; injection H as <-. repeat split; auto; try lia. 
      * intros (Hj & Hd & Hno). f_equal.
        destruct (Nat.eq_dec j i) as [->|]; auto. exfalso. apply (Hno i); [lia|exact E].
    + apply Hskip. intros H; injection H as ->. rewrite seqb_refl in Es; discriminate.
Qed.

(* what canEscape = false says *)
Lemma can_escape_false l from to :
  can_escape l from to = false <->
  forall i e, from <= i <= to -> nth_error l i = Some e ->
    e <> ErrExpr /\ e <> ReturnExpr /\ e <> RetSubExpr /\
    forall n k, names e n -> defines l k n -> from <= k <= to.
Proof.
  unfold can_escape.
  set (g := fun i => match nth_error l i with Some _ => _ | None => _ end).
  assert (Hg : forall i, g i = false <-> forall e, nth_error l i = Some e ->
      e <> ErrExpr /\ e <> ReturnExpr /\ e <> RetSubExpr /\
      forall n k, names e n -> defines l k n -> from <= k <= to).
  { intros i. unfold g. destruct (nth_error l i) as [e|] eqn:E.
    2:{ split; auto. intros _ e He; discriminate. }
    destruct (labels_of e) as [ls|] eqn:El.
    - assert (Hex : existsb (fun n => existsb (fun idx => (idx <? from) || (to <? idx))
                     (imap_get (get_all_labels l) n)) ls = false <->
                    forall n k, names e n -> defines l k n -> from <= k <= to).
      { split.
        - intros H n k Hn Hd. apply names_uses in Hn. unfold uses in Hn. rewrite El in Hn.
          apply all_labels_in in Hd.
          destruct ((k <? from) || (to <? k)) eqn:Ek.
          + exfalso. enough (existsb (fun n => existsb (fun idx => (idx <? from) || (to <? idx))
                     (imap_get (get_all_labels l) n)) ls = true) by congruence.
            apply existsb_exists. exists n; split; auto. apply existsb_exists. eauto.
          + apply orb_false_iff in Ek as [H1 H2]. apply Nat.ltb_ge in H1. apply Nat.ltb_ge in H2. lia.
        - intros H. apply not_true_is_false. intros Ht.
          apply existsb_exists in Ht as (n & Hn & Ht). apply existsb_exists in Ht as (k & Hk & Ht).
          apply all_labels_in in Hk.
          assert (Hnm : names e n) by (apply names_uses; unfold uses; rewrite El; auto).
          specialize (H n k Hnm Hk).
          apply orb_true_iff in Ht as [Ht|Ht]; apply Nat.ltb_lt in Ht; lia. }
      rewrite Hex. split.
      + intros H e' He'. injection He' as <-.
        repeat split; try (intros ->; discriminate); eapply H; eauto.
      + intros H. apply (H e); auto.
    - assert (Hn : forall n, ~ names e n).
      { intros n Hn. apply names_uses in Hn. unfold uses in Hn. rewrite El in Hn. contradiction. }
      split.
      + intros Ht e' He'. injection He' as <-.
        repeat split; try (intros ->; discriminate); exfalso; eapply Hn; eauto.
      + intros H. destruct (H e eq_refl) as (H1 & H2 & H3 & _). destruct e; cbn; congruence. }
  split.
  - intros H i e Hi He. apply Hg with (i := i); auto.
    apply not_true_is_false. intros Ht.
    enough (existsb g (seq from (S to - from)) = true) by congruence.
    apply existsb_exists. exists i; split; auto. apply in_seq. lia.
  - intros H. apply not_true_is_false. intros Ht. apply existsb_exists in Ht as (i & Hi & Ht).
    apply in_seq in Hi. enough (g i = false) by congruence. apply Hg. intros e He. apply (H i); auto. lia.
Qed.

Lemma run_loops_in l e :
  In e (run_loops l) <->
  exists i j n, e = InfiniteLoopError i /\ nth_error l i = Some (BExpr n) /\
    j < i /\ defines l j n /\ (forall k, j < k < i -> ~ defines l k n) /\ can_escape l j i = false.
Proof.
  unfold run_loops. rewrite in_flat_map. split.
  - intros (i & Hi & He). destruct (i =? 0) eqn:E0; [contradiction|].
    destruct (nth_error l i) as [o|] eqn:Eo; [|contradiction].
    destruct o; try contradiction.
    destruct (find_back l Label_ i) as [j|] eqn:Ef; [|contradiction].
    destruct (can_escape l j i) eqn:Ec; [contradiction|].
    destruct He as [<-|[]]. apply find_back_spec in Ef as (H1 & H2 & H3).
    exists i, j, Label_. repeat split; auto.
  - intros (i & j & n & -> & Hi & Hj & Hd & Hno & Hc). exists i. split.
    + apply in_seq. assert (i < length l) by (apply nth_error_Some; congruence). lia.
    + destruct (Nat.eqb_spec i 0); [lia|]. rewrite Hi.
      rewrite (proj2 (find_back_spec l n i j)) by auto. rewrite Hc. left; auto.
Qed.

Lemma no_escape_trap l i j n :
  nth_error l i = Some (BExpr n) -> j < i -> defines l j n -> can_escape l j i = false -> trap l j i.
Proof.
  intros Hi Hj Hd Hc pc ks ev c Hpc Hst.
  pose proof (proj1 (can_escape_false l j i) Hc) as H.
  assert (Hlen : i < length l) by (apply nth_error_Some; congruence).
  assert (Hgoto : forall n' ks' c', names_at l pc n' -> goto l n' ks' c' ->
     (exists pc' ks', c' = At pc' ks' /\ j <= pc' <= i) \/
     (c' = Halted /\ exists n, names_at l pc n /\ forall k, ~ defines l k n)).
  { intros n' ks' c' Hn Hg. pose proof Hn as (e & He & Hne). destruct Hg as [k Hk|Hno].
    - left. exists k, ks'. split; auto. eapply (H pc e); eauto.
    - right. split; auto. exists n'. auto. }
  assert (Hnext : forall e, nth_error l pc = Some e -> (forall n', e <> BExpr n') ->
     forall ks', (exists pc' ks'', At (S pc) ks' = At pc' ks'' /\ j <= pc' <= i) \/
     (At (S pc) ks' = Halted /\ exists n, names_at l pc n /\ forall k, ~ defines l k n)).
  { intros e He Hne ks'. left. exists (S pc), ks'. split; auto.
    assert (pc <> i) by (intros ->; rewrite Hi in He; injection He as <-; eapply Hne; reflexivity). lia. }
  assert (Hterm : forall e, nth_error l pc = Some e -> e <> ErrExpr /\ e <> ReturnExpr /\ e <> RetSubExpr).
  { intros e He. destruct (H pc e Hpc He) as (E1 & E2 & E3 & _). auto. }
  remember (At pc ks) as c0 eqn:E0.
  destruct Hst as [pc0 ks0 Hx | pc0 ks0 e He Hs | pc0 ks0 e He Hp | pc0 ks0 He | pc0 ks0 He
                  | pc0 ks0 m c He Hg | pc0 ks0 e He Hcn | pc0 ks0 e k m c He Hct Hg
                  | pc0 ks0 m c He Hg | pc0 r ks0 He | pc0 He | pc0 He];
    (assert (pc0 = pc) by congruence); subst pc0;
    try (destruct (Hterm _ He) as (T1 & T2 & T3); congruence).
  - lia.
  - eapply Hnext; eauto. intros n' ->. inversion Hs.
  - eapply Hnext; eauto. intros n' ->. exact Hp.
  - eapply Hgoto; eauto. exists (BExpr m); split; auto. constructor.
  - eapply Hnext; eauto. intros n' ->. inversion Hcn.
  - eapply Hgoto; eauto. exists e; split; auto. eapply cond_target_names; eauto.
  - eapply Hgoto; eauto. exists (CallSubExpr m); split; auto. constructor.
Qed.

(* ------------------------------------------------------------------ LINT0006 *)

(* line i holds something the pragma rule counts: an instruction or a pragma *)
Definition counts (e : expr) : Prop := ~ silent e \/ exists v, e = PragmaExpr v.

Lemma pragma_from_in i prev l e :
  In e (pragma_from i prev l) <->
  exists k, e = PragmaVersionAfterInstrError (i + k) /\ pragma_at l k /\
    (prev = true \/ exists j e', j < k /\ nth_error l j = Some e' /\ counts e').
Proof.
  revert i prev; induction l as [|o l IH]; intros i prev; cbn [pragma_from].
  - split; [contradiction|]. intros (k & _ & (v & Hv) & _). destruct k; discriminate.
  - assert (Hcount : (forall v, o <> PragmaExpr v) -> counts o ->
       (In e (pragma_from (S i) true l) <-> exists k, e = PragmaVersionAfterInstrError (i + k) /\ pragma_at (o :: l) k /\
        (prev = true \/ exists j e', j < k /\ nth_error (o :: l) j = Some e' /\ counts e'))).
    { intros Hnp Hc. rewrite IH. split.
      - intros (k & -> & Hp & _). exists (S k). split; [f_equal; lia|]. split; [exact Hp|].
        right. exists 0, o. split; [lia|]. auto.
      - intros ([|k] & -> & Hp & _).
        + destruct Hp as [v Hv]. cbn in Hv. injection Hv as ->. exfalso; eapply Hnp; reflexivity.
        + exists k. split; [f_equal; lia|]. split; [exact Hp|]. auto. }
    assert (Hnop : (forall v, o <> PragmaExpr v) -> silent o ->
       (In e (pragma_from (S i) prev l) <-> exists k, e = PragmaVersionAfterInstrError (i + k) /\ pragma_at (o :: l) k /\
        (prev = true \/ exists j e', j < k /\ nth_error (o :: l) j = Some e' /\ counts e'))).
    { intros Hnp Hs. rewrite IH. split.
      - intros (k & -> & Hp & Hq). exists (S k). split; [f_equal; lia|]. split; [exact Hp|].
        destruct Hq as [Hq|(j & e' & Hj & He' & Hc)]; auto.
        right. exists (S j), e'. split; [lia|]. auto.
      - intros ([|k] & -> & Hp & Hq).
        + destruct Hp as [v Hv]. cbn in Hv. injection Hv as ->. exfalso; eapply Hnp; reflexivity.
        + exists k. split; [f_equal; lia|]. split; [exact Hp|].
          destruct Hq as [Hq|([|j] & e' & Hj & He' & Hc)]; auto.
          * cbn in He'. injection He' as <-. destruct Hc as [Hc|(v & ->)]; [contradiction|].
            exfalso; eapply Hnp; reflexivity.
          * right. exists j, e'. split; [lia|]. auto. }
    destruct o;
      try (cbn [is_nop]; apply Hnop; [discriminate | constructor]);
      try (cbn [is_nop]; apply Hcount; [discriminate | left; intros Hs; inversion Hs]).
    rewrite in_app_iff, IH. split.
    + intros [H|(k & -> & Hp & _)].
      * destruct prev; [|contradiction]. destruct H as [<-|[]].
        exists 0. split; [f_equal; lia|]. split; [|auto]. exists Version_; reflexivity.
      * exists (S k). split; [f_equal; lia|]. split; [exact Hp|]. right.
        exists 0, (PragmaExpr Version_). split; [lia|]. split; auto. right; eauto.
    + intros ([|k] & -> & Hp & Hq).
      * left. destruct Hq as [->|(j & _ & Hj & _)]; [|lia]. left. f_equal; lia.
      * right. exists k. split; [f_equal; lia|]. split; [exact Hp|]. auto.
Qed.

Lemma run_pragma_in l e :
  In e (run_pragma l) <->
  exists i, e = PragmaVersionAfterInstrError i /\ pragma_at l i /\
    exists j, j < i /\ (instruction_at l j \/ pragma_at l j).
Proof.
  unfold run_pragma. rewrite pragma_from_in. cbn. split.
  - intros (k & -> & Hp & [H|(j & e' & Hj & He' & Hc)]); [discriminate|].
    exists k. split; auto. split; auto. exists j. split; auto.
    destruct Hc as [Hc|(v & ->)]; [left; exists e'; auto | right; exists v; auto].
  - intros (i & -> & Hp & j & Hj & [ (e' & He' & Hs) | (v & Hv)]);
      exists i; split; auto; split; auto; right; [exists j, e' | exists j, (PragmaExpr v)];
      split; auto; split; auto; [left; auto | right; eauto].
Qed.

(* ------------------------------------------------------------------ the whole linter *)

Ltac not_in H :=
  first
  [ apply run_duplicate_in in H as (? & ? & H & _)
  | apply run_unused_in in H as (? & ? & H & _)
  | apply run_unreachable_in in H as (? & H & _)
  | apply run_b_before_in in H as (? & H & _)
  | apply run_missing_in in H as (? & ? & H & _)
  | apply run_loops_in in H as (? & ? & ? & H & _)
  | apply run_pragma_in in H as (? & H & _) ]; discriminate.

Lemma lint_in l e :
  In e (lint l) <->
  In e (run_duplicate_labels l) \/ In e (run_unused_labels l) \/ In e (run_unreachable l) \/
  In e (run_b_before_label l) \/ In e (run_missing l) \/ In e (run_loops l) \/ In e (run_pragma l).
Proof. unfold lint. rewrite !in_app_iff. tauto. Qed.

Ltac only_rule :=
  rewrite lint_in; split;
  [ intros [H|[H|[H|[H|[H|[H|H]]]]]]; try (not_in H); auto | tauto ].

Lemma lint_duplicate l i n : In (DuplicateLabelError i n) (lint l) <-> In (DuplicateLabelError i n) (run_duplicate_labels l).
Proof. only_rule. Qed.
Lemma lint_unused l i n : In (UnusedLabelError i n) (lint l) <-> In (UnusedLabelError i n) (run_unused_labels l).
Proof. only_rule. Qed.
Lemma lint_unreachable l i : In (UnreachableCodeError i) (lint l) <-> In (UnreachableCodeError i) (run_unreachable l).
Proof. only_rule. Qed.
Lemma lint_b_before l i : In (BJustBeforeLabelError i) (lint l) <-> In (BJustBeforeLabelError i) (run_b_before_label l).
Proof. only_rule. Qed.
Lemma lint_missing l i n : In (MissingLabelError i n) (lint l) <-> In (MissingLabelError i n) (run_missing l).
Proof. only_rule. Qed.
Lemma lint_loops l i : In (InfiniteLoopError i) (lint l) <-> In (InfiniteLoopError i) (run_loops l).
Proof. only_rule. Qed.
Lemma lint_pragma l i : In (PragmaVersionAfterInstrError i) (lint l) <-> In (PragmaVersionAfterInstrError i) (run_pragma l).
Proof. only_rule. Qed.
