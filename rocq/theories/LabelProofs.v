(* Proofs about the symbols of a document. *)
From Verif Require Import Base LexSpec Lexer Expr Fields Literals Codec OpTable Process ProcessSpec ProcessDoc ProcessThms LabelSpec.

(* ------------------------------------------------------------------------------------------ *)
(* the comments *)
Lemma in_lines_join ws : in_lines ws = join_lines ws.
Proof. induction ws as [|w [|x r] IH]; [reflexivity|reflexivity|]. cbn [in_lines join_lines] in *. rewrite IH. reflexivity. Qed.

Lemma comments_quiet cs l : labels_nothing l -> comments_after cs l = cs ++ comment_on l.
Proof.
  unfold labels_nothing, comments_after, comment_on, defines. destruct l as [|t l]; [intros _; cbn; rewrite app_nil_r; reflexivity|].
  destruct (kind_of (t :: l)) as [|w|[|c n]| | |]; intros H; try discriminate H; try (rewrite app_nil_r; reflexivity).
  destruct (seqb _ _); [rewrite app_nil_r|]; reflexivity.
Qed.
Lemma comments_label cs l : ~ labels_nothing l -> comments_after cs l = [].
Proof.
  unfold labels_nothing, comments_after, defines. destruct l as [|t l]; [intros H; exfalso; apply H; reflexivity|].
  destruct (kind_of (t :: l)) as [|w|[|c n]| | |]; intros H; try (exfalso; apply H; reflexivity). reflexivity.
Qed.
Lemma labels_dec l : labels_nothing l \/ ~ labels_nothing l.
Proof. unfold labels_nothing. destruct (defines l); [left; reflexivity|right; discriminate]. Qed.

Lemma comments_since p : exists before between, p = before ++ between /\
  (before = [] \/ exists a l, before = a ++ [l] /\ ~ labels_nothing l) /\
  Forall labels_nothing between /\ fold_left comments_after p [] = flat_map comment_on between.
Proof.
  induction p as [|l p IH] using rev_ind.
  - exists [], []. repeat split; auto.
  - destruct IH as (b & m & E & B & M & F). rewrite fold_left_app. cbn [fold_left]. rewrite F.
    destruct (labels_dec l) as [L|L].
    + exists b, (m ++ [l]). rewrite E, app_assoc. split; [reflexivity|]. split; [exact B|].
      split; [apply Forall_app; auto|]. rewrite (comments_quiet _ _ L), flat_map_app. cbn. rewrite app_nil_r. reflexivity.
    + exists (p ++ [l]), []. rewrite app_nil_r. split; [reflexivity|]. split; [right; eauto|]. split; [constructor|].
      exact (comments_label _ _ L).
Qed.

Lemma all_symbols_nth ls : forall cs s, In s (all_symbols cs ls) ->
  exists i l t n, nth_error ls i = Some l /\ defines l = [(t, n)] /\ s = define_symbol (fold_left comments_after (firstn i ls) cs) (t, n).
Proof.
  induction ls as [|l ls IH]; intros cs s I; [destruct I|]. cbn [all_symbols] in I. apply in_app_iff in I as [I|I].
  - apply in_map_iff in I as ([t n] & <- & I). exists 0, l, t, n. split; [reflexivity|]. split; [|reflexivity].
    unfold defines in *. destruct l as [|x l]; [destruct I|]. destruct (kind_of (x :: l)) as [| |[|c m]| | |]; try (destruct I; fail).
    destruct I as [I|[]]. rewrite I. reflexivity.
  - destruct (IH _ _ I) as (i & l' & t & n & N & D & ->). exists (S i), l', t, n. auto.
Qed.

Theorem docs_since en src r s : process en src = Ret r -> In s (r_syms r) ->
  exists i l t, nth_error (r_lines r) i = Some l /\ defines l = [(t, sy_name s)] /\ sy_l s = i /\
    exists cs, since_label (r_lines r) i cs /\ sy_docs s = in_lines cs.
Proof.
  intros E I. destruct (process_result en src r E) as [ts [errs [raw [lds [_ [_ [A R]]]]]]].
  destruct (ro_syms _ _ _ _ _ _ _ R) as [ps [Es _]]. rewrite Es in I. apply in_map_iff in I as (s0 & <- & I).
  apply all_symbols_nth in I as (i & l & t & n & N & D & ->). exists i, l, t. cbn [with_sig define_symbol sy_name sy_l sy_docs fst snd].
  split; [exact N|]. split; [exact D|]. split.
  - rewrite <- (ro_lines _ _ _ _ _ _ _ R) in A. destruct (lines_at_nth _ _ _ _ A N) as [Q _]. rewrite Forall_forall in Q. apply Q.
    unfold defines in D. destruct l as [|x l]; [discriminate|]. destruct (kind_of (x :: l)) as [| |[|c m]| | |]; try discriminate. injection D as -> _. left. reflexivity.
  - destruct (comments_since (firstn i (r_lines r))) as (b & m & Q & B & M & F). exists (flat_map comment_on m).
    split; [exists b, m; auto|]. exact (eq_trans (f_equal join_lines F) (eq_sym (in_lines_join _))).
Qed.

Lemma comment_no_label l c : comment_on l = [c] -> labels_nothing l.
Proof.
  unfold comment_on, labels_nothing, defines. destruct l as [|t l]; [reflexivity|]. destruct (kind_of (t :: l)); try discriminate; reflexivity.
Qed.

Theorem since_above ls i cs ds : i <= length ls -> since_label ls i ds -> right_above ls i cs ->
  (forall j l, j < i - length cs -> nth_error ls j = Some l -> comment_on l <> [] ->
     exists k l', j < k < i /\ nth_error ls k = Some l' /\ ~ labels_nothing l') -> ds = cs.
Proof.
  intros Li (b & m & E & B & M & ->) (b' & k & E' & _ & K) H.
  assert (Lk : length k = length cs) by (apply (f_equal (@length _)) in K; rewrite !map_length in K; auto).
  assert (Kc : flat_map comment_on k = cs).
  { rewrite flat_map_concat_map, <- K. clear. induction cs as [|c cs IH]; [reflexivity|]. cbn. f_equal. exact IH. }
  assert (Kn : Forall labels_nothing k).
  { clear - K. revert cs K. induction k as [|l k IH]; intros [|c cs] K; try discriminate; constructor; cbn in K; injection K as K1 K2.
    - exact (comment_no_label l c (eq_sym K1)).
    - exact (IH _ K2). }
  assert (Lm : length k <= length m).
  { destruct (Nat.le_gt_cases (length k) (length m)) as [Q|Q]; [exact Q|exfalso].
    assert (Lb : length (firstn i ls) = i) by (rewrite firstn_length; lia).
    destruct B as [->|(a & l & -> & Nl)].
    - rewrite E' in Lb. cbn in E. rewrite <- E', E in Lb. rewrite E in E'. apply (f_equal (@length _)) in E'. rewrite app_length in E'. lia.
    - apply Nl. rewrite Forall_forall in Kn. apply Kn. rewrite E in E'. rewrite <- app_assoc in E'.
      assert (X : exists z, k = z ++ l :: m).
      { clear - E' Q. revert a E'. induction b' as [|y b' IH]; intros a E'; cbn in E'.
        - exists a. exact (eq_sym E').
        - destruct a as [|y' a]; cbn in E'.
          + exfalso. injection E' as _ E'. rewrite E' in Q. rewrite app_length in Q. lia.
          + injection E' as _ E'. exact (IH _ E'). }
      destruct X as [z ->]. apply in_or_app. right. left. reflexivity. }
  assert (X : exists x, m = x ++ k).
  { rewrite E in E'. clear - E' Lm. revert b' E'. induction b as [|y b IH]; intros b' E'; cbn in E'.
    - exists b'. exact E'.
    - destruct b' as [|y' b']; cbn in E'.
      + exfalso. rewrite <- E' in Lm. cbn [length] in Lm. rewrite app_length in Lm. lia.
      + injection E' as _ E'. exact (IH _ E'). }
  destruct X as [x ->]. rewrite flat_map_app, Kc. enough (flat_map comment_on x = []) as -> by reflexivity.
  apply Forall_app in M as [Mx _].
  assert (Z : forall l, In l x -> comment_on l = []).
  { intros l I. destruct (comment_on l) as [|c w] eqn:C; [reflexivity|exfalso].
    apply In_nth_error in I as [j J].
    assert (Lj : j < length x) by (apply nth_error_Some; congruence).
    assert (Lb : length (firstn i ls) = i) by (rewrite firstn_length; lia).
    rewrite E, !app_length in Lb.
    assert (P : forall p l0, nth_error (firstn i ls) p = Some l0 -> nth_error ls p = Some l0).
    { intros p l0 Q. rewrite <- (firstn_skipn i ls). rewrite nth_error_app1; [exact Q|]. apply nth_error_Some. congruence. }
    assert (Nj : nth_error ls (length b + j) = Some l).
    { apply P. rewrite E. rewrite nth_error_app2 by lia. replace (length b + j - length b) with j by lia.
      rewrite nth_error_app1 by lia. exact J. }
    destruct (H (length b + j) l) as (q & l' & Lq & Nq & Dq); [lia|exact Nj|congruence|].
    apply Dq. assert (Q : nth_error (firstn i ls) q = Some l').
    { rewrite <- (firstn_skipn i ls) in Nq. rewrite nth_error_app1 in Nq; [exact Nq|]. rewrite firstn_length. lia. }
    rewrite E in Q. rewrite nth_error_app2 in Q by lia. apply nth_error_In in Q. apply in_app_iff in Q as [Q|Q].
    - rewrite Forall_forall in Mx. exact (Mx _ Q).
    - rewrite Forall_forall in Kn. exact (Kn _ Q). }
  clear - Z. induction x as [|l x IH]; [reflexivity|]. cbn. rewrite (Z l (or_introl eq_refl)). apply IH. intros l' I. apply Z. right. exact I.
Qed.

(* ------------------------------------------------------------------------------------------ *)
(* the signature *)
Definition label_of (l : listing) (o : option str) : Prop :=
  match o with
  | None => forall k n, nth_error l k <> Some (LabelExpr n)
  | Some n => exists k, nth_error l k = Some (LabelExpr n) /\ forall m n', k < m -> nth_error l m <> Some (LabelExpr n')
  end.

Lemma nth_snoc {A} (l : list A) x k y : nth_error (l ++ [x]) k = Some y <-> nth_error l k = Some y \/ (k = length l /\ x = y).
Proof.
  split.
  - intros H. destruct (Nat.lt_ge_cases k (length l)) as [L|L].
    + rewrite nth_error_app1 in H by lia. auto.
    + rewrite nth_error_app2 in H by lia. destruct (k - length l) as [|d] eqn:D; cbn in H; [injection H as <-; right; split; [lia|reflexivity]|].
      destruct d; discriminate.
  - intros [H|[-> ->]].
    + rewrite nth_error_app1; [exact H|]. apply nth_error_Some. congruence.
    + rewrite nth_error_app2 by lia. rewrite Nat.sub_diag. reflexivity.
Qed.

Lemma label_of_snoc l o e : label_of l o -> label_of (l ++ [e]) (match e with LabelExpr n => Some n | _ => o end).
Proof.
  intros H. assert (Q : (exists n, e = LabelExpr n) \/ forall n, e <> LabelExpr n) by (destruct e; eauto; right; discriminate).
  destruct Q as [[n ->]|Q].
  - cbn. exists (length l). split; [apply nth_snoc; auto|]. intros m n' L X. apply nth_snoc in X as [X|[X _]]; [|lia].
    assert (m < length l) by (apply nth_error_Some; congruence). lia.
  - replace (match e with LabelExpr n => Some n | _ => o end) with o by (destruct e; try reflexivity; exfalso; eapply Q; reflexivity).
    destruct o as [n|]; cbn in *.
    + destruct H as (k & K & H). exists k. split; [apply nth_snoc; auto|]. intros m n' L X. apply nth_snoc in X as [X|[_ X]]; [exact (H _ _ L X)|exact (Q _ X)].
    + intros k n X. apply nth_snoc in X as [X|[_ X]]; [exact (H _ _ X)|exact (Q _ X)].
Qed.

Lemma proto_snoc l e n d a r o : label_of l o ->
  proto_below (l ++ [e]) n d a r <-> proto_below l n d a r \/ (d = length l /\ e = ProtoExpr a r /\ o = Some n).
Proof.
  intros O. split.
  - intros [P (k & K & L & M)]. apply nth_snoc in P as [P|[-> ->]].
    + left. split; [exact P|]. assert (d < length l) by (apply nth_error_Some; congruence).
      exists k. split; [exact K|]. split.
      * apply nth_snoc in L as [L|[L _]]; [exact L|lia].
      * intros m n' X Y. apply (M m n' X). apply nth_snoc. auto.
    + right. split; [reflexivity|]. split; [reflexivity|]. apply nth_snoc in L as [L|[L _]]; [|lia].
      destruct o as [n'|]; cbn in O.
      * destruct O as (k' & K' & O). destruct (Nat.lt_trichotomy k k') as [X|[->|X]].
        -- exfalso. apply (M k' n'); [split; [exact X|apply nth_error_Some; congruence]|]. apply nth_snoc. auto.
        -- congruence.
        -- exfalso. exact (O _ _ X L).
      * exfalso. exact (O _ _ L).
  - intros [[P (k & K & L & M)]|(-> & -> & ->)].
    + assert (d < length l) by (apply nth_error_Some; congruence). split; [apply nth_snoc; auto|]. exists k. split; [exact K|].
      split; [apply nth_snoc; auto|]. intros m n' X Y. apply nth_snoc in Y as [Y|[Y _]]; [exact (M _ _ X Y)|lia].
    + cbn in O. destruct O as (k & K & O). assert (k < length l) by (apply nth_error_Some; congruence).
      split; [apply nth_snoc; auto|]. exists k. split; [exact H|]. split; [apply nth_snoc; auto|].
      intros m n' X Y. apply nth_snoc in Y as [Y|[Y _]]; [exact (O m n' (proj1 X) Y)|lia].
Qed.

Lemma proto_of_cons n' x ps n : proto_of ((n', x) :: ps) n = if seqb n' n then Some x else proto_of ps n.
Proof. unfold proto_of. cbn [find fst]. destruct (seqb n' n); [destruct x|]; reflexivity. Qed.

Lemma signatures l : let s := fold_left sig_step l (None, []) in
  label_of l (fst s) /\
  forall n, match proto_of (snd s) n with
    | Some (a, r) => exists d, proto_below l n d a r /\ forall d' a' r', proto_below l n d' a' r' -> d' <= d
    | None => forall d a r, ~ proto_below l n d a r
    end.
Proof.
  induction l as [|e l IH] using rev_ind.
  - cbn. split; [intros [|k] n; discriminate|]. intros n d a r [H _]. destruct d; discriminate.
  - cbv zeta in *. rewrite fold_left_app. cbn [fold_left]. destruct (fold_left sig_step l (None, [])) as [o ps] eqn:Es.
    cbn [fst snd] in IH. destruct IH as [O P]. pose proof (label_of_snoc l o e O) as O'.
    assert (Same : forall ps', ps' = ps -> (forall n a r, e = ProtoExpr a r -> o <> Some n) ->
       forall n, match proto_of ps' n with
         | Some (a, r) => exists d, proto_below (l ++ [e]) n d a r /\ forall d' a' r', proto_below (l ++ [e]) n d' a' r' -> d' <= d
         | None => forall d a r, ~ proto_below (l ++ [e]) n d a r end).
    { intros ps' -> Ne n. specialize (P n). destruct (proto_of ps n) as [[a r]|].
      - destruct P as (d & P & M). exists d. split; [apply (proto_snoc l e n d a r o O); auto|].
        intros d' a' r' X. apply (proto_snoc l e n d' a' r' o O) in X as [X|(_ & X & Y)]; [exact (M _ _ _ X)|exfalso; exact (Ne _ _ _ X Y)].
      - intros d a r X. apply (proto_snoc l e n d a r o O) in X as [X|(_ & X & Y)]; [exact (P _ _ _ X)|exact (Ne _ _ _ X Y)]. }
    destruct e; try (split; [exact O'|cbn [sig_step snd]; apply Same; [reflexivity|discriminate]]; fail).
    (* proto *)
    destruct o as [n0|]; cbn [sig_step fst snd].
    + split; [exact O'|]. intros n. rewrite proto_of_cons. destruct (seqb n0 n) eqn:S.
      * apply seqb_eq in S. subst n0. exists (length l). split; [apply (proto_snoc l _ n _ _ _ _ O); auto|].
        intros d' a' r' X. apply (proto_snoc l _ n d' a' r' _ O) in X as [[X _]|(-> & _)]; [|lia].
        apply Nat.lt_le_incl. apply nth_error_Some. congruence.
      * assert (Ne : Some n0 <> Some n) by (intros X; injection X as ->; rewrite (proj2 (seqb_eq n n) eq_refl) in S; discriminate).
        specialize (P n). destruct (proto_of ps n) as [[a r]|].
        -- destruct P as (d & P & M). exists d. split; [apply (proto_snoc l _ n d a r _ O); auto|].
           intros d' a' r' X. apply (proto_snoc l _ n d' a' r' _ O) in X as [X|(_ & _ & Y)]; [exact (M _ _ _ X)|exfalso; exact (Ne Y)].
        -- intros d a r X. apply (proto_snoc l _ n d a r _ O) in X as [X|(_ & _ & Y)]; [exact (P _ _ _ X)|exact (Ne Y)].
    + split; [exact O'|]. apply Same; [reflexivity|discriminate].
Qed.

Theorem signature_below en src r s : process en src = Ret r -> In s (r_syms r) ->
  match sy_sig s with
  | Some (a, n) => exists d, proto_below (r_listing r) (sy_name s) d a n /\
                             forall d' a' n', proto_below (r_listing r) (sy_name s) d' a' n' -> d' <= d
  | None => forall d a n, ~ proto_below (r_listing r) (sy_name s) d a n
  end.
Proof.
  intros E I. destruct (process_result en src r E) as [ts [errs [raw [lds [_ [_ [A R]]]]]]].
  destruct (ro_syms _ _ _ _ _ _ _ R) as [ps [Es Ep]]. rewrite Es in I. apply in_map_iff in I as (s0 & <- & I).
  cbn [with_sig sy_sig sy_name]. subst ps. exact (proj2 (signatures (r_listing r)) (sy_name s0)).
Qed.

Theorem signature_first en src r s : process en src = Ret r -> In s (r_syms r) ->
  (forall d a n, proto_below (r_listing r) (sy_name s) d a n -> proto_first (r_listing r) (sy_name s) d a n) ->
  (forall i j, nth_error (r_listing r) i = Some (LabelExpr (sy_name s)) -> nth_error (r_listing r) j = Some (LabelExpr (sy_name s)) -> i = j) ->
  forall a n, sy_sig s = Some (a, n) <-> exists d, proto_first (r_listing r) (sy_name s) d a n.
Proof.
  intros E I F U a n. pose proof (signature_below en src r s E I) as H. split.
  - intros S. rewrite S in H. destruct H as (d & P & _). exists d. exact (F _ _ _ P).
  - intros (d & P1 & k & K & L & M).
    assert (P : proto_below (r_listing r) (sy_name s) d a n).
    { split; [exact P1|]. exists k. split; [exact K|]. split; [exact L|]. intros m n' X Y.
      destruct (M _ _ X Y) as [Q|[v Q]]; discriminate. }
    destruct (sy_sig s) as [[a' n']|]; [|exfalso; exact (H _ _ _ P)].
    destruct H as (d' & P' & _). destruct (F _ _ _ P') as (P1' & k' & K' & L' & M').
    pose proof (U _ _ L L') as <-.
    destruct (Nat.lt_trichotomy d d') as [X|[<-|X]].
    + destruct (M' d _ (conj K X) P1) as [Q|[v Q]]; discriminate.
    + congruence.
    + destruct (M d' _ (conj K' X) P1') as [Q|[v Q]]; discriminate.
Qed.
