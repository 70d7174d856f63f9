(* The messages of a document against what they claim. *)
From Verif Require Import Base LexSpec Lexer LexerProofs Expr Linter Fields Strconv Literals Codec OpTable Process ProcessSpec
  ErrorSpec ErrorProofs DiagSpec DiagProofs CodecProofs LspProofs Messages MessageSpec.
From Coq Require Import Lia ZifyN.
From Verif Require Flow LintSpec.

Lemma mode_known ls : forall m, m <> ModeNone -> last_mode m ls <> ModeNone.
Proof.
  induction ls as [|l ls IH]; intros m H; [exact H|]. cbn [last_mode]. apply IH.
  unfold mode_after. destruct (kind_of l); try exact H. destruct (seqb _ _); [discriminate|exact H].
Qed.

Theorem messages_exact en src r i m : process en src = Ret r ->
  ((exists d, In d (r_diag r) /\ dg_line d = i /\ message d = Some m) <-> true_message en src r i m).
Proof.
  intros E. split.
  - intros (d & I & <- & M). apply (reports_exact en src r d E) in I.
    destruct I as [ps w b L|i l t rs N K|i t rest p args N Kl Z|i t rest p args mv N Kl Z Lt|e l F N];
      unfold message in M; cbn [dg_kind] in M; cbn [dg_line].
    + injection M as <-. exact (TOpen en src r _ ps w L eq_refl).
    + destruct rs; cbn [reason_text] in M; try discriminate; injection M as <-.
      * exact (TMissing en src r i l t _ N K).
      * exact (TTooMany en src r i l t N K).
      * inversion K; subst. apply (TUnknown en src r i t _ N). assumption.
      * inversion K; subst. apply (TLabelName en src r i t _ N). assumption.
      * inversion K; subst. eapply (TPragma en src r i _ t _ N); assumption.
      * exact (TPragmaZero en src r i l t N K).
    + injection M as <-.
      pose proof (mode_known (firstn i (r_lines r)) ModeApp ltac:(discriminate)) as Q. change (mode_at i (r_lines r) <> ModeNone) in Q.
      destruct (mode_at i (r_lines r)) eqn:Q2; [congruence| |]; cbn [mode_text].
      * apply (TMode en src r i t rest p args "application" N Kl); rewrite Q2; auto.
      * apply (TMode en src r i t rest p args "logicsig" N Kl); rewrite Q2; auto.
    + injection M as <-. subst mv. exact (TVersion en src r i t rest p args N Kl Lt).
    + injection M as <-. destruct F; cbn [lint_text le_line].
      * eapply TDuplicate; eassumption.
      * eapply TUnused; eassumption.
      * eapply TUnreachable; eassumption.
      * eapply TBranch; eassumption.
      * eapply TNoLabel; eassumption.
      * eapply TLoop; eassumption.
      * eapply TPragmaLate; eassumption.
  - assert (W : forall d, reported en src r d -> dg_line d = i -> message d = Some m ->
      exists d, In d (r_diag r) /\ dg_line d = i /\ message d = Some m).
    { intros d R Hi M. exists d. split; [apply (reports_exact en src r d E); exact R|]. auto. }
    assert (V : forall e, finding (r_listing r) e -> le_line e = i -> lint_text e = m ->
      exists d, In d (r_diag r) /\ dg_line d = i /\ message d = Some m).
    { intros e F Hi M. destruct (finding_placed en src r e E F) as [l N].
      apply (W _ (RFinding en src r e l F N)); [exact Hi|]. unfold message. cbn [dg_kind]. rewrite M. reflexivity. }
    intros T. destruct T.
    + eapply W; [eapply ROpen; eassumption|symmetry; assumption|reflexivity].
    + eapply W; [eapply RMistake; eassumption|reflexivity|reflexivity].
    + eapply W; [eapply RMistake; eassumption|reflexivity|reflexivity].
    + eapply W; [eapply RMistake; [eassumption|apply MUnknown; assumption]|reflexivity|reflexivity].
    + eapply W; [eapply RMistake; [eassumption|apply MLabel; assumption]|reflexivity|reflexivity].
    + eapply W; [eapply RMistake; [eassumption|apply MPragmaName; assumption]|reflexivity|reflexivity].
    + eapply W; [eapply RMistake; eassumption|reflexivity|reflexivity].
    + eapply W; [eapply RMode; eassumption|reflexivity|]. unfold message. cbn [dg_kind].
      match goal with H : _ \/ _ |- _ => destruct H as [[-> ->]|[-> ->]]; reflexivity end.
    + eapply W; [eapply RVersion; [eassumption|eassumption|reflexivity|eassumption]|reflexivity|reflexivity].
    + eapply V; [eapply (FDuplicate _ i); eassumption|reflexivity|reflexivity].
    + eapply V; [eapply FUnused; eassumption|reflexivity|reflexivity].
    + eapply V; [eapply FUnreachable; eassumption|reflexivity|reflexivity].
    + eapply V; [eapply FBranch; eassumption|reflexivity|reflexivity].
    + eapply V; [eapply FMissing; eassumption|reflexivity|reflexivity].
    + eapply V; [eapply FLoop; eassumption|reflexivity|reflexivity].
    + eapply V; [eapply (FPragma _ i); eassumption|reflexivity|reflexivity].
Qed.

(* ------------------------------------------------------------------------------------------ *)
(* a message says which problem it is about *)
Lemma bs_injective a : forall b, bs a = bs b -> a = b.
Proof.
  induction a as [|c a IH]; intros [|d b] H; try discriminate; [reflexivity|].
  change (c :: bs a = d :: bs b) in H. injection H as -> H. f_equal. apply IH. exact H.
Qed.
Lemma quoted_injective a b : quoted a = quoted b -> a = b.
Proof. unfold quoted. intros H. injection H as H. apply app_inj_tail in H as [H _]. exact H. Qed.

(* digits up to a character that is none *)
Lemma digits_split (p q : str) c r s : Forall is_digit p -> Forall is_digit q -> ~ is_digit c ->
  p ++ c :: r = q ++ c :: s -> p = q /\ r = s.
Proof.
  intros P. revert q. induction P as [|x p X P IH]; intros q Q C H.
  - destruct q as [|y q]; cbn in H; [injection H as ->; auto|]. injection H as -> _. inversion Q; contradiction.
  - destruct Q as [|y q Y Q]; cbn in H; [injection H as -> _; contradiction|]. injection H as -> H.
    destruct (IH q Q C H) as [-> ->]. auto.
Qed.
Lemma dec_digits n : Forall is_digit (dec n).
Proof. apply (dec_spec n). Qed.

Lemma lint_text_injective e e' : lint_text e = lint_text e' -> le_line e = le_line e' -> e = e'.
Proof.
  destruct e, e'; cbn [lint_text le_line]; intros M H; subst; try discriminate M; try reflexivity;
    apply app_inv_head in M; apply quoted_injective in M; subst; reflexivity.
Qed.

Theorem message_injective d d' m : message d = Some m -> message d' = Some m -> dg_line d = dg_line d' ->
  (forall e, dg_kind d = KLint e -> le_line e = dg_line d) -> (forall e, dg_kind d' = KLint e -> le_line e = dg_line d') ->
  dg_kind d = dg_kind d'.
Proof.
  destruct d as [l b e k], d' as [l' b' e' k']. unfold message. cbn [dg_kind dg_line]. intros M M' -> L L'.
  assert (SM : forall a, reason_text a = None -> k <> KParse a) by (intros a Q ->; congruence).
  rewrite <- M' in M. clear M' m.
  assert (R : forall a a', reason_text a = reason_text a' -> reason_text a <> None -> a = a').
  { intros a a' H Q. destruct a, a'; cbn [reason_text] in H, Q; try congruence; try discriminate H; injection H as H.
    - apply bs_injective in H. congruence.
    - congruence.
    - congruence. }
  destruct k as [x|x|x|x y|x], k' as [x'|x'|x'|x' y'|x'].
  - destruct x, x'; first [reflexivity|discriminate M].
  - exfalso. destruct x, x'; discriminate M.
  - exfalso. destruct x; discriminate M.
  - exfalso. destruct x; discriminate M.
  - exfalso. destruct x, x'; discriminate M.
  - exfalso. destruct x, x'; discriminate M.
  - f_equal. apply R; [exact M|]. intros Q. exact (SM x Q eq_refl).
  - exfalso. destruct x; discriminate M.
  - exfalso. destruct x; discriminate M.
  - exfalso. destruct x, x'; discriminate M.
  - exfalso. destruct x'; discriminate M.
  - exfalso. destruct x'; discriminate M.
  - injection M as M. f_equal. destruct x, x'; first [reflexivity|discriminate M].
  - discriminate M.
  - exfalso. destruct x'; discriminate M.
  - exfalso. destruct x'; discriminate M.
  - exfalso. destruct x'; discriminate M.
  - discriminate M.
  - apply (f_equal (fun o => match o with Some s => s | None => [] end)) in M. cbv beta iota in M.
    apply app_inv_head in M. change (bs " (current: ") with (" "%char :: bs "(current: ") in M. cbn [app] in M.
    assert (ND : forall c, c = " "%char \/ c = ")"%char -> ~ is_digit c).
    { intros c C (v & V & B). destruct C as [-> | ->]; vm_compute byte in B; lia. }
    apply (digits_split _ _ " "%char) in M as [M1 M2]; [|apply dec_digits|apply dec_digits|apply ND; auto].
    apply app_inv_head in M2. change (bs ")") with [")"%char] in M2.
    apply (digits_split _ _ ")"%char) in M2 as [M2 _]; [|apply dec_digits|apply dec_digits|apply ND; auto].
    apply dec_injective in M1, M2. congruence.
  - exfalso. destruct x'; discriminate M.
  - exfalso. destruct x, x'; discriminate M.
  - exfalso. destruct x, x'; discriminate M.
  - exfalso. destruct x; discriminate M.
  - exfalso. destruct x; discriminate M.
  - injection M as M. f_equal. apply lint_text_injective; [exact M|]. rewrite (L x eq_refl), (L' x' eq_refl). reflexivity.
Qed.

Lemma reported_line en src r d e : reported en src r d -> dg_kind d = KLint e -> le_line e = dg_line d.
Proof. intros R. destruct R; cbn [dg_kind dg_line]; intros K; try discriminate. injection K as ->. reflexivity. Qed.

Lemma lexes_twice src ps w qs v : Lexes src (ps ++ [POpen w]) -> Lexes src (qs ++ [POpen v]) ->
  lines_behind ps = lines_behind qs /\ column_behind (ps ++ [POpen w]) = column_behind (qs ++ [POpen v]).
Proof.
  intros A B. pose proof (tokenize_spec _ _ A) as TA. rewrite (tokenize_spec _ _ B) in TA. injection TA as TA.
  pose proof (proj2 (layout_open _ _ B 0 0 _) (ex_intro _ qs (ex_intro _ v (conj eq_refl eq_refl)))) as I.
  rewrite TA in I. apply (layout_open _ _ A 0 0) in I as (qs' & w' & Q & I).
  apply app_inj_tail in Q as [<- _]. injection I as L C. split; [symmetry; exact L|symmetry; exact C].
Qed.

Theorem messages_apart en src r d d' m : process en src = Ret r -> In d (r_diag r) -> In d' (r_diag r) ->
  dg_line d = dg_line d' -> message d = Some m -> message d' = Some m -> d = d'.
Proof.
  intros E I I' L M M'. apply (reports_exact en src r _ E) in I, I'.
  assert (K : dg_kind d = dg_kind d').
  { apply (message_injective _ _ m M M' L); intros e; apply (reported_line en src r); assumption. }
  clear M M'. destruct I as [ps w b X|i l t rs N X|i t rest p args N Kl Z|i t rest p args mv N Kl Z Lt|e l F N];
    destruct I' as [ps' w' b' X'|i' l' t' rs' N' X'|i' t' rest' p' args' N' Kl' Z'|i' t' rest' p' args' mv' N' Kl' Z' Lt'|e' l' F' N'];
    cbn [dg_kind dg_line] in K, L; try discriminate.
  - destruct (lexes_twice _ _ _ _ _ X X') as [Q1 Q2]. unfold b, b'. rewrite Q1, Q2. reflexivity.
  - injection K as <-. subst i'. rewrite N in N'. injection N' as <-.
    destruct (mistake_unique _ _ _ _ _ _ _ X X') as [<- _]. reflexivity.
  - subst i'. rewrite N in N'. injection N' as <- <-. reflexivity.
  - subst i'. rewrite N in N'. injection N' as <- <-. injection K as <-. reflexivity.
  - injection K as <-. rewrite N in N'. injection N' as <-. reflexivity.
Qed.

(* one finding and its text *)
Lemma message_finding en src r e : process en src = Ret r ->
  ((exists d, In d (r_diag r) /\ dg_line d = le_line e /\ message d = Some (lint_text e)) <-> finding (r_listing r) e).
Proof.
  intros E. split.
  - intros (d & I & L & M). apply (reports_exact en src r _ E) in I.
    assert (K : dg_kind d = dg_kind (Diag (le_line e) 0 0 (KLint e))).
    { apply (message_injective d (Diag (le_line e) 0 0 (KLint e)) (lint_text e) M eq_refl L); [intros x; apply (reported_line en src r _ _ I)|].
      intros x. cbn [dg_kind dg_line]. intros H. injection H as ->. reflexivity. }
    destruct I; cbn [dg_kind] in K; try discriminate. injection K as <-. assumption.
  - intros F. destruct (finding_placed en src r e E F) as [l N].
    eexists. split; [apply (reports_exact en src r _ E); exact (RFinding en src r e l F N)|]. split; reflexivity.
Qed.
