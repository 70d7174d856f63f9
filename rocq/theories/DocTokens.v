(* Lexer positions against the lines of the document. *)
From Verif Require Import Base Lexer LexSpec LexerProofs LexStatements LexerThms DocLines DocProofs.

(* token t stands on the given line, whose text starts at column off *)
Definition stands (t : token) (off : nat) (line : str) : Prop :=
  exists pre raw post, line = pre ++ raw ++ post /\ tok_b t = off + length pre /\
    tok_e t = tok_b t + length raw /\ token_text t raw.

Definition placed (t : token) (l c : nat) (l0 : str) (ls : list str) : Prop :=
  (tok_l t = l /\ stands t c l0) \/
  exists k line, tok_l t = l + S k /\ nth_error ls k = Some line /\ stands t 0 line.

Lemma stands_prefix t c w line : stands t (c + length w) line -> stands t c (w ++ line).
Proof.
  intros [pre [raw [post [-> [B [E T]]]]]]. exists (w ++ pre), raw, post.
  rewrite <- app_assoc, app_length. repeat split; auto. lia.
Qed.

Lemma placed_prefix t l c w l0 ls : placed t l (c + length w) l0 ls -> placed t l c (w ++ l0) ls.
Proof. intros [[A B]|H]; [left; split; [exact A|apply stands_prefix; exact B]|right; exact H]. Qed.

Lemma placed_next t l c w l0 ls : placed t (S l) 0 l0 ls -> placed t l c w (l0 :: ls).
Proof.
  intros [[A B]|[k [line [A [B C]]]]]; right.
  - exists 0, l0. repeat split; [lia|exact B].
  - exists (S k), line. repeat split; [lia|exact B|exact C].
Qed.

Lemma placed_here t l c raw l0 ls : tok_l t = l -> tok_b t = c -> tok_e t = c + length raw ->
  token_text t raw -> placed t l c (raw ++ l0) ls.
Proof.
  intros A B C D. left. split; [exact A|]. exists [], raw, l0. cbn. repeat split; auto; lia.
Qed.

Lemma layout_placed s ps : Lexes s ps -> strings_on_one_line ps -> forall l c,
  exists l0 ls, lines_of s (l0 :: ls) /\ length ls = length (filter is_peol ps) /\
    forall t, In t (fst (layout l c ps)) -> tok_t t <> TokEol -> placed t l c l0 ls.
Proof.
  induction 1 as [|c r ps Hc L IH|r ps L IH|r ps L IH|r ps Hr L IH|w r ps Hw Hr L IH
                 |w r ps Hq Hl L IH|w Hq|c w r ps Hq Hs Hw Hr L IH]; intros P l0 c0;
    try (assert (P' : strings_on_one_line ps)
           by (intros w' Hw'; apply P; destruct Hw'; [left|right]; right; assumption));
    cbn [layout fst filter is_peol length piece_text].
  - exists [], []. split; [constructor; split; cbn; tauto|]. split; [reflexivity|]. intros t [].
  - destruct (IH P' l0 (c0 + 1)) as [l [ls [H1 [H2 H3]]]].
    exists ([c] ++ l), ls. split; [|split; [exact H2|]].
    + apply (lines_prefix [c]); [|exact H1].
      destruct Hc as [-> | ->]; split; cbn; intros [Q|[]]; discriminate.
    + intros t I T. apply placed_prefix. apply H3; auto.
  - destruct (IH P' (S l0) 0) as [l [ls [H1 [H2 H3]]]].
    exists [], (l :: ls). split; [apply (lines_lf []); [split; cbn; tauto|exact H1]|split; [cbn; congruence|]].
    intros t [<-|I] T; [cbn in T; congruence|]. apply placed_next. apply H3; auto.
  - destruct (IH P' (S l0) 0) as [l [ls [H1 [H2 H3]]]].
    exists [], (l :: ls). split; [apply (lines_crlf []); [split; cbn; tauto|exact H1]|split; [cbn; congruence|]].
    intros t [<-|I] T; [cbn in T; congruence|]. apply placed_next. apply H3; auto.
  - destruct (IH P' (S l0) 0) as [l [ls [H1 [H2 H3]]]].
    exists [], (l :: ls). split; [|split; [cbn; congruence|]].
    + apply (lines_cr []); [split; cbn; tauto| |exact H1]. intros r' ->. cbn in Hr. congruence.
    + intros t [<-|I] T; [cbn in T; congruence|]. apply placed_next. apply H3; auto.
  - destruct (IH P' l0 (c0 + S (S (length w)))) as [l [ls [H1 [H2 H3]]]].
    exists ((c_slash :: c_slash :: w) ++ l), ls. split; [|split; [exact H2|]].
    + apply (lines_prefix (c_slash :: c_slash :: w)); [|exact H1].
      apply one_line_not_eolc. repeat constructor; auto; intros [Q|Q]; discriminate.
    + intros t [<-|I] T.
      * apply placed_here; cbn; reflexivity.
      * apply placed_prefix. apply H3; auto.
  - destruct (IH P' l0 (c0 + S (length (w ++ [c_quote])))) as [l [ls [H1 [H2 H3]]]].
    exists ((c_quote :: w ++ [c_quote]) ++ l), ls. split; [|split; [exact H2|]].
    + replace (c_quote :: w ++ c_quote :: r) with ((c_quote :: w ++ [c_quote]) ++ r)
        by (cbn; rewrite <- app_assoc; reflexivity).
      apply lines_prefix; [|exact H1].
      destruct (P w) as [A B]; [left; left; reflexivity|].
      split; cbn; rewrite in_app_iff; cbn; intros Q; intuition discriminate.
    + intros t [<-|I] T.
      * apply placed_here; try reflexivity. cbn [token_text tok_t tok_v]. right.
        exists w, (unescape_quotes w). repeat split. apply unescape_quotes_spec.
      * apply placed_prefix. apply H3; auto.
  - destruct (P w) as [A B]; [right; left; reflexivity|].
    exists (c_quote :: w), []. split; [|split; [reflexivity|intros t []]]. constructor.
    split; cbn; intros Q; intuition discriminate.
  - destruct (IH P' l0 (c0 + S (length w))) as [l [ls [H1 [H2 H3]]]].
    exists ((c :: w) ++ l), ls. split; [|split; [exact H2|]].
    + apply (lines_prefix (c :: w)); [|exact H1].
      apply one_line_not_eolc. eapply Forall_impl; [|exact Hw]. intros a Ha Q. apply Ha. right. exact Q.
    + intros t [<-|I] T.
      * apply placed_here; try reflexivity. cbn [token_text tok_t tok_v]. left. repeat split; auto.
      * apply placed_prefix. apply H3; auto.
Qed.

Lemma layout_eols s ps : Lexes s ps -> forall l c,
  length (filter is_peol ps) = length (filter is_eol_tok (fst (layout l c ps))).
Proof.
  induction 1; intros l0 c0; cbn [filter is_peol layout fst length piece_text]; auto;
    cbn [is_eol_tok tok_t length]; auto.
Qed.

(* C61 *)
Theorem tokens_on_lines src ps ts errs ls :
  Lexes src ps -> strings_on_one_line ps -> tokenize src = Ret (ts, errs) -> lines_of src ls ->
  length ls = S (length (filter is_eol_tok ts)) /\
  forall t, In t ts -> tok_t t <> TokEol ->
    exists line pre raw post, nth_error ls (tok_l t) = Some line /\ line = pre ++ raw ++ post /\
      tok_b t = length pre /\ tok_e t = length (pre ++ raw) /\ token_text t raw.
Proof.
  intros L P E D. rewrite (tokenize_spec _ _ L) in E.
  destruct (layout_placed src ps L P 0 0) as [l0 [ls' [H1 [H2 H3]]]].
  rewrite (lines_of_unique _ _ D _ H1). injection E as E.
  assert (Hts : ts = fst (layout 0 0 ps)) by (rewrite E; reflexivity).
  split.
  - cbn [length]. f_equal. rewrite H2, Hts. exact (layout_eols src ps L 0 0).
  - intros t I T. rewrite Hts in I. destruct (H3 t I T) as [[A B]|[k [line [A [B C]]]]].
    + destruct B as [pre [raw [post [Q1 [Q2 [Q3 Q4]]]]]]. exists l0, pre, raw, post.
      rewrite A, app_length. repeat split; auto; lia.
    + destruct C as [pre [raw [post [Q1 [Q2 [Q3 Q4]]]]]]. exists line, pre, raw, post.
      rewrite A, app_length. repeat split; auto; lia.
Qed.
