(* Lines of words put between two lines of a document. *)
From Verif Require Import Base LexSpec Lexer LexerProofs LexerThms Expr Linter Fields Literals Codec OpTable Print Process ProcessSpec ProcessDoc ProcessThms
  RoundTripSpec RoundTripLex DocProofs EditProofs FixLines ErrorSpec DiagSpec DiagProofs.
From Verif Require Flow LintSpec.
From Coq Require Import Lia.

Lemma last_lf_not_cr pre a : Lexes pre a -> ends_line a -> last pre c_lf = c_lf -> last a (PWord []) <> PEol [c_cr].
Proof.
  intros L [->|[b [w ->]]] H; [discriminate|]. rewrite last_last. intros [= ->].
  rewrite <- (lexes_text _ _ L), map_app, concat_app in H. cbn in H. rewrite last_last in H. discriminate.
Qed.

Lemma text_pieces_ends ls : ends_line (text_pieces ls).
Proof.
  induction ls as [|[ws b] ls [IH|[u [w IH]]]]; [left; reflexivity| |]; right; cbn [text_pieces]; rewrite IH.
  - exists (word_pieces ws ++ (if b then [PBlank c_space] else [])), [c_lf]. rewrite <- app_assoc. reflexivity.
  - exists (word_pieces ws ++ (if b then [PBlank c_space] else []) ++ PEol [c_lf] :: u), w. rewrite <- !app_assoc. reflexivity.
Qed.
Lemma word_text_last ls : last (word_text ls) c_lf = c_lf.
Proof.
  induction ls as [|[ws b] ls IH]; [reflexivity|]. cbn [word_text]. rewrite app_assoc.
  assert (X : forall u v : str, last (u ++ c_lf :: v) c_lf = last (c_lf :: v) c_lf).
  { induction u as [|x u IHu]; intros v; [reflexivity|]. rewrite <- app_comm_cons. cbn [last]. rewrite IHu. destruct u; reflexivity. }
  rewrite X. destruct (word_text ls); [reflexivity|exact IH].
Qed.

Lemma same_tok_code l l' : Forall2 same_tok l l' -> same_texts (code_of l) (code_of l').
Proof.
  intros F. apply (code_rel same_tok) in F.
  2: { intros t t' [T _]. unfold is_comment. rewrite T. reflexivity. }
  unfold same_texts. induction F as [|t t' x x' [T V] F IH]; [reflexivity|]. cbn [map]. rewrite IH. f_equal. unfold is_comment. rewrite T, V. reflexivity.
Qed.

Lemma lines_exist ts : exists raw, Lines ts raw.
Proof.
  assert (X : forall n ts, length ts <= n -> exists raw, Lines ts raw).
  { clear. induction n as [|n IH]; intros ts H.
    - destruct ts; [exists []; constructor|cbn in H; lia].
    - assert (C : existsb is_eol ts = false \/ exists l t r, ts = l ++ t :: r /\ existsb is_eol l = false /\ is_eol t = true).
      { clear. induction ts as [|x ts [IH|(l & t & r & -> & A & B)]].
        - left. reflexivity.
        - destruct (is_eol x) eqn:X; [right; exists [], x, ts; auto|left; cbn; rewrite X; exact IH].
        - right. destruct (is_eol x) eqn:X; [exists [], x, (l ++ t :: r); auto|exists (x :: l), t, r]. split; [reflexivity|]. cbn. rewrite X. auto. }
      destruct C as [C|(l & t & r & -> & A & B)].
      + destruct ts as [|x ts]; [exists []; constructor|]. exists [x :: ts]. constructor; [discriminate|exact C].
      + destruct (IH r) as [raw R]; [rewrite app_length in H; cbn in H; lia|]. exists (l :: raw). constructor; assumption. }
  apply (X (length ts)). lia.
Qed.

Lemma insert_pieces en pre a post mid x ws r0 : Lexes pre a -> ends_line a -> last pre c_lf = c_lf ->
  Lexes mid x -> ends_line x -> last mid c_lf = c_lf ->
  (forall l, exists raw, Lines (fst (layout l 0 x)) raw /\ Forall2 word_line raw ws) -> process en (pre ++ post) = Ret r0 ->
  exists b ra rs rb rb' ts errs raw, Lexes (pre ++ post) (a ++ b) /\ Lexes (pre ++ mid ++ post) (a ++ x ++ b) /\
    r_lines r0 = ra ++ rb /\ length ra = eols a /\ Forall2 word_line rs ws /\ Forall2 same_texts rb rb' /\
    tokenize (pre ++ mid ++ post) = Ret (ts, errs) /\ Lines ts raw /\ map code_of raw = ra ++ rs ++ rb'.
Proof.
  intros L E Z Lw Ew Zw W P. destruct (lexes_exists post) as [b Lb]. pose proof (last_lf_not_cr _ _ L E Z) as NC.
  assert (L0 : Lexes (pre ++ post) (a ++ b)) by (apply lexes_join; [exact L|exact E|exact Lb|tauto]).
  assert (L1 : Lexes (mid ++ post) (x ++ b)).
  { apply lexes_join; [exact Lw|exact Ew|exact Lb|]. pose proof (last_lf_not_cr _ _ Lw Ew Zw). tauto. }
  assert (L2 : Lexes (pre ++ mid ++ post) (a ++ x ++ b)) by (apply lexes_join; [exact L|exact E|exact L1|tauto]).
  assert (Oa : forall w, ~ In (POpen w) a) by (apply (no_open pre a []); [rewrite app_nil_r; exact L|exact E]).
  assert (Ow : forall w, ~ In (POpen w) x) by (apply (no_open mid _ []); [rewrite app_nil_r; exact Lw|exact Ew]).
  destruct (layout_app a Oa 0 0 b) as [c0 [A0 [B0 C0]]]. assert (c0 = 0) as -> by (destruct a as [|y a]; [apply C0; reflexivity|apply B0; [exact E|discriminate]]).
  destruct (layout_app a Oa 0 0 (x ++ b)) as [c1 [A1 [B1 C1]]]. assert (c1 = 0) as -> by (destruct a as [|y a]; [apply C1; reflexivity|apply B1; [exact E|discriminate]]).
  destruct (layout_app x Ow (end_line 0 a) 0 b) as [c2 [A2 [B2 C2]]].
  assert (c2 = 0) as -> by (destruct x as [|y z]; [apply C2; reflexivity|apply B2; [exact Ew|discriminate]]).
  destruct (lines_exist (fst (layout 0 0 a))) as [ra Ra].
  destruct (lines_exist (fst (layout (end_line 0 a) 0 b))) as [rb Rb].
  destruct (W (end_line 0 a)) as [rs [Rs Fs]].
  destruct (Lines_rel same_tok _ _ ltac:(intros t t' [T _]; unfold is_eol; rewrite T; reflexivity) Rb _ (layout_same b (end_line 0 a) 0 (end_line (end_line 0 a) x) 0)) as [rb' [Rb' Fb]].
  destruct (process_result en _ r0 P) as [ts0 [errs0 [raw0 [lds [T0 [Ln0 [_ R]]]]]]].
  rewrite (tokenize_spec _ _ L0) in T0. injection T0 as T0.
  assert (ts0 = fst (layout 0 0 a) ++ fst (layout (end_line 0 a) 0 b)) as -> by (rewrite <- A0; rewrite T0; reflexivity).
  rewrite (RoundTripLex.Lines_fun _ _ Ln0 _ (Lines_app _ _ Ra (layout_ends a 0 0 Oa E) _ _ Rb)) in R.
  exists b, (map code_of ra), rs, (map code_of rb), (map code_of rb'), (fst (layout 0 0 (a ++ x ++ b))), (snd (layout 0 0 (a ++ x ++ b))), (ra ++ rs ++ rb').
  split; [exact L0|]. split; [exact L2|]. split; [rewrite (ro_lines _ _ _ _ _ _ _ R), map_app; reflexivity|].
  split; [rewrite map_length; exact (ends_line_count a 0 0 ra Oa E Ra)|]. split; [exact Fs|]. split.
  - clear - Fb. induction Fb as [|y y' z z' H F IH]; [constructor|]. cbn [map]. constructor; [apply same_tok_code; exact H|exact IH].
  - split; [rewrite (tokenize_spec _ _ L2); destruct (layout 0 0 (a ++ x ++ b)); reflexivity|]. split.
    + rewrite A1, A2. apply Lines_app; [exact Ra|exact (layout_ends a 0 0 Oa E)|]. apply Lines_app; [exact Rs|exact (layout_ends _ _ _ Ow Ew)|exact Rb'].
    + rewrite !map_app. f_equal. f_equal. clear - Fs. induction Fs as [|y z rs ls H F IH]; [reflexivity|]. cbn [map]. rewrite (word_line_code _ _ H), IH. reflexivity.
Qed.

Fixpoint all_fine (en : env) (m : mode) (v : N) (ls : list (list token)) : Prop :=
  match ls with
  | [] => True
  | l :: r => (statement en v l /\ available m v l) /\ all_fine en (mode_after m l) (version_after v l) r
  end.
Lemma all_fine_nth en ls : forall m v, all_fine en m v ls <-> forall i l, nth_error ls i = Some l ->
  statement en (last_version v (firstn i ls)) l /\ available (last_mode m (firstn i ls)) (last_version v (firstn i ls)) l.
Proof.
  induction ls as [|x ls IH]; intros m v; cbn [all_fine].
  - split; [|auto]. intros _ [|i] l; discriminate.
  - rewrite IH. split.
    + intros [H Hr] [|i] l N; [injection N as <-; exact H|exact (Hr i l N)].
    + intros H. split; [exact (H 0 x eq_refl)|]. intros i l N. exact (H (S i) l N).
Qed.
Lemma all_fine_app en a : forall m v b, all_fine en m v (a ++ b) <-> all_fine en m v a /\ all_fine en (last_mode m a) (last_version v a) b.
Proof.
  induction a as [|x a IH]; intros m v b; cbn [app all_fine last_mode last_version]; [tauto|]. rewrite IH. tauto.
Qed.
Lemma same_fine en ls ls' : Forall2 same_texts ls ls' -> forall m v, all_fine en m v ls -> all_fine en m v ls'.
Proof.
  induction 1 as [|l l' ls ls' H _ IH]; intros m v; [auto|]. cbn [all_fine].
  unfold statement, available, mode_after, version_after. rewrite (same_kind _ _ H). intros [A B]. split; [exact A|]. apply IH. exact B.
Qed.
Lemma fine_surplus en ls : forall m v, all_fine en m v ls -> all_surplus en v ls = 0.
Proof.
  induction ls as [|l ls IH]; intros m v; [reflexivity|]. cbn [all_fine all_surplus]. intros [[S _] F].
  rewrite (IH _ _ F). unfold surplus. unfold statement in S. destruct (kind_of l); try reflexivity. destruct S as [e ->]. reflexivity.
Qed.
Lemma fine_length en ls m v : all_fine en m v ls -> length (all_entries en v ls) = length ls.
Proof. intros F. rewrite all_entries_length, (fine_surplus _ _ _ _ F). lia. Qed.

(* lines of words, some of them indented, that end as on Windows *)
Fixpoint crlf_text (ls : list (bool * list str)) : str :=
  match ls with
  | [] => []
  | (t, ws) :: r => (if t then [c_tab] else []) ++ join ws ++ [c_cr; c_lf] ++ crlf_text r
  end.
Fixpoint crlf_pieces (ls : list (bool * list str)) : list piece :=
  match ls with
  | [] => []
  | (t, ws) :: r => (if t then [PBlank c_tab] else []) ++ word_pieces ws ++ PEol [c_cr; c_lf] :: crlf_pieces r
  end.
Lemma crlf_lexes ls : Forall (fun x => Forall (fun w => one_token w = true) (snd x)) ls -> Lexes (crlf_text ls) (crlf_pieces ls).
Proof.
  induction ls as [|[t ws] ls IH]; intros F; [constructor|]. inversion F as [|? ? W Fw]; subst. cbn [crlf_text crlf_pieces].
  assert (X : Lexes (join ws ++ [c_cr; c_lf] ++ crlf_text ls) (word_pieces ws ++ PEol [c_cr; c_lf] :: crlf_pieces ls)).
  { apply words_lex; [exact W|right; unfold is_eolc; auto|]. cbn [app]. constructor. apply IH. exact Fw. }
  destruct t; [|exact X]. cbn [app]. constructor; [right; reflexivity|exact X].
Qed.
Lemma crlf_ends ls : ends_line (crlf_pieces ls).
Proof.
  induction ls as [|[t ws] ls [IH|[u [w IH]]]]; [left; reflexivity| |]; right; cbn [crlf_pieces]; rewrite IH.
  - exists ((if t then [PBlank c_tab] else []) ++ word_pieces ws), [c_cr; c_lf]. rewrite <- app_assoc. reflexivity.
  - exists ((if t then [PBlank c_tab] else []) ++ word_pieces ws ++ PEol [c_cr; c_lf] :: u), w. rewrite <- !app_assoc. reflexivity.
Qed.
Lemma last_lf (u v : str) : last (u ++ c_lf :: v) c_lf = last (c_lf :: v) c_lf.
Proof. induction u as [|x u IHu]; [reflexivity|]. rewrite <- app_comm_cons. cbn [last]. rewrite IHu. destruct u; reflexivity. Qed.
Lemma crlf_last ls : last (crlf_text ls) c_lf = c_lf.
Proof.
  induction ls as [|[t ws] ls IH]; [reflexivity|]. cbn [crlf_text app]. rewrite !app_assoc.
  change (c_cr :: c_lf :: crlf_text ls) with ([c_cr] ++ c_lf :: crlf_text ls). rewrite app_assoc, last_lf. destruct (crlf_text ls); [reflexivity|exact IH].
Qed.
Lemma crlf_lines ls : Forall (fun x => Forall (fun w => one_token w = true) (snd x)) ls ->
  forall l, exists raw, Lines (fst (layout l 0 (crlf_pieces ls))) raw /\ Forall2 word_line raw (map snd ls).
Proof.
  induction ls as [|[t ws] ls IH]; intros F0 l.
  - exists []. split; constructor.
  - inversion F0 as [|? ? W0 F1]; subst. destruct (IH F1 (S l)) as [raw [L F]]. cbn [crlf_pieces].
    assert (exists c, layout l 0 ((if t then [PBlank c_tab] else []) ++ word_pieces ws ++ PEol [c_cr; c_lf] :: crlf_pieces ls) =
      layout l c (word_pieces ws ++ PEol [c_cr; c_lf] :: crlf_pieces ls)) as [c ->] by (destruct t; eexists; reflexivity).
    destruct (layout_words ws l c (PEol [c_cr; c_lf] :: crlf_pieces ls) W0) as [ts [c' [W Ew]]].
    exists (ts :: raw). rewrite Ew. cbn [fst snd layout map]. split; [|constructor; [exact W|exact F]].
    constructor; [exact (word_line_no_eol _ _ W)|reflexivity|exact L].
Qed.
Lemma text_lines ls : Forall (fun x => Forall (fun w => one_token w = true) (fst x)) ls ->
  forall l, exists raw, Lines (fst (layout l 0 (text_pieces ls))) raw /\ Forall2 word_line raw (map fst ls).
Proof.
  intros H l. destruct (word_text_lines ls H l) as [raw [A [B _]]]. exists raw. split; [exact A|].
  clear - B. induction B; constructor; assumption.
Qed.
