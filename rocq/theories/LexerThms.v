(** Proofs of the lexer properties. *)
From Verif Require Import Base Utf8 Utf8Proofs Lexer LexSpec LexerProofs LexStatements.
From Coq Require Import ZifyBool ZifyNat ZifyN.

Lemma unescape_cons2 c d w : unescape_quotes (c :: d :: w) =
  if (byte c =? r_bslash)%N && (byte d =? r_quote)%N
  then d :: unescape_quotes w else c :: unescape_quotes (d :: w).
Proof. reflexivity. Qed.

Lemma unescape_quotes_spec w : Unescaped w (unescape_quotes w).
Proof.
  remember (length w) as n eqn:Hn. assert (Hle : length w <= n) by lia. clear Hn.
  revert w Hle; induction n as [|n IH]; intros w Hle.
  - destruct w; [constructor|cbn in Hle; lia].
  - destruct w as [|c [|d w]]; [constructor| |].
    + cbn. constructor; [|constructor]. intros [_ [w' E]]; discriminate.
    + rewrite unescape_cons2. to_ascii.
      destruct (Ascii.eqb_spec c c_bslash) as [->|Hc]; cbn [andb].
      * destruct (Ascii.eqb_spec d c_quote) as [->|Hd].
        -- apply Un_pair. apply IH. cbn in Hle; lia.
        -- apply Un_char; [intros [_ [w' E]]; congruence|]. apply IH. cbn in *; lia.
      * apply Un_char; [intros [? _]; congruence|]. apply IH. cbn in *; lia.
Qed.

Lemma tokenize_total src : exists ts errs, tokenize src = Ret (ts, errs) /\ length ts <= length src.
Proof.
  destruct (lexes_exists src) as [ps H].
  exists (fst (layout 0 0 ps)), (snd (layout 0 0 ps)).
  rewrite (tokenize_spec _ _ H), <- surjective_pairing. split; [reflexivity|].
  apply layout_length; assumption.
Qed.

Lemma lexes_text s ps : Lexes s ps -> concat (map piece_text ps) = s.
Proof.
  induction 1; cbn [map concat piece_text app]; try (rewrite IHLexes); try reflexivity.
  - rewrite <- app_assoc. reflexivity.
  - rewrite app_nil_r. reflexivity.
Qed.

(** Pieces to segments. [gap] collects pending blanks. *)
Fixpoint segments (gap : str) (ps : list piece) : list seg * str :=
  match ps with
  | [] => ([], gap)
  | PBlank c :: ps' => segments (gap ++ [c]) ps'
  | POpen w :: _ => ([], gap ++ c_quote :: w)
  | p :: ps' => let r := segments [] ps' in ((gap, piece_text p) :: fst r, snd r)
  end.

Lemma segments_text s ps : Lexes s ps -> forall gap,
  gap ++ s = concat (map seg_text (fst (segments gap ps))) ++ snd (segments gap ps).
Proof.
  induction 1; intros gap; cbn [segments fst snd map concat piece_text app].
  1: rewrite app_nil_r; reflexivity.
  1: rewrite <- IHLexes, <- app_assoc; reflexivity.
  all: try reflexivity.
  all: unfold seg_text at 1; cbn [fst snd]; rewrite <- !app_assoc; f_equal; cbn [app];
       rewrite <- ?app_assoc; rewrite <- (IHLexes []); cbn [app]; reflexivity.
Qed.

Definition tail_ok (errs : list lexer_error) (tail : str) : Prop :=
  (errs = [] /\ blank_tail tail) \/
  (exists l c, errs = [LexErr l c IncompleteString] /\ open_string_tail tail).

Lemma segments_layout s ps : Lexes s ps -> forall gap start l c off,
  Forall is_blank gap -> start + c = off ->
  let segs := fst (segments gap ps) in
  let ts := fst (layout l (c + length gap) ps) in
  Forall2 (fun s t => Forall is_blank (fst s) /\ snd s <> [] /\
                      tok_e t = tok_b t + length (snd s) /\ token_text t (snd s)) segs ts /\
  Placed l start off segs ts /\
  tail_ok (snd (layout l (c + length gap) ps)) (snd (segments gap ps)).
Proof.
  induction 1 as [|c0 r ps Hb HL IH|r ps HL IH|r ps HL IH|r ps Hr HL IH|w r ps Hw Hr HL IH|w r ps Hq Hl HL IH|w Hq|c0 w r ps Hc Hs Hw Hr HL IH];
    intros gap start l c off Hgap Hoff; cbv zeta; cbn [segments layout fst snd].
  - repeat split; auto. left; split; auto.
  - specialize (IH (gap ++ [c0]) start l c off). cbv zeta in IH.
    rewrite app_length in IH. cbn [piece_text length] in *.
    rewrite <- Nat.add_assoc. apply IH; auto. apply Forall_app; split; auto.
  - destruct (IH [] (off + length gap + 1) (S l) 0 (off + length gap + 1)) as (H1 & H2 & H3); auto; [].
    cbv zeta in *. cbn [length Nat.add piece_text] in *. rewrite ?Nat.add_0_r in *.
    split; [|split; [|assumption]].
    + constructor; [|assumption]. cbn. repeat split; auto; discriminate.
    + cbn [Placed is_eol_tok tok_t tok_l tok_b tok_e length]. repeat split; try lia. exact H2.
  - destruct (IH [] (off + length gap + 2) (S l) 0 (off + length gap + 2)) as (H1 & H2 & H3); auto; [].
    cbv zeta in *. cbn [length Nat.add piece_text] in *. rewrite ?Nat.add_0_r in *.
    split; [|split; [|assumption]].
    + constructor; [|assumption]. cbn. repeat split; auto; discriminate.
    + cbn [Placed is_eol_tok tok_t tok_l tok_b tok_e length]. repeat split; try lia. exact H2.
  - destruct (IH [] (off + length gap + 1) (S l) 0 (off + length gap + 1)) as (H1 & H2 & H3); auto; [].
    cbv zeta in *. cbn [length Nat.add piece_text] in *. rewrite ?Nat.add_0_r in *.
    split; [|split; [|assumption]].
    + constructor; [|assumption]. cbn. repeat split; auto; discriminate.
    + cbn [Placed is_eol_tok tok_t tok_l tok_b tok_e length]. repeat split; try lia. exact H2.
  - cbn [piece_text length].
    destruct (IH [] start l (c + length gap + S (S (length w))) (off + length gap + S (S (length w)))) as (H1 & H2 & H3); auto; [lia|].
    cbv zeta in *. cbn [length Nat.add] in *. rewrite ?Nat.add_0_r in *.
    split; [|split; [|assumption]].
    + constructor; [|assumption]. cbn. repeat split; auto; discriminate.
    + cbn [Placed is_eol_tok tok_t tok_l tok_b tok_e length]. repeat split; try lia. exact H2.
  - set (n := length (piece_text (PString w))).
    destruct (IH [] start l (c + length gap + n) (off + length gap + n)) as (H1 & H2 & H3); auto; [lia|].
    cbv zeta in *. cbn [length Nat.add] in *. rewrite ?Nat.add_0_r in *.
    split; [|split; [|assumption]].
    + constructor; [|assumption]. cbn. repeat split; auto; [discriminate|].
      right. exists w, (unescape_quotes w). repeat split; auto using unescape_quotes_spec.
    + cbn [Placed is_eol_tok tok_t tok_l tok_b tok_e]. repeat split; try lia. exact H2.
  - repeat split; auto. right. do 2 eexists; split; [reflexivity|]. exists gap, w. auto.
  - set (n := length (piece_text (PWord (c0 :: w)))).
    destruct (IH [] start l (c + length gap + n) (off + length gap + n)) as (H1 & H2 & H3); auto; [lia|].
    cbv zeta in *. cbn [length Nat.add] in *. rewrite ?Nat.add_0_r in *.
    split; [|split; [|assumption]].
    + constructor; [|assumption]. cbn [fst snd]. repeat split; auto; [discriminate|].
      left. cbn. auto.
    + cbn [Placed is_eol_tok tok_t tok_l tok_b tok_e]. repeat split; try lia. exact H2.
Qed.

Lemma tokenize_tiles src ts errs : tokenize src = Ret (ts, errs) ->
  exists segs tail, Tiles src ts segs tail /\ Placed 0 0 0 segs ts /\ tail_ok errs tail.
Proof.
  destruct (lexes_exists src) as [ps H]. rewrite (tokenize_spec _ _ H). intros [= E].
  destruct (segments_layout _ _ H [] 0 0 0 0) as (H1 & H2 & H3); auto; [].
  cbn [length Nat.add] in *. rewrite E in H1, H2, H3. cbn [fst snd] in *.
  exists (fst (segments [] ps)), (snd (segments [] ps)). repeat split; auto.
  apply (segments_text _ _ H []).
Qed.

Lemma tokenize_tiles_tail src ts errs : tokenize src = Ret (ts, errs) ->
  exists segs tail, Tiles src ts segs tail /\
    (errs = [] -> blank_tail tail) /\ (errs <> [] -> open_string_tail tail).
Proof.
  intros H. destruct (tokenize_tiles _ _ _ H) as (segs & tail & HT & _ & [[-> Hb]|(l & c & -> & Ho)]);
    exists segs, tail; repeat split; auto; try apply HT; intros; congruence.
Qed.

(** Line numbers count end-of-line tokens. *)
Lemma placed_lines line start off segs ts : Placed line start off segs ts ->
  forall k t, nth_error ts k = Some t ->
  tok_l t = line + length (filter is_eol_tok (firstn k ts)).
Proof.
  revert line start off ts; induction segs as [|[gap raw] segs IH]; intros line start off ts H k t Hk.
  - destruct ts; [destruct k; discriminate|contradiction].
  - destruct ts as [|u ts]; [contradiction|]. destruct H as (H1 & H2 & H3 & H4).
    destruct k as [|k]; cbn in Hk.
    + injection Hk as ->. cbn. lia.
    + cbn [firstn filter]. destruct (is_eol_tok u); cbn [length].
      * rewrite (IH _ _ _ _ H4 _ _ Hk). lia.
      * rewrite (IH _ _ _ _ H4 _ _ Hk). lia.
Qed.

(** Byte offset at which line of the [k]-th token starts: the end of the last end-of-line
    token before it. *)
Fixpoint line_start (off start : nat) (segs : list seg) (ts : list token) (k : nat) : nat :=
  match k, segs, ts with
  | S k', (gap, raw) :: segs', t :: ts' =>
      let o' := off + length gap + length raw in
      line_start o' (if is_eol_tok t then o' else start) segs' ts' k'
  | _, _, _ => start
  end.

Lemma placed_lower line start off segs ts : Placed line start off segs ts -> start <= off ->
  forall k t, nth_error ts k = Some t ->
  line < tok_l t \/ (line = tok_l t /\ off <= start + tok_b t).
Proof.
  revert line start off ts; induction segs as [|[gap raw] segs IH]; intros line start off ts H Hso k t Hk.
  - destruct ts; [destruct k; discriminate|contradiction].
  - destruct ts as [|u ts]; [contradiction|]. destruct H as (H1 & H2 & H3 & H4).
    destruct k as [|k]; cbn in Hk.
    + injection Hk as ->. lia.
    + destruct (is_eol_tok u).
      * destruct (IH _ _ _ _ H4 (le_n _) _ _ Hk); lia.
      * assert (Hso' : start <= off + length gap + length raw) by lia.
        destruct (IH _ _ _ _ H4 Hso' _ _ Hk); lia.
Qed.

Lemma placed_sorted line start off segs ts :
  Forall (fun s => snd s <> []) segs -> Placed line start off segs ts -> start <= off ->
  forall i j t u, i < j -> nth_error ts i = Some t -> nth_error ts j = Some u -> pos_lt t u.
Proof.
  revert line start off ts; induction segs as [|[gap raw] segs IH]; intros line start off ts Hne H Hso i j t u Hij Hi Hj.
  - destruct ts; [destruct i; discriminate|contradiction].
  - destruct ts as [|v ts]; [contradiction|]. destruct H as (H1 & H2 & H3 & H4).
    inversion Hne as [|? ? Hraw Hne']; subst; cbn [snd] in Hraw.
    assert (Hpos : 0 < length raw) by (destruct raw; [congruence|cbn; lia]).
    destruct j as [|j]; [lia|]. destruct i as [|i]; cbn in Hi, Hj.
    + injection Hi as ->. unfold pos_lt. destruct (is_eol_tok t).
      * destruct (placed_lower _ _ _ _ _ H4 (le_n _) _ _ Hj); lia.
      * assert (Hso' : start <= off + length gap + length raw) by lia.
        destruct (placed_lower _ _ _ _ _ H4 Hso' _ _ Hj); lia.
    + assert (Hij' : i < j) by lia.
      assert (Hso' : start <= off + length gap + length raw) by lia.
      destruct (is_eol_tok v).
      * exact (IH _ _ _ _ Hne' H4 (le_n _) _ _ _ _ Hij' Hi Hj).
      * exact (IH _ _ _ _ Hne' H4 Hso' _ _ _ _ Hij' Hi Hj).
Qed.

Lemma tokenize_positions src ts errs : tokenize src = Ret (ts, errs) ->
  (exists segs tail, Tiles src ts segs tail /\ Placed 0 0 0 segs ts) /\
  (forall k t, nth_error ts k = Some t -> tok_l t = length (filter is_eol_tok (firstn k ts))) /\
  (forall i j t u, i < j -> nth_error ts i = Some t -> nth_error ts j = Some u -> pos_lt t u).
Proof.
  intros H. destruct (tokenize_tiles _ _ _ H) as (segs & tail & [HT1 HT2] & HP & _).
  split; [exists segs, tail; split; [split|]; assumption|]. split.
  - intros k t Hk. rewrite (placed_lines _ _ _ _ _ HP _ _ Hk). reflexivity.
  - apply (placed_sorted 0 0 0 segs); auto.
    clear -HT2. induction HT2; constructor; tauto.
Qed.

(** * Errors *)

Lemma layout_app_open ps w : forall l c,
  (forall q, In q ps -> match q with POpen _ => False | _ => True end) ->
  fst (layout l c (ps ++ [POpen w])) = fst (layout l c ps) /\ snd (layout l c ps) = [] /\
  exists l' c', snd (layout l c (ps ++ [POpen w])) = [LexErr l' c' IncompleteString].
Proof.
  induction ps as [|p ps IH]; intros l c Hno.
  - cbn. repeat split; eauto.
  - assert (Hno' : forall q, In q ps -> match q with POpen _ => False | _ => True end)
      by (intros q Hq; apply Hno; right; exact Hq).
    destruct p; cbn [app layout fst snd];
      try (match goal with |- context [layout ?a ?b (ps ++ _)] => destruct (IH a b Hno') as (E1 & E2 & E3) end;
           rewrite ?E1; auto; fail).
    exfalso. exact (Hno _ (or_introl eq_refl)).
Qed.

Lemma lexes_no_open s ps : Lexes s ps ->
  (forall q, In q ps -> match q with POpen _ => False | _ => True end) \/
  (exists pre ps' w, ps = ps' ++ [POpen w] /\ s = pre ++ c_quote :: w /\ Lexes pre ps' /\ quotes_escaped w /\
     (forall q, In q ps' -> match q with POpen _ => False | _ => True end)).
Proof.
  induction 1 as [|c0 r ps Hb HL IH|r ps HL IH|r ps HL IH|r ps Hr HL IH|w r ps Hw Hr HL IH|w r ps Hq Hl HL IH|w Hq|c0 w r ps Hc Hs Hw Hr HL IH].
  8: { right. exists [], [], w. repeat split; auto; try constructor. intros q []. }
  1: { left; intros q []. }
  all: destruct IH as [IH|(pre & ps' & w' & -> & -> & HL' & Hq' & Hno)];
    [left; intros q [<-|Hin]; [exact I|apply IH; exact Hin]|right].
  - exists (c0 :: pre), (PBlank c0 :: ps'), w'. repeat split; auto; [constructor; auto|].
    intros q [<-|Hin]; [exact I|apply Hno; exact Hin].
  - exists (c_lf :: pre), (PEol [c_lf] :: ps'), w'. repeat split; auto; [constructor; auto|].
    intros q [<-|Hin]; [exact I|apply Hno; exact Hin].
  - exists (c_cr :: c_lf :: pre), (PEol [c_cr; c_lf] :: ps'), w'. repeat split; auto; [constructor; auto|].
    intros q [<-|Hin]; [exact I|apply Hno; exact Hin].
  - exists (c_cr :: pre), (PEol [c_cr] :: ps'), w'. repeat split; auto.
    + constructor; auto. destruct pre; [exact I|exact Hr].
    + intros q [<-|Hin]; [exact I|apply Hno; exact Hin].
  - exists (c_slash :: c_slash :: w ++ pre), (PComment w :: ps'), w'.
    repeat split; auto.
    + cbn. rewrite <- app_assoc. reflexivity.
    + constructor; auto. destruct pre; [exact I|exact Hr].
    + intros q [<-|Hin]; [exact I|apply Hno; exact Hin].
  - exists (c_quote :: w ++ c_quote :: pre), (PString w :: ps'), w'.
    repeat split; auto.
    + cbn. rewrite <- app_assoc. reflexivity.
    + constructor; auto.
    + intros q [<-|Hin]; [exact I|apply Hno; exact Hin].
  - exists (c0 :: w ++ pre), (PWord (c0 :: w) :: ps'), w'.
    repeat split; auto.
    + cbn. rewrite <- app_assoc. reflexivity.
    + constructor; auto. destruct pre; [exact I|exact Hr].
    + intros q [<-|Hin]; [exact I|apply Hno; exact Hin].
Qed.

Lemma layout_no_open ps : forall l c,
  (forall q, In q ps -> match q with POpen _ => False | _ => True end) -> snd (layout l c ps) = [].
Proof. intros l c H. apply (layout_app_open ps [] l c H). Qed.

Lemma tokenize_errors src ts errs : tokenize src = Ret (ts, errs) ->
  (errs <> [] <-> exists ps w, Lexes src (ps ++ [POpen w])) /\
  (errs <> [] -> exists pre w l c, src = pre ++ c_quote :: w /\ quotes_escaped w /\
                   tokenize pre = Ret (ts, []) /\ errs = [LexErr l c IncompleteString]).
Proof.
  intros H. destruct (lexes_exists src) as [ps HL].
  pose proof (tokenize_spec _ _ HL) as HT. rewrite H in HT. injection HT as E.
  destruct (lexes_no_open _ _ HL) as [Hno|(pre & ps' & w & -> & -> & HL' & Hq & Hno)].
  - pose proof (layout_no_open ps 0 0 Hno) as Hn. rewrite <- E in Hn. cbn in Hn. subst errs.
    split; [split; [congruence|]|congruence].
    intros (ps2 & w & HL2). pose proof (tokenize_spec _ _ HL2) as HT2. rewrite H in HT2. injection HT2 as E2.
    exfalso. destruct (lexes_no_open _ _ HL2) as [Hno2|(pre & ps' & w2 & E3 & _ & _ & _ & Hno2)].
    + apply (Hno2 (POpen w)). apply in_or_app; right; left; reflexivity.
    + apply app_inj_tail in E3 as [-> E4]. injection E4 as ->.
      destruct (layout_app_open ps' w2 0 0 Hno2) as (_ & _ & (l' & c' & E5)).
      rewrite <- E2 in E5. discriminate.
  - destruct (layout_app_open ps' w 0 0 Hno) as (E1 & E2 & (l' & c' & E3)).
    rewrite <- E in E1, E3. cbn in E1, E3. subst errs. split.
    + split; [eauto|discriminate].
    + intros _. exists pre, w, l', c'. repeat split; auto.
      rewrite (tokenize_spec _ _ HL'). rewrite (surjective_pairing (layout 0 0 ps')), E2, <- E1. reflexivity.
Qed.

(** * Cursor *)

Lemma run_lexer_spec T E ops : forall c z, cursor_inv T E c z ->
  run_lexer ops z = Ret (run_cursor T c ops).
Proof.
  induction ops as [|op ops IH]; intros c z Hc; [reflexivity|].
  destruct op; cbn [run_lexer run_cursor].
  - destruct (scan_spec _ _ _ _ Hc) as (z' & Hs & Hc' & _). rewrite Hs. cbn [bindr fst snd].
    rewrite (IH _ _ Hc'). cbn [bindr]. destruct c; reflexivity.
  - destruct (return_spec _ _ _ _ Hc) as (Hr & Hc' & _). rewrite (IH _ _ Hc'). cbn [bindr].
    rewrite Hr. destruct c as [[|n]|]; reflexivity.
  - rewrite (curr_spec _ _ _ _ Hc), (IH _ _ Hc). reflexivity.
Qed.

Lemma lexer_is_cursor src ts errs : tokenize src = Ret (ts, errs) ->
  forall ops, run_lexer ops (new_lexer src) = Ret (run_cursor ts None ops).
Proof.
  intros H ops. destruct (lexes_exists src) as [ps HL].
  rewrite (run_lexer_spec _ _ ops None _ (new_cursor src ps HL)).
  rewrite (tokenize_spec _ _ HL) in H. injection H as E. rewrite E. reflexivity.
Qed.

(** * Encoding independence *)

Section MapBytes.
  Variable g : ascii -> ascii.
  Hypothesis g_special : forall c, special (g c) <-> special c.
  Hypothesis g_fix : forall c, special c -> g c = c.

  Lemma g_char c d : special d -> (g c = d <-> c = d).
  Proof.
    intros Hd. split.
    - intros E. assert (special (g c)) by (rewrite E; assumption).
      apply (proj1 (g_special c)) in H. rewrite g_fix in E by assumption. exact E.
    - intros ->. apply g_fix; assumption.
  Qed.

  Lemma sp_quote : special c_quote. Proof. left; reflexivity. Qed.
  Lemma sp_bslash : special c_bslash. Proof. right; left; reflexivity. Qed.
  Lemma sp_slash : special c_slash. Proof. right; right; left; reflexivity. Qed.
  Lemma sp_delim c : is_delim c -> special c. Proof. right; right; right; assumption. Qed.
  Lemma sp_blank c : is_blank c -> special c. Proof. intros H; apply sp_delim; left; exact H. Qed.
  Lemma sp_eolc c : is_eolc c -> special c. Proof. intros H; apply sp_delim; right; exact H. Qed.
  Lemma sp_lf : special c_lf. Proof. apply sp_eolc; left; reflexivity. Qed.
  Lemma sp_cr : special c_cr. Proof. apply sp_eolc; right; reflexivity. Qed.
  Lemma sp_space : special c_space. Proof. apply sp_blank; left; reflexivity. Qed.
  Lemma sp_tab : special c_tab. Proof. apply sp_blank; right; reflexivity. Qed.

  Lemma g_blank c : is_blank (g c) <-> is_blank c.
  Proof. unfold is_blank. rewrite (g_char c _ sp_space), (g_char c _ sp_tab). reflexivity. Qed.
  Lemma g_eolc c : is_eolc (g c) <-> is_eolc c.
  Proof. unfold is_eolc. rewrite (g_char c _ sp_lf), (g_char c _ sp_cr). reflexivity. Qed.
  Lemma g_delim c : is_delim (g c) <-> is_delim c.
  Proof. unfold is_delim. rewrite g_blank, g_eolc. reflexivity. Qed.

  Lemma g_quotes_escaped w : quotes_escaped w -> quotes_escaped (map g w).
  Proof.
    intros H i Hi. rewrite nth_error_map in Hi.
    destruct (nth_error w i) as [c|] eqn:E; cbn in Hi; [|discriminate]. injection Hi as Hi.
    apply (g_char c _ sp_quote) in Hi. subst c. destruct (H i E) as (j & -> & Hj).
    exists j. split; [reflexivity|]. rewrite nth_error_map, Hj. cbn. rewrite g_fix by apply sp_bslash. reflexivity.
  Qed.

  Lemma g_last w : last_is c_bslash (map g w) -> last_is c_bslash w.
  Proof.
    intros [w' E]. destruct w as [|d w2 _] using rev_ind.
    - destruct w'; discriminate.
    - rewrite map_app in E. cbn in E. apply app_inj_tail in E as [_ E].
      apply (g_char d _ sp_bslash) in E. subst d. exists w2; reflexivity.
  Qed.

  Definition map_piece (p : piece) : piece :=
    match p with
    | PBlank c => PBlank c
    | PEol w => PEol w
    | PComment w => PComment (map g w)
    | PString w => PString (map g w)
    | PWord w => PWord (map g w)
    | POpen w => POpen (map g w)
    end.

  Lemma g_lexes s ps : Lexes s ps -> Lexes (map g s) (map map_piece ps).
  Proof.
    assert (HE : forall (P Q : ascii -> Prop) r, (forall c, P c -> Q (g c)) -> ends_before P r -> ends_before Q (map g r)).
    { intros P Q [|c r] HPQ; cbn; auto. }
    induction 1; cbn [map map_piece]; rewrite ?map_app; cbn [map].
    - constructor.
    - rewrite g_fix by (apply sp_blank; assumption). constructor; assumption.
    - rewrite g_fix by apply sp_lf. constructor; assumption.
    - rewrite !g_fix by (apply sp_lf || apply sp_cr). constructor; assumption.
    - rewrite g_fix by apply sp_cr. constructor; [|assumption].
      revert H; apply HE. intros c Hc E. apply (g_char c _ sp_lf) in E. contradiction.
    - rewrite !g_fix by apply sp_slash. constructor; [| |assumption].
      + rewrite Forall_map. revert H; apply Forall_impl. intros c. rewrite g_eolc. auto.
      + revert H0; apply HE. intros c. apply g_eolc.
    - rewrite !g_fix by apply sp_quote. constructor; [apply g_quotes_escaped; assumption| |assumption].
      intros E. apply g_last in E. contradiction.
    - rewrite !g_fix by apply sp_quote. constructor. apply g_quotes_escaped; assumption.
    - constructor; [| | | |assumption].
      + rewrite (g_char c _ sp_quote). assumption.
      + intros w' E. injection E as E1 E2. apply (g_char c _ sp_slash) in E1. subst c.
        destruct w as [|d w]; [discriminate|]. cbn in E2. injection E2 as E2 _.
        apply (g_char d _ sp_slash) in E2. subst d. exact (H0 w eq_refl).
      + change (g c :: map g w) with (map g (c :: w)). rewrite Forall_map.
        revert H1; apply Forall_impl. intros a. rewrite g_delim. auto.
      + revert H2; apply HE. intros a. apply g_delim.
  Qed.

  Lemma g_eqb c d : special d -> Ascii.eqb (g c) d = Ascii.eqb c d.
  Proof.
    intros Hd. destruct (Ascii.eqb_spec c d) as [->|Hn].
    - rewrite g_fix by assumption. apply Ascii.eqb_refl.
    - apply Ascii.eqb_neq. rewrite (g_char c d Hd). assumption.
  Qed.

  Lemma g_unescape w : unescape_quotes (map g w) = map g (unescape_quotes w).
  Proof.
    remember (length w) as n eqn:Hn. assert (Hle : length w <= n) by lia. clear Hn.
    revert w Hle; induction n as [|n IH]; intros w Hle.
    - destruct w; [reflexivity|cbn in Hle; lia].
    - destruct w as [|c [|d w]]; [reflexivity|reflexivity|].
      cbn [map]. rewrite !unescape_cons2. to_ascii. rewrite !g_eqb by (apply sp_quote || apply sp_bslash).
      destruct (Ascii.eqb c c_bslash && Ascii.eqb d c_quote).
      + cbn [map]. f_equal. apply IH. cbn in Hle; lia.
      + cbn [map]. f_equal. apply (IH (d :: w)). cbn in *; lia.
  Qed.

  Lemma g_eolw s ps : Lexes s ps -> Forall (fun p => match p with PEol w => map g w = w | _ => True end) ps.
  Proof.
    pose proof (g_fix _ sp_lf) as E1. pose proof (g_fix _ sp_cr) as E2.
    induction 1; (apply Forall_nil || apply Forall_cons || idtac); auto; cbn [map]; congruence.
  Qed.

  Lemma g_layout ps : Forall (fun p => match p with PEol w => map g w = w | _ => True end) ps ->
    forall l c, layout l c (map map_piece ps) =
      (map (map_token g) (fst (layout l c ps)), snd (layout l c ps)).
  Proof.
    assert (Hq : map g quote_str = quote_str).
    { exact (f_equal (fun x => [x]) (g_fix _ sp_quote)). }
    induction 1 as [|p ps Hp Hps IH]; intros l c; [reflexivity|].
    destruct p; cbn [map map_piece layout fst snd piece_text length map_token]; rewrite ?app_length, ?map_length; try reflexivity.
    - apply IH.
    - rewrite IH. unfold map_token; cbn. rewrite Hp. reflexivity.
    - rewrite IH. reflexivity.
    - rewrite IH. unfold map_token; cbn [tok_v tok_l tok_b tok_e tok_t fst snd].
      rewrite g_unescape, !map_app, Hq. reflexivity.
    - rewrite IH. reflexivity.
  Qed.

  Lemma tokenize_map src ts errs : tokenize src = Ret (ts, errs) ->
    tokenize (map g src) = Ret (map (map_token g) ts, errs).
  Proof.
    intros H. destruct (lexes_exists src) as [ps HL].
    rewrite (tokenize_spec _ _ HL) in H. injection H as E.
    rewrite (tokenize_spec _ _ (g_lexes _ _ HL)), (g_layout ps (g_eolw _ _ HL)), E. reflexivity.
  Qed.
End MapBytes.
