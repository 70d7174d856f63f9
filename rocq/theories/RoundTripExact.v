(* Printing and reading again: the exceptional instructions are exactly those that do not survive. *)
From Verif Require Import Base LexSpec Lexer LexerProofs LexerThms Expr Fields Strconv Literals LiteralsProofs Codec CodecProofs Print OpTable Process ProcessSpec ProcessDoc ProcessThms FieldProofs
  RoundTripSpec RoundTripLex RoundTrip RoundTripFit QueryProofs EditProofs FixLines.
From Coq Require Import Lia ZifyBool ZifyNat ZifyN.

(* ------------------------------------------------------------------------------------------ *)
(* a text falls into pieces in one way *)
Lemma span_unique (P : ascii -> Prop) w w' r r' : Forall (fun c => ~ P c) w -> Forall (fun c => ~ P c) w' ->
  ends_before P r -> ends_before P r' -> w ++ r = w' ++ r' -> w = w' /\ r = r'.
Proof.
  intros F. revert w'. induction F as [|c w N F IH]; intros w' F' E E' H; destruct F' as [|c' w' N' F']; cbn [app] in H.
  - auto.
  - subst r. destruct (N' E).
  - subst r'. destruct (N E').
  - injection H as <- H. destruct (IH _ F' E E' H) as [-> ->]. auto.
Qed.
Lemma string_longer w x r : quotes_escaped (w ++ x :: r) -> x = c_quote -> last_is c_bslash w.
Proof.
  intros Q ->. destruct (Q (length w)) as [j [E B]]; [rewrite nth_error_app2, Nat.sub_diag by lia; reflexivity|].
  rewrite nth_error_app1 in B by lia. exists (firstn j w).
  rewrite <- (firstn_skipn j w) at 1. f_equal. apply nth_error_split in B as [l1 [l2 [-> L]]]. rewrite app_length in E. cbn in E.
  destruct l2; [|cbn in E; lia]. rewrite <- L, skipn_app, skipn_all, Nat.sub_diag. reflexivity.
Qed.
Lemma app_cases (a b c d : str) : a ++ b = c ++ d -> (exists m, c = a ++ m /\ b = m ++ d) \/ (exists m, a = c ++ m /\ d = m ++ b).
Proof.
  revert c. induction a as [|x a IH]; intros c E; [left; exists c; auto|]. destruct c as [|y c]; [right; exists (x :: a); auto|].
  injection E as <- E. destruct (IH _ E) as [[m [-> ->]]|[m [-> ->]]]; [left|right]; exists m; auto.
Qed.
Lemma string_unique w w' r r' : quotes_escaped w -> ~ last_is c_bslash w -> quotes_escaped w' -> ~ last_is c_bslash w' ->
  w ++ c_quote :: r = w' ++ c_quote :: r' -> w = w' /\ r = r'.
Proof.
  intros Q B Q' B' E. destruct (app_cases _ _ _ _ E) as [[m [-> H]]|[m [-> H]]]; (destruct m as [|x m]; cbn [app] in H; [rewrite app_nil_r in *; injection H as ->; auto|]).
  - injection H as <- _. destruct B. exact (string_longer _ _ _ Q' eq_refl).
  - injection H as <- _. destruct B'. exact (string_longer _ _ _ Q eq_refl).
Qed.
Lemma string_open w w' r : ~ last_is c_bslash w -> quotes_escaped w' -> w ++ c_quote :: r <> w'.
Proof. intros B Q <-. exact (B (string_longer _ _ _ Q eq_refl)). Qed.

Lemma Lexes_fun s a : Lexes s a -> forall b, Lexes s b -> a = b.
Proof.
  assert (D1 : ~ is_delim c_quote) by (intros [[H|H]|[H|H]]; discriminate H).
  assert (D2 : ~ is_delim c_slash) by (intros [[H|H]|[H|H]]; discriminate H).
  induction 1 as [|c r ps B L IH|r ps L IH|r ps L IH|r ps E L IH|w r ps F E L IH|w r ps F E L IH|w F|c w r ps N C F E L IH]; intros b Lb;
    inversion Lb as [|c' r' ps' B' L'|r' ps' L'|r' ps' L'|r' ps' E' L'|w' r' ps' F' E' L' HH|w' r' ps' F' E' L' HH|w' F' HH|c' w' r' ps' N' C' F' E' L' HH]; subst.
  all: try reflexivity.
  all: try solve [destruct B as [H|H]; discriminate H].
  all: try solve [destruct B' as [H|H]; discriminate H].
  all: try solve [f_equal; apply IH; assumption].
  all: try solve [cbn in E; congruence | cbn in E'; congruence].
  all: try solve [inversion F as [|? ? X _]; subst; destruct X; first [left; assumption | right; left; reflexivity | right; right; reflexivity]].
  all: try solve [inversion F' as [|? ? X _]; subst; destruct X; first [left; assumption | right; left; reflexivity | right; right; reflexivity]].
  all: try congruence.
  - destruct (span_unique is_eolc w' w r' r F' F E' E HH) as [-> ->]. f_equal. apply IH. exact L'.
  - exfalso. destruct w' as [|d w']; cbn [app] in H; [|injection H as -> _; exact (C' _ eq_refl)].
    subst r'. cbn in E'. contradiction.
  - destruct (string_unique w' w r' r F' E' F E HH) as [-> ->]. f_equal. apply IH. exact L'.
  - destruct (string_open w _ r E F' eq_refl).
  - destruct (string_open w' _ r' E' F eq_refl).
  - exfalso. destruct w as [|d w]; cbn [app] in H; [subst r; cbn in E; contradiction|]. injection H as <- _. exact (C _ eq_refl).
  - destruct (span_unique is_delim (c :: w') (c :: w) r' r F' F E' E) as [X ->]; [cbn; congruence|]. injection X as ->. f_equal. apply IH. exact L'.
Qed.

(* ------------------------------------------------------------------------------------------ *)
(* the texts of the first line *)
Definition quote_text (w : str) : str := c_quote :: unescape_quotes w ++ [c_quote].
Fixpoint line_texts (ps : list piece) : list str :=
  match ps with
  | PBlank _ :: r => line_texts r
  | PWord w :: r => w :: line_texts r
  | PString w :: r => quote_text w :: line_texts r
  | _ => []
  end.
Lemma line_texts_first ps : forall l c raw, Lines (fst (layout l c ps)) raw ->
  line_texts ps = texts (until_comment (hd [] raw)).
Proof.
  assert (G : forall t us raw, Lines (t :: us) raw -> is_eol t = false -> exists x raw', hd [] raw = t :: x /\ (Lines us raw' /\ hd [] raw' = x)).
  { intros t us raw L T. inversion L as [|l' H N|l' u r' ls N U L0 E]; subst.
    - destruct us as [|u us]; [exists [], []; repeat split; constructor|]. exists (u :: us), [u :: us]. repeat split. constructor; [discriminate|].
      cbn [existsb] in N. apply Bool.orb_false_iff in N as [_ N]. exact N.
    - destruct l' as [|y l']; cbn [app] in E; injection E as -> E; [congruence|]. subst us. cbn [existsb] in N. apply Bool.orb_false_iff in N as [_ N].
      exists l', (l' :: ls). repeat split. constructor; assumption. }
  induction ps as [|p ps IH]; intros l c raw L.
  - cbn [layout fst] in L. inversion L as [|? H ?|l' u r' ls N U L0 E]; subst; [reflexivity|destruct (H eq_refl)|destruct l'; discriminate].
  - destruct p; cbn [layout fst line_texts] in *.
    + eapply IH; exact L.
    + inversion L as [|l' H N|l' u r' ls N U L0 E]; subst; [cbn in N; discriminate|].
      destruct l' as [|y l']; cbn [app] in E; injection E as -> E; [reflexivity|]. cbn in N. discriminate.
    + destruct (G _ _ _ L eq_refl) as [x [raw' [-> _]]]. reflexivity.
    + destruct (G _ _ _ L eq_refl) as [x [raw' [-> [L' <-]]]]. cbn [until_comment is_comment tok_t texts map tok_v]. unfold texts in IH.
      rewrite <- (IH _ _ _ L'). reflexivity.
    + destruct (G _ _ _ L eq_refl) as [x [raw' [-> [L' <-]]]]. cbn [until_comment is_comment tok_t texts map tok_v]. unfold texts in IH.
      rewrite <- (IH _ _ _ L'). reflexivity.
    + inversion L as [|? H ?|l' u r' ls N U L0 E]; subst; [reflexivity|destruct (H eq_refl)|destruct l'; discriminate].
Qed.

Lemma line_texts_words ws ps : Forall (fun w => one_token w = true) ws -> line_texts (word_pieces ws ++ ps) = ws ++ line_texts ps.
Proof.
  assert (G : forall w q, one_token w = true -> line_texts (piece_of w :: q) = w :: line_texts q).
  { intros w q W. unfold one_token, piece_of in *. destruct (is_word w) eqn:X; [reflexivity|]. cbn [orb] in W.
    destruct (string_parts w W) as [m [-> [N B]]]. unfold inner. rewrite removelast_last. cbn [line_texts]. unfold quote_text.
    rewrite (unescape_plain m N). reflexivity. }
  induction ws as [|w ws IH]; intros F; [reflexivity|]. inversion F as [|? ? W Fw]; subst. destruct ws as [|w2 ws]; [exact (G w ps W)|].
  change (word_pieces (w :: w2 :: ws) ++ ps) with (piece_of w :: PBlank c_space :: (word_pieces (w2 :: ws) ++ ps)).
  rewrite G by exact W. cbn [line_texts]. rewrite (IH Fw). reflexivity.
Qed.

(* a text that begins with words *)
Lemma begins ws t ps : Forall (fun w => one_token w = true) ws -> ends_before is_delim t -> Lexes (join ws ++ t) ps ->
  exists qs, Lexes t qs /\ line_texts ps = ws ++ line_texts qs.
Proof.
  intros F E L. destruct (lexes_exists t) as [qs Q]. exists qs. split; [exact Q|].
  rewrite (Lexes_fun _ _ L _ (words_lex ws t qs F E Q)). apply line_texts_words. exact F.
Qed.
Lemma nothing_follows t ps : Lexes t ps -> (exists r, t = c_lf :: r) \/ (exists r, t = c_slash :: c_slash :: r) -> line_texts ps = [].
Proof.
  intros L [[r ->]|[r ->]].
  - destruct (lexes_exists r) as [q Q]. rewrite (Lexes_fun _ _ L _ (Lx_lf _ _ Q)). reflexivity.
  - inversion L as [|? ? ? B|? ? L'|? ? L'|? ? E L'|w r' ps' F E L'|w r' ps' F E L'|w F|c w r' ps' N C F E L']; subst; try reflexivity.
    + destruct B; discriminate.
    + destruct w as [|d w]; cbn [app] in *.
      * match goal with H : _ = c_slash :: _ |- _ => subst r' end. destruct E as [[E|E]|[E|E]]; discriminate E.
      * match goal with H : _ :: _ = c_slash :: _ |- _ => injection H as -> _ end. destruct (C _ eq_refl).
Qed.
Lemma blank_follows t ps : Lexes (" "%char :: t) ps -> exists qs, Lexes t qs /\ line_texts ps = line_texts qs.
Proof.
  intros L. destruct (lexes_exists t) as [q Q]. exists q. split; [exact Q|].
  rewrite (Lexes_fun _ _ L _ (Lx_blank _ _ _ (or_introl eq_refl) Q)). reflexivity.
Qed.
(* a string, closed or not *)
Lemma string_follows t ps : Lexes (c_quote :: t) ps -> line_texts ps = [] \/
  exists w r qs, quotes_escaped w /\ ~ last_is c_bslash w /\ t = w ++ c_quote :: r /\ line_texts ps = quote_text w :: qs.
Proof.
  intros L. inversion L as [|? ? ? B|? ? L'|? ? L'|? ? E L'|w r' ps' F E L'|w r' ps' F E L'|w F|c w r' ps' N C F E L']; subst.
  - destruct B; discriminate.
  - right. exists w, r', (line_texts ps'). auto.
  - left. reflexivity.
  - congruence.
Qed.

(* what the first line gives *)
Definition first_entry (en : env) (v : N) (raw : list (list token)) : option expr :=
  match raw with [] => None | x :: _ => hd_error (entries en v (code_of x)) end.
Lemma first_of en v ps l c raw e : Lines (fst (layout l c ps)) raw -> first_entry en v raw = Some e -> e <> EmptyExpr ->
  hd_error (line_entries en v (line_texts ps)) = Some e.
Proof.
  intros L H N. rewrite (line_texts_first _ _ _ _ L). destruct raw as [|x raw]; [discriminate|]. cbn [first_entry hd] in *.
  destruct x as [|t x]; [exact H|]. cbn [code_of] in H. unfold until_comment. fold until_comment.
  unfold entries, kind_of in H. unfold is_comment. destruct (tok_t t) eqn:T.
  - unfold line_entries. cbn [texts map]. destruct (label_name (tok_v t)); [exact H|]. destruct (seqb (tok_v t) (bs "#pragma")); [exact H|].
    destruct (ops_get (tok_v t)); exact H.
  - unfold line_entries. cbn [texts map]. destruct (label_name (tok_v t)); [exact H|]. destruct (seqb (tok_v t) (bs "#pragma")); [exact H|].
    destruct (ops_get (tok_v t)); exact H.
  - cbn in H. congruence.
Qed.

(* ------------------------------------------------------------------------------------------ *)
(* where texts come from *)
(* the text of a word or of a string *)
Definition token_like (w : str) : Prop := is_word w = true \/ exists x, quotes_escaped x /\ ~ last_is c_bslash x /\ w = quote_text x.

Lemma lexes_word c w : c <> c_quote -> (forall w', c :: w <> c_slash :: c_slash :: w') -> Forall (fun c => ~ is_delim c) (c :: w) -> is_word (c :: w) = true.
Proof.
  intros N C F. unfold is_word. replace (forallb (fun x => negb (delim x)) (c :: w)) with true.
  - destruct (Ascii.eqb_spec c c_quote); [congruence|]. cbn [negb andb]. destruct (Ascii.eqb_spec c c_slash); [|reflexivity]. subst c.
    destruct w as [|d w]; [reflexivity|]. destruct (Ascii.eqb_spec d c_slash); [|reflexivity]. subst d. destruct (C w eq_refl).
  - symmetry. apply forallb_forall. intros x I. apply not_delim. exact (proj1 (Forall_forall _ _) F x I).
Qed.
Lemma layout_tokens s ps : Lexes s ps -> forall l c, Forall (fun t => tok_t t = TokValue -> token_like (tok_v t)) (fst (layout l c ps)).
Proof.
  induction 1 as [|c r ps B L IH|r ps L IH|r ps L IH|r ps E L IH|w r ps F E L IH|w r ps F E L IH|w F|c w r ps N C F E L IH]; intros l0 c0; cbn [layout fst].
  - constructor.
  - apply IH.
  - constructor; [discriminate|apply IH].
  - constructor; [discriminate|apply IH].
  - constructor; [discriminate|apply IH].
  - constructor; [discriminate|apply IH].
  - constructor; [|apply IH]. intros _. right. exists w. auto.
  - constructor.
  - constructor; [|apply IH]. intros _. left. exact (lexes_word c w N C F).
Qed.
Lemma lines_tokens (P : token -> Prop) ts raw : Lines ts raw -> Forall P ts -> Forall (Forall P) raw.
Proof.
  induction 1 as [|l N E|l t r ls E T L IH]; intros F; [constructor|constructor; [exact F|constructor]|].
  apply Forall_app in F as [F1 F2]. inversion F2; subst. constructor; [exact F1|apply IH; assumption].
Qed.
Lemma until_all (P : token -> Prop) l : Forall P l -> Forall P (until_comment l).
Proof. induction 1 as [|t l H F IH]; [constructor|]. cbn [until_comment]. destruct (is_comment t); [constructor|constructor; assumption]. Qed.

(* the texts an instruction has from its line *)
Definition own_texts (e : expr) : list str :=
  match e with
  | LabelExpr n => [n ++ [":"%char]]
  | BnzExpr l | BzExpr l | BExpr l | CallSubExpr l | AddrExpr l => [l]
  | SwitchExpr ls | MatchExpr ls => ls
  | _ => []
  end.
Definition value_from (P : str -> Prop) (k : imm) : imm_val k -> Prop :=
  match k return imm_val k -> Prop with
  | ILabel | IAddr => P
  | _ => fun _ => True
  end.
Fixpoint all_from (P : str -> Prop) (p : prog) : Prop :=
  match p with
  | Emit e => Forall P (own_texts e)
  | MinVersion _ p | ModeMinVersion _ _ p => all_from P p
  | Read k _ f => forall x, value_from P k x -> all_from P (f x)
  | ReadMaybe _ f => forall x, all_from P (f x)
  | ReadInts _ f => forall xs, all_from P (f xs)
  | ReadBytess _ f => forall xs, all_from P (f xs)
  | ReadLabels _ f => forall xs, Forall P xs -> all_from P (f xs)
  end.
Lemma ops_from P : Forall (fun x => all_from P (snd x)) ops_list.
Proof.
  unfold ops_list.
  repeat (constructor; [
    match goal with |- all_from P (snd (_, ?p)) => cbn [snd]; try unfold p end; cbn [all_from value_from own_texts];
    repeat first [ solve [constructor] | match goal with x : option _ |- _ => destruct x end; cbn [all_from value_from own_texts]
                 | intros ? ?; cbn [all_from value_from own_texts] | intros ?; cbn [all_from value_from own_texts] 
                 | assumption | constructor; [assumption|constructor] ]
    |]).
  constructor.
Qed.
Lemma byte_operand_from (P : str -> Prop) en a r x s : byte_operand en a r = Some (x, s) -> Forall P r -> Forall P s.
Proof.
  intros E F. unfold byte_operand in E.
  repeat match type of E with
  | context [if ?b then _ else _] => destruct b
  | context [match ?o with Some _ => _ | None => _ end] => destruct o
  | obind ?o _ = _ => destruct o; cbn [obind] in E
  | context [match ?o with Ret _ => _ | Panic => _ | OutOfFuel => _ end] => destruct o
  | match r with _ => _ end = _ => destruct r as [|y r]
  end; try discriminate E; try (injection E as <- <-); try assumption; inversion F; assumption.
Qed.
Lemma operand_from (P : str -> Prop) en v k a r x s : operand en v k a r = Some (x, s) -> P a -> Forall P r -> value_from P k x /\ Forall P s.
Proof.
  intros E A F. destruct k; cbn [operand] in E; try (split; [exact I|exact (byte_operand_from P en a r x s E F)]).
  all: match type of E with obind ?o _ = _ => destruct o as [y|] eqn:O; [|discriminate]; cbn [obind] in E; injection E as <- <- end; split; try exact F; cbn [value_from]; try exact I.
  all: cbn [operand_value] in O; try (injection O as <-; exact A).
  destruct (addr_ok en a); [injection O as <-; exact A|discriminate].
Qed.
Lemma assemble_from (P : str -> Prop) en v p : all_from P p -> forall args e r, assemble en v p args = Some (e, r) -> Forall P args -> Forall P (own_texts e).
Proof.
  induction p as [e0|w p IH|m w p IH|k n f IH|n f IH|n f IH|n f IH|n f IH]; cbn [all_from assemble]; intros A args e r E F.
  - injection E as <- _. exact A.
  - eapply IH; eassumption.
  - eapply IH; eassumption.
  - destruct args as [|a s]; [discriminate|]. destruct (operand en v k a s) as [[x q]|] eqn:O; [|discriminate].
    inversion F as [|? ? Pa Fs]; subst. destruct (operand_from P en v k a s x q O Pa Fs) as [Vx Fq]. cbn [obind fst snd] in E. eapply IH; [|exact E|exact Fq]. apply A. exact Vx.
  - destruct args as [|a s]; [eapply IH; [apply A|exact E|exact F]|].
    destruct (read_uint8 a) as [x|] eqn:O; [|discriminate]. cbn [obind] in E. inversion F; subst. eapply IH; [apply A|exact E|assumption].
  - destruct (all_ints args) as [xs|] eqn:O; [|discriminate]. cbn [obind] in E. eapply IH; [apply A|exact E|constructor].
  - destruct (all_bytes en (length args) args) as [xs|]; [|discriminate]. cbn [obind] in E. eapply IH; [apply A|exact E|constructor].
  - eapply IH; [|exact E|constructor]. apply A. exact F.
Qed.

Definition from_tokens (e : expr) : Prop := Forall token_like (own_texts e).
Lemma entries_from en v x : Forall (fun t => tok_t t = TokValue -> token_like (tok_v t)) x -> existsb is_eol x = false ->
  Forall from_tokens (entries en v (code_of x)).
Proof.
  intros F T. assert (Z : Forall from_tokens [EmptyExpr]) by (repeat constructor). unfold entries. destruct x as [|t r]; [exact Z|].
  inversion F as [|? ? Ft Fr]; subst. cbn [existsb] in T. apply Bool.orb_false_iff in T as [T1 T2].
  assert (X : Forall token_like (texts (until_comment r))).
  { unfold texts. clear - T2 Fr. induction r as [|x r IH]; [constructor|]. inversion Fr as [|? ? A B]; subst. cbn [existsb] in T2. apply Bool.orb_false_iff in T2 as [T1 T2].
    cbn [until_comment]. unfold is_comment. unfold is_eol in T1. destruct (tok_t x); [discriminate| |constructor]. cbn [map]. constructor; [exact (A eq_refl)|exact (IH T2 B)]. }
  cbn [code_of kind_of]. unfold is_eol in T1. destruct (tok_t t); [discriminate| |exact Z]. specialize (Ft eq_refl).
  destruct (label_name (tok_v t)) as [n|] eqn:Ln.
  { destruct n as [|c n]; [exact Z|]. constructor; [|constructor]. constructor; [|constructor]. unfold label_name in Ln.
    destruct (rev (tok_v t)) as [|d m] eqn:R; [discriminate|]. destruct (Ascii.eqb_spec d ":"); [|discriminate]. injection Ln as Ln.
    apply (f_equal (@rev ascii)) in R. rewrite rev_involutive in R. cbn [rev] in R. rewrite Ln in R. subst d. rewrite <- R. exact Ft. }
  destruct (seqb (tok_v t) (bs "#pragma")); [destruct (pragma_version _); [repeat constructor|exact Z]|].
  destruct (ops_get (tok_v t)) as [p|] eqn:O; [|exact Z]. destruct (ops_get_in _ _ O) as [m I].
  destruct (assemble en v p (texts (until_comment r))) as [[e s]|] eqn:A; [|exact Z].
  assert (Y : from_tokens e) by (eapply assemble_from; [exact (proj1 (Forall_forall _ _) (ops_from token_like) _ I)|exact A|exact X]).
  destruct s; repeat constructor; exact Y.
Qed.
Theorem results_from en src r : process en src = Ret r -> Forall from_tokens (r_listing r).
Proof.
  intros E. destruct (lexes_exists src) as [ps L]. destruct (process_raw en src ps r L E) as [raw [Li Rl]].
  destruct (process_result en src r E) as [ts [errs [raw' [lds [_ [_ [_ R]]]]]]]. rewrite (ro_listing _ _ _ _ _ _ _ R), Rl.
  pose proof (lines_tokens _ _ _ Li (layout_tokens _ _ L 0 0)) as F.
  assert (N : Forall (fun x => existsb is_eol x = false) raw).
  { clear - Li. induction Li as [|l N E|l t r ls E T L IH]; repeat constructor; assumption. }
  generalize 1%N. clear - F N. induction F as [|x raw Fx F IH]; intros v; [constructor|]. inversion N; subst.
  cbn [map all_entries]. apply Forall_app. split; [apply entries_from; assumption|apply IH; assumption].
Qed.

(* ------------------------------------------------------------------------------------------ *)
(* fields without a name *)
Definition beyond (sp : list field_spec) (ty inv : string) : bool :=
  forallb (fun n => let t := field_text sp ty inv (N.of_nat n) in
    is_word t && match spec_by_name sp t, read_uint8 t with None, None => true | _, _ => false end) (seq (length sp) (256 - length sp)) && all_words sp.
Lemma beyond_read sp ty inv f : beyond sp ty inv = true -> (f < 256)%N -> nth_error sp (N.to_nat f) = None ->
  spec_by_name sp (field_text sp ty inv f) = None /\ read_uint8 (field_text sp ty inv f) = None.
Proof.
  unfold beyond. intros B F N. apply Bool.andb_true_iff in B as [B _]. apply nth_error_None in N. rewrite forallb_forall in B.
  specialize (B (N.to_nat f)). rewrite N2Nat.id in B. cbv zeta in B.
  assert (I : In (N.to_nat f) (seq (length sp) (256 - length sp))) by (apply in_seq; lia). specialize (B I).
  apply Bool.andb_true_iff in B as [_ B]. destruct (spec_by_name sp _); [discriminate|]. destruct (read_uint8 _); [discriminate|auto].
Qed.
Lemma beyond_word sp ty inv f : beyond sp ty inv = true -> (f < 256)%N -> is_word (field_text sp ty inv f) = true.
Proof.
  unfold beyond. intros B F. apply Bool.andb_true_iff in B as [B A]. destruct (nth_error sp (N.to_nat f)) as [x|] eqn:E.
  - unfold field_text. rewrite E. unfold all_words in A. rewrite forallb_forall in A. exact (A x (nth_error_In _ _ E)).
  - apply nth_error_None in E. rewrite forallb_forall in B.
    specialize (B (N.to_nat f)). rewrite N2Nat.id in B. cbv zeta in B.
    assert (I : In (N.to_nat f) (seq (length sp) (256 - length sp))) by (apply in_seq; lia). specialize (B I).
    apply Bool.andb_true_iff in B as [B _]. exact B.
Qed.
Lemma by_name sp ty inv f x : distinct (map f_name sp) = true -> nth_error sp (N.to_nat f) = Some x ->
  spec_by_name sp (field_text sp ty inv f) = Some (f, x).
Proof.
  intros D E. pose proof (printed_read sp ty inv f (f_version x) x D E (N.le_refl _)) as P. unfold read_field in P.
  pose proof (spec_by_name_table sp (distinct_nodup (map f_name sp) D) 0 (field_text sp ty inv f)) as T.
  fold (spec_by_name sp (field_text sp ty inv f)) in T.
  destruct (spec_by_name sp (field_text sp ty inv f)) as [[g y]|].
  - destruct (f_version x <? f_version y)%N; [discriminate|]. injection P as ->. destruct T as [_ [_ [T _]]].
    rewrite N.sub_0_r, E in T. congruence.
  - destruct (read_uint8 (field_text sp ty inv f)); discriminate.
Qed.
Lemma unnamed_read sp ty inv v f : distinct (map f_name sp) = true -> beyond sp ty inv = true -> (f < 256)%N -> named sp v f = false ->
  read_field sp v (field_text sp ty inv f) = None.
Proof.
  intros D B F N. unfold named in N. unfold read_field. destruct (nth_error sp (N.to_nat f)) as [x|] eqn:E.
  - rewrite (by_name sp ty inv f x D E). replace (v <? f_version x)%N with true by lia. reflexivity.
  - destruct (beyond_read sp ty inv f B F E) as [-> ->]. reflexivity.
Qed.
Lemma beyond_txn : beyond txnFieldSpecs "TxnField" "invalidTxnField" = true.
Proof. vm_compute. reflexivity. Qed.
Lemma unnamed_txn v f : (f < 256)%N -> named txnFieldSpecs v f = false -> read_txn_field ITxnField v (txt_TxnField f) = None.
Proof.
  intros F N. unfold named in N. unfold read_txn_field. destruct (nth_error txnFieldSpecs (N.to_nat f)) as [x|] eqn:E.
  - rewrite (txn_by_name f x E). replace (v <? f_version x)%N with true by lia. reflexivity.
  - unfold txt_TxnField. destruct (beyond_read _ _ _ f beyond_txn F E) as [-> ->]. reflexivity.
Qed.
Lemma unnamed_txna v f : (f < 256)%N -> named_array f = false -> read_txn_field ITxnaField v (txt_TxnField f) = None.
Proof.
  intros F N. unfold named_array in N. unfold read_txn_field. destruct (nth_error txnFieldSpecs (N.to_nat f)) as [x|] eqn:E.
  - rewrite (txn_by_name f x E), N. reflexivity.
  - unfold txt_TxnField. destruct (beyond_read _ _ _ f beyond_txn F E) as [-> ->]. reflexivity.
Qed.
Lemma unnamed_itxn v f : (f < 256)%N -> named_itxn v f = false -> read_txn_field IItxnField v (txt_TxnField f) = None.
Proof.
  intros F N. unfold named_itxn in N. unfold read_txn_field. destruct (nth_error txnFieldSpecs (N.to_nat f)) as [x|] eqn:E.
  - rewrite (txn_by_name f x E). destruct (f_itx x =? 0)%N; [reflexivity|]. cbn [negb andb] in N. replace (v <? f_itx x)%N with true by lia. reflexivity.
  - unfold txt_TxnField. destruct (beyond_read _ _ _ f beyond_txn F E) as [-> ->]. reflexivity.
Qed.

(* ------------------------------------------------------------------------------------------ *)
(* lines that give something else *)
Lemma words_only ws rest ps : Forall (fun w => one_token w = true) ws -> Lexes (join ws ++ c_lf :: rest) ps -> line_texts ps = ws.
Proof.
  intros F L. destruct (begins ws (c_lf :: rest) ps F ltac:(right; left; reflexivity) L) as [q [Q ->]].
  rewrite (nothing_follows _ _ Q) by (left; eauto). apply app_nil_r.
Qed.
Lemma op_fails en v n p args : label_name n = None -> seqb n (bs "#pragma") = false -> ops_get n = Some p ->
  assemble en v p args = None -> line_entries en v (n :: args) = [EmptyExpr].
Proof. intros A B C D. unfold line_entries. rewrite A, B, C, D. reflexivity. Qed.
Lemma op_first en v n p args : label_name n = None -> seqb n (bs "#pragma") = false -> ops_get n = Some p ->
  hd_error (line_entries en v (n :: args)) = Some match assemble en v p args with Some (e, _) => e | None => EmptyExpr end.
Proof. intros A B C. unfold line_entries. rewrite A, B, C. destruct (assemble en v p args) as [[e [|x r]]|]; reflexivity. Qed.

(* one word, a blank, and something that is no plain token *)
Lemma begins_blank ws t ps : Forall (fun w => one_token w = true) ws -> Lexes (join ws ++ " "%char :: t) ps ->
  exists qs, Lexes t qs /\ line_texts ps = ws ++ line_texts qs.
Proof.
  intros F L. destruct (begins ws (" "%char :: t) ps F (or_introl (or_introl eq_refl)) L) as [q [Q ->]].
  destruct (blank_follows _ _ Q) as [q' [Q' ->]]. eauto.
Qed.

(* texts that are printed as they are *)
Lemma unescaped_length w v : Unescaped w v -> length v <= length w.
Proof. induction 1; cbn [length]; lia. Qed.
Lemma unescaped_same w v : Unescaped w v -> length v = length w -> v = w /\ forall a b, w <> a ++ c_bslash :: c_quote :: b.
Proof.
  induction 1 as [|w v U IH|c w v N U IH]; cbn [length]; intros E.
  - split; [reflexivity|]. intros [|? ?]; discriminate.
  - pose proof (unescaped_length _ _ U). lia.
  - destruct IH as [-> X]; [lia|]. split; [reflexivity|]. intros [|y a] b H; cbn [app] in H; injection H as -> H.
    + apply N. split; [reflexivity|]. eauto.
    + exact (X _ _ H).
Qed.
Lemma unescaped_last w v : Unescaped w v -> last_is c_bslash v -> last_is c_bslash w.
Proof.
  induction 1 as [|w v U IH|c w v N U IH]; intros [x E].
  - destruct x; discriminate.
  - destruct x as [|y x]; cbn [app] in E; injection E as E1 E; [discriminate|]. destruct IH as [z ->]; [exists x; exact E|]. exists (c_bslash :: c_quote :: z). reflexivity.
  - destruct x as [|y x]; cbn [app] in E; injection E as E1 E.
    + subst. inversion U; subst. exists []. reflexivity.
    + destruct IH as [z ->]; [exists x; exact E|]. exists (c :: z). reflexivity.
Qed.
Lemma escaped_no_pair v : quotes_escaped v -> (forall a b, v <> a ++ c_bslash :: c_quote :: b) -> ~ In c_quote v.
Proof.
  intros Q N I. apply In_nth_error in I as [i I]. destruct (Q i I) as [j [-> B]].
  apply nth_error_split in B as [a [b [-> L]]]. rewrite nth_error_app2 in I by lia. replace (S j - length a) with 1 in I by lia.
  destruct b as [|c b]; [discriminate|]. cbn in I. injection I as ->. exact (N a b eq_refl).
Qed.
Lemma plain_string m : ~ In c_quote m -> ~ last_is c_bslash m -> is_string (c_quote :: m ++ [c_quote]) = true.
Proof.
  intros N B. unfold is_string. rewrite rev_app_distr. cbn [rev app]. rewrite Ascii.eqb_refl. cbn [andb].
  replace (existsb (fun x => Ascii.eqb x c_quote) (rev m)) with false.
  - cbn [negb andb]. destruct (rev m) as [|x r] eqn:R; [reflexivity|]. destruct (Ascii.eqb_spec x c_bslash); [|reflexivity]. subst.
    destruct B. apply (f_equal (@rev ascii)) in R. rewrite rev_involutive in R. exists (rev r). exact R.
  - symmetry. apply not_true_is_false. intros X. apply existsb_exists in X as [x [I E]]. apply Ascii.eqb_eq in E. subst. apply N. apply in_rev. exact I.
Qed.
Lemma odd_token w rest ps : token_like w -> one_token w = false -> Lexes (w ++ rest) ps ->
  hd_error (line_texts ps) <> Some w.
Proof.
  intros T O L H. unfold one_token in O. apply Bool.orb_false_iff in O as [O1 O2]. destruct T as [T|[x [Q [B ->]]]]; [congruence|].
  unfold quote_text in *. cbn [app] in L. pose proof (unescape_quotes_spec x) as U. set (m := unescape_quotes x) in *.
  assert (Bm : ~ last_is c_bslash m) by (intros X; exact (B (unescaped_last _ _ U X))).
  destruct (string_follows _ _ L) as [E|[w' [r [qs [Q' [B' [E Lt]]]]]]]; [rewrite E in H; discriminate|].
  rewrite Lt in H. cbn [hd_error] in H. unfold quote_text in H. injection H as H. apply app_inj_tail in H as [H _].
  rewrite <- app_assoc in E. cbn [app] in E. pose proof (unescape_quotes_spec w') as U'. rewrite H in U'.
  destruct (app_cases _ _ _ _ E) as [[k [-> K]]|[k [Ek K]]].
  - destruct k as [|y k].
    + rewrite app_nil_r in *. destruct (unescaped_same _ _ U' eq_refl) as [_ X].
      rewrite plain_string in O2; [discriminate|exact (escaped_no_pair m Q' X)|exact Bm].
    + cbn [app] in K. injection K as <- _. exact (Bm (string_longer _ _ _ Q' eq_refl)).
  - pose proof (unescaped_length _ _ U') as Le. rewrite Ek, app_length in Le. destruct k as [|y k]; [|cbn in Le; lia].
    rewrite app_nil_r in Ek. rewrite Ek in U'. destruct (unescaped_same _ _ U' eq_refl) as [_ X]. rewrite Ek in O2.
    rewrite plain_string in O2; [discriminate|exact (escaped_no_pair w' Q' X)|exact B'].
Qed.

(* signatures are quoted once more *)
Lemma escape_unescaped s : Unescaped (escape_quotes s) s.
Proof.
  induction s as [|c s IH]; [constructor|]. unfold escape_quotes. cbn [flat_map]. fold (escape_quotes s).
  destruct (Ascii.eqb_spec c c_quote) as [->|N]; cbn [app]; [constructor; exact IH|].
  apply Un_char; [|exact IH]. intros [_ [w E]]. destruct s as [|d s]; [discriminate|]. unfold escape_quotes in E. cbn [flat_map] in E.
  destruct (Ascii.eqb_spec d c_quote); cbn [app] in E; injection E as E _; [discriminate|congruence].
Qed.
Lemma Unescaped_fun w v : Unescaped w v -> v = unescape_quotes w.
Proof.
  intros U. pose proof (unescape_quotes_spec w) as U'. revert U'. generalize (unescape_quotes w) as u.
  induction U as [|w v U IH|c w v N U IH]; intros u U'; inversion U' as [|? ? U1|? ? ? N1 U1]; subst; try reflexivity.
  - f_equal. apply IH. exact U1.
  - destruct N1. eauto.
  - destruct N. eauto.
  - f_equal. apply IH. exact U1.
Qed.
Lemma escape_escaped s : quotes_escaped (escape_quotes s).
Proof.
  induction s as [|c s IH]; intros i E; [destruct i; discriminate|]. unfold escape_quotes in *. cbn [flat_map] in *.
  destruct (Ascii.eqb_spec c c_quote) as [->|N]; cbn [app] in *.
  - destruct i as [|[|i]]; cbn [nth_error] in E; [discriminate|exists 0; auto|]. destruct (IH i E) as [j [-> B]]. exists (S (S j)). auto.
  - destruct i as [|i]; cbn [nth_error] in E; [congruence|]. destruct (IH i E) as [j [-> B]]. exists (S j). auto.
Qed.
Lemma escape_last s : last_is c_bslash (escape_quotes s) -> last_is c_bslash s.
Proof.
  destruct s as [|c s] using rev_ind; [intros [[|? ?] E]; discriminate|]. unfold escape_quotes. rewrite flat_map_app. cbn [flat_map].
  intros [x E]. destruct (Ascii.eqb_spec c c_quote) as [->|N]; rewrite app_nil_r in E.
  - change [c_bslash; c_quote] with ([c_bslash] ++ [c_quote]) in E. rewrite app_assoc in E. apply app_inj_tail in E as [_ E]. discriminate.
  - apply app_inj_tail in E as [_ ->]. exists s. reflexivity.
Qed.
Lemma twice_quoted s rest ps : Lexes (c_quote :: escape_quotes s ++ c_quote :: rest) ps -> hd_error (line_texts ps) <> Some s.
Proof.
  intros L H. destruct (string_follows _ _ L) as [E|[w [r [qs [Q [B [E Lt]]]]]]]; [rewrite E in H; discriminate|].
  rewrite Lt in H. cbn [hd_error] in H. injection H as H.
  assert (Bs : ~ last_is c_bslash (escape_quotes s)).
  { intros X. apply escape_last in X as [x X]. rewrite <- H in X. unfold quote_text in X. rewrite app_comm_cons in X. apply app_inj_tail in X as [_ X]. discriminate. }
  destruct (string_unique _ _ _ _ (escape_escaped s) Bs Q B E) as [<- _].
  unfold quote_text in H. rewrite <- (Unescaped_fun _ _ (escape_unescaped s)) in H. apply (f_equal (@length ascii)) in H. cbn [length] in H.
  rewrite app_length in H. cbn in H. lia.
Qed.

(* base 64 that is no word *)
Lemma b64_not_word w : plain_bytes w = false -> b64_encode w = [] \/ exists r, b64_encode w = c_slash :: c_slash :: r.
Proof.
  unfold plain_bytes. intros H. pose proof (b64_encode_letters w) as F. destruct (b64_encode w) as [|c r]; [left; reflexivity|]. right.
  unfold is_word in H. replace (forallb (fun x => negb (delim x)) (c :: r)) with true in H.
  - inversion F as [|? ? Lc _]; subst. destruct (b64_letter_word c Lc) as [_ [Q _]]. destruct (Ascii.eqb_spec c c_quote); [congruence|].
    cbn [negb andb] in H. destruct (Ascii.eqb_spec c c_slash); [|discriminate]. subst. destruct r as [|d r]; [discriminate|].
    destruct (Ascii.eqb_spec d c_slash); [|discriminate]. subst. eauto.
  - symmetry. apply forallb_forall. intros x I. apply not_delim. exact (proj1 (b64_letter_word x (proj1 (Forall_forall _ _) F x I))).
Qed.

Definition b64_words (ws : list str) : list str := flat_map (fun w => [bs "b64"; b64_encode w]) ws.
Lemma all_bytes_bad en w1 : forall n bad, (bad = [] \/ exists r, bad = bs "b64" :: r) -> all_bytes en n (b64_words w1 ++ bs "b64" :: bad) = None.
Proof.
  induction w1 as [|w w1 IH]; intros [|n] bad H; [reflexivity| |reflexivity|].
  - cbn [b64_words flat_map app all_bytes]. destruct H as [->|[r ->]]; reflexivity.
  - change (b64_words (w :: w1) ++ bs "b64" :: bad) with (bs "b64" :: b64_encode w :: (b64_words w1 ++ bs "b64" :: bad)).
    cbn [all_bytes]. rewrite byte_operand_b64. cbn [obind fst snd]. rewrite (IH n bad H). reflexivity.
Qed.
Lemma first_bad (f : str -> bool) ws : forallb f ws = false -> exists w1 w w2, ws = w1 ++ w :: w2 /\ forallb f w1 = true /\ f w = false.
Proof.
  induction ws as [|w ws IH]; [discriminate|]. cbn [forallb]. destruct (f w) eqn:E; cbn [andb].
  - intros H. destruct (IH H) as [w1 [x [w2 [-> [A B]]]]]. exists (w :: w1), x, w2. cbn [app forallb]. rewrite E. auto.
  - intros _. exists [], w, ws. auto.
Qed.
Definition after (w2 : list str) : str := match w2 with [] => [] | _ => " "%char :: join (map (fun v => bs "b64 " ++ b64_encode v) w2) end.
Lemma join_app a b : a <> [] -> b <> [] -> join (a ++ b) = join a ++ " "%char :: join b.
Proof.
  intros A B. induction a as [|x a IH]; [congruence|]. destruct a as [|y a]; [apply join_cons; exact B|].
  cbn [app]. rewrite (join_cons x (y :: a)) by discriminate. change (y :: a ++ b) with ((y :: a) ++ b). rewrite join_cons by discriminate.
  rewrite IH by discriminate. rewrite <- app_assoc. reflexivity.
Qed.
Lemma pushbytess_split w1 w w2 : bs "pushbytess " ++ join (map (fun v => bs "b64 " ++ b64_encode v) (w1 ++ w :: w2)) =
  join (bs "pushbytess" :: b64_words w1 ++ [bs "b64"]) ++ " "%char :: b64_encode w ++ after w2.
Proof.
  assert (G : join (map (fun v => bs "b64 " ++ b64_encode v) (w :: w2)) = bs "b64" ++ " "%char :: b64_encode w ++ after w2).
  { destruct w2 as [|x w2]; [cbn [map join after]; rewrite app_nil_r; reflexivity|].
    cbn [map]. rewrite join_cons by discriminate. change (bs "b64 ") with (bs "b64" ++ [" "%char]). rewrite <- !app_assoc. reflexivity. }
  rewrite join_cons by (destruct w1; discriminate). change (bs "pushbytess ") with (bs "pushbytess" ++ [" "%char]). rewrite <- !app_assoc. f_equal. cbn [app]. f_equal.
  destruct w1 as [|x w1]; [exact G|].
  rewrite map_app, join_app by (try discriminate; rewrite map_cons; discriminate). rewrite G.
  pose proof (pushbytess_text x w1) as T. rewrite join_cons in T by discriminate. change (bs "pushbytess ") with (bs "pushbytess" ++ [" "%char]) in T. rewrite <- app_assoc in T.
  apply app_inv_head in T. assert (T' : join (map (fun v => bs "b64 " ++ b64_encode v) (x :: w1)) = join (b64_words (x :: w1))) by exact (f_equal (@tl ascii) T).
  rewrite (join_app (b64_words (x :: w1)) [bs "b64"]) by discriminate. rewrite T', <- app_assoc. reflexivity.
Qed.
Lemma nothing_bytes w rest ps : plain_bytes w = false -> Lexes (b64_encode w ++ c_lf :: rest) ps -> line_texts ps = [].
Proof. intros P L. apply (nothing_follows _ _ L). destruct (b64_not_word w P) as [->|[r ->]]; [left|right]; cbn [app]; eauto. Qed.
Lemma bad_bytes w w2 rest ps : plain_bytes w = false -> Lexes ((b64_encode w ++ after w2) ++ c_lf :: rest) ps ->
  line_texts ps = [] \/ exists r, line_texts ps = bs "b64" :: r.
Proof.
  intros P L. destruct (b64_not_word w P) as [E|[r E]].
  - rewrite E in L. cbn [app] in L. destruct w2 as [|x w2]; [exact (or_introl (nothing_follows _ _ L (or_introl (ex_intro _ rest eq_refl))))|]. right.
    cbn [after app] in L. destruct (blank_follows _ _ L) as [q [Q ->]].
    assert (H : exists t, join (map (fun v => bs "b64 " ++ b64_encode v) (x :: w2)) ++ c_lf :: rest = join [bs "b64"] ++ " "%char :: t).
    { destruct w2 as [|y w2]; cbn [map]; [|rewrite join_cons by discriminate]; eexists; cbn [join]; change (bs "b64 ") with (bs "b64" ++ [" "%char]); rewrite <- !app_assoc; reflexivity. }
    destruct H as [t H]. rewrite H in Q. destruct (begins_blank [bs "b64"] t q ltac:(repeat constructor) Q) as [q' [_ ->]]. eexists. reflexivity.
  - left. apply (nothing_follows _ _ L). right. rewrite E. cbn [app]. eauto.
Qed.

(* one branch target *)
Lemma lost_label en v n p f l rest ps : label_name (bs n) = None -> seqb (bs n) (bs "#pragma") = false -> ops_get (bs n) = Some p ->
  one_token (bs n) = true -> (forall x, f x <> EmptyExpr) -> (forall x y, f x = f y -> x = y) ->
  (assemble en v p [] = None) -> (forall x r, assemble en v p (x :: r) = None \/ assemble en v p (x :: r) = Some (f x, r)) ->
  token_like l -> one_token l = false -> Lexes (bs n ++ " "%char :: l ++ c_lf :: rest) ps -> hd_error (line_entries en v (line_texts ps)) <> Some (f l).
Proof.
  intros A B C D Ne Inj A0 A1 T O L H. destruct (begins_blank [bs n] _ ps ltac:(repeat constructor; exact D) L) as [q [Q E]]. rewrite E in H.
  cbn [app] in H. rewrite (op_first en v (bs n) p) in H by assumption. injection H as H. pose proof (odd_token l _ q T O Q) as X.
  destruct (line_texts q) as [|x r]; [rewrite A0 in H; exact (Ne _ (eq_sym H))|].
  destruct (A1 x r) as [Y|Y]; rewrite Y in H; [exact (Ne _ (eq_sym H))|]. apply Inj in H. subst. exact (X eq_refl).
Qed.
Lemma lost_labels en v n p f ls rest ps : label_name (bs n) = None -> seqb (bs n) (bs "#pragma") = false -> ops_get (bs n) = Some p ->
  one_token (bs n) = true -> (forall x y, f x = f y -> x = y) -> (forall r, assemble en v p r = Some (f r, [])) ->
  Forall token_like ls -> forallb one_token ls = false -> Lexes ((bs n ++ " "%char :: join ls) ++ c_lf :: rest) ps -> hd_error (line_entries en v (line_texts ps)) <> Some (f ls).
Proof.
  intros A B C D Inj As T O L H. destruct (first_bad _ _ O) as [l1 [l [l2 [-> [F1 Fl]]]]]. apply Forall_app in T as [T1 T2]. inversion T2 as [|? ? Tl _]; subst.
  assert (E : exists t, (bs n ++ " "%char :: join (l1 ++ l :: l2)) ++ c_lf :: rest = join (bs n :: l1) ++ " "%char :: l ++ t).
  { assert (G : exists t, join (l :: l2) ++ c_lf :: rest = l ++ t) by (destruct l2; [eexists; reflexivity|rewrite join_cons by discriminate; rewrite <- app_assoc; eexists; reflexivity]).
    destruct G as [t G]. exists t. rewrite <- (join_cons (bs n) (l1 ++ l :: l2)) by (destruct l1; discriminate).
    change (bs n :: l1 ++ l :: l2) with ((bs n :: l1) ++ l :: l2). rewrite join_app by discriminate. rewrite <- app_assoc. cbn [app]. rewrite G. reflexivity. }
  destruct E as [t E]. rewrite E in L. destruct (fun F => begins_blank (bs n :: l1) (l ++ t) ps F L) as [q [Q Lt]].
  { constructor; [exact D|]. apply Forall_forall. rewrite forallb_forall in F1. exact F1. }
  rewrite Lt in H. cbn [app] in H. rewrite (op_first en v (bs n) p), As in H by assumption. injection H as H. apply Inj in H.
  apply app_inv_head in H. pose proof (odd_token l _ q Tl Fl Q) as X. rewrite H in X. exact (X eq_refl).
Qed.

Ltac field_words := repeat (constructor; [first [reflexivity | apply token_dec | apply word_token, beyond_word; [vm_compute; reflexivity|assumption]
  | apply word_token; unfold txt_TxnField; apply beyond_word; [exact beyond_txn|assumption] ]|]); constructor.
Ltac unnamed :=
  cbn [assemble obind operand operand_value fst snd fst_of];
  unfold txt_GlobalField, txt_AssetParamsField, txt_AppParamsField, txt_AcctParamsField, txt_AssetHoldingField, txt_BlockField, txt_VrfStandard;
  repeat (first
    [ rewrite read_uint8_dec by assumption | rewrite unnamed_txn by assumption | rewrite unnamed_txna by assumption
    | rewrite unnamed_itxn by assumption
    | rewrite (parse_uint_dec _ 64) by (change (2 ^ 64)%N with 18446744073709551616%N; lia)
    | match goal with
      | |- context [read_field ?sp ?v (field_text ?sp ?ty ?inv ?f)] => rewrite (unnamed_read sp ty inv v f) by (assumption || (vm_compute; reflexivity))
      end ];
    cbn [assemble obind operand operand_value fst snd fst_of]).
Ltac lost_field p := 
  match goal with L : Lexes (?t ++ c_lf :: _) _ |- hd_error (line_entries _ _ (line_texts _)) <> Some ?e =>
    let H := fresh in rewrite (words_only (words e) _ _ ltac:(cbn [words]; field_words) L);
    cbn [words]; rewrite (op_fails _ _ _ p); [discriminate|reflexivity|reflexivity|vm_compute; reflexivity|unfold p; unnamed; try reflexivity] end.

Lemma lost_line en v e t rest ps : immediates_fit en e = true -> built e = true -> from_tokens e -> exceptional v e = true ->
  print e = Ret t -> Lexes (t ++ c_lf :: rest) ps -> hd_error (line_entries en v (line_texts ps)) <> Some e.
Proof.
  intros F B T X P L. destruct e; cbn [exceptional] in X; try discriminate X; try discriminate B; try apply Bool.negb_true_iff in X; split_fit F;
    unfold from_tokens in T; cbn [own_texts] in T; cbn [print] in P; try (injection P as <-);
    unfold txt_GlobalField, txt_AssetParamsField, txt_AppParamsField, txt_AcctParamsField, txt_AssetHoldingField, txt_BlockField, txt_VrfStandard in L.
  - destruct o; discriminate.
  - lost_field opTxn.
  - lost_field opGlobal.
  - lost_field opTxna.
  - lost_field opGtxn.
  - lost_field opGtxns.
  - inversion T as [|? ? [Q|[x [_ [_ Q]]]] _]; subst; [congruence|]. unfold quote_text in Q. rewrite app_comm_cons in Q. apply app_inj_tail in Q as [_ Q]. discriminate. (* LabelExpr *)
  - apply N.eqb_eq in F. subst. cbn [bytes_text N.eqb mapr] in P. injection P as <-. intros H. (* PushBytesExpr *)
    destruct (begins_blank [bs "pushbytes"; bs "b64"] (b64_encode Value_ ++ c_lf :: rest) ps ltac:(repeat constructor) L) as [q [Q E]].
    rewrite E, (nothing_bytes _ _ _ X Q) in H. cbn [app] in H. rewrite (op_fails _ _ _ opPushBytes) in H by (reflexivity || (vm_compute; reflexivity)). discriminate.
  - apply N.eqb_eq in F. subst. cbn [bytes_text N.eqb mapr] in P. injection P as <-. intros H. (* ByteExpr *)
    destruct (begins_blank [bs "byte"; bs "b64"] (b64_encode Value_ ++ c_lf :: rest) ps ltac:(repeat constructor) L) as [q [Q E]].
    rewrite E, (nothing_bytes _ _ _ X Q) in H. cbn [app] in H. rewrite (op_fails _ _ _ opByte) in H by (reflexivity || (vm_compute; reflexivity)). discriminate.
  - apply N.eqb_eq in X. subst. rewrite (words_only [bs "#pragma"; bs "version"; dec 0] rest ps ltac:(repeat constructor) L). discriminate. (* PragmaExpr *)
  - inversion T; subst. apply (lost_label en v "bnz" opBnz BnzExpr Label_ rest ps); try reflexivity; try assumption; try discriminate; try congruence. intros; right; reflexivity.
  - inversion T; subst. apply (lost_label en v "bz" opBz BzExpr Label_ rest ps); try reflexivity; try assumption; try discriminate; try congruence. intros; right; reflexivity.
  - inversion T; subst. apply (lost_label en v "b" opB BExpr Label_ rest ps); try reflexivity; try assumption; try discriminate; try congruence. intros; right; reflexivity.
  - destruct Targets_ as [|x ls]; [discriminate|]. apply (lost_labels en v "switch" opSwitch SwitchExpr (x :: ls) rest ps); try reflexivity; try assumption; congruence.
  - destruct Targets_ as [|x ls]; [discriminate|]. apply (lost_labels en v "match" opMatch MatchExpr (x :: ls) rest ps); try reflexivity; try assumption; congruence.
  - inversion T; subst. apply (lost_label en v "callsub" opCallSub CallSubExpr Label_ rest ps); try reflexivity; try assumption; try discriminate; try congruence. intros; right; reflexivity.
  - rewrite (words_only [bs "repace2"; dec Start_] rest ps) by (first [exact L|repeat (constructor; [first [reflexivity|apply token_dec]|]); constructor]). (* Replace2Expr *)
    unfold line_entries. change (label_name (bs "repace2")) with (@None str). change (seqb (bs "repace2") (bs "#pragma")) with false.
    replace (ops_get (bs "repace2")) with (@None prog) by (vm_compute; reflexivity). discriminate.
  - rewrite (words_only [bs "gtxnas"; dec Field_; dec Index_] rest ps) by (first [exact L|repeat (constructor; [first [reflexivity|apply token_dec]|]); constructor]). (* GtxnasExpr *)
    rewrite (op_first _ _ _ opGtxnas) by (reflexivity || (vm_compute; reflexivity)). unfold opGtxnas. operands. intros [= E1 E2]. subst. rewrite N.eqb_refl in X. discriminate.
  - lost_field opItxnas.
  - lost_field opGitxnas.
  - destruct (begins_blank [bs "pushbytess"] (join (map dec Ints_) ++ c_lf :: rest) ps ltac:(repeat constructor) L) as [q [Q ->]]. (* PushIntsExpr *)
    cbn [app]. rewrite (op_first _ _ _ opPushBytess) by (reflexivity || (vm_compute; reflexivity)). unfold opPushBytess. cbn [assemble].
    destruct (all_bytes en _ _); cbn [obind assemble]; discriminate.
  - assert (L' : Lexes (join [bs "method"] ++ " "%char :: c_quote :: escape_quotes Signature_ ++ c_quote :: c_lf :: rest) ps). (* MethodExpr *)
    { revert L. cbn [app]. rewrite <- app_assoc. intros L. exact L. }
    destruct (begins_blank [bs "method"] _ ps ltac:(repeat constructor) L') as [q [Q ->]]. pose proof (twice_quoted _ _ _ Q) as H.
    cbn [app]. rewrite (op_first _ _ _ opMethod) by (reflexivity || (vm_compute; reflexivity)). unfold opMethod.
    destruct (line_texts q) as [|x r]; cbn [assemble]; [discriminate|]. cbn [operand operand_value]. destruct (quoted x); cbn [obind assemble fst snd]; [|discriminate].
    intros [= ->]. exact (H eq_refl).
  - inversion T; subst. apply (lost_label en v "addr" opAddr AddrExpr Address_ rest ps); try reflexivity; try assumption; try discriminate; try congruence.
    intros x r. unfold opAddr. cbn [assemble operand operand_value]. destruct (addr_ok en x); [right|left]; reflexivity.
  - destruct (first_bad _ _ X) as [w1 [w [w2 [-> [F1 F2]]]]].
    change (Lexes ((bs "pushbytess " ++ join (map (fun v => bs "b64 " ++ b64_encode v) (w1 ++ w :: w2))) ++ c_lf :: rest) ps) in L. rewrite pushbytess_split in L. rewrite <- app_assoc in L. rewrite <- app_comm_cons in L. (* PushBytessExpr *)
    destruct (fun F => begins_blank (bs "pushbytess" :: b64_words w1 ++ [bs "b64"]) ((b64_encode w ++ after w2) ++ c_lf :: rest) ps F L) as [q [Q ->]].
    { constructor; [reflexivity|]. apply Forall_app. split; [|repeat constructor]. clear - F1. induction w1 as [|x w1 IH]; [constructor|]. cbn [forallb] in F1.
      apply Bool.andb_true_iff in F1 as [A B]. constructor; [reflexivity|]. constructor; [apply word_token; exact A|exact (IH B)]. }
    cbn [app]. rewrite <- app_assoc. rewrite (op_fails _ _ _ opPushBytess); [discriminate|reflexivity|reflexivity|vm_compute; reflexivity|].
    unfold opPushBytess. cbn [assemble].
    pose proof (fun n => all_bytes_bad en w1 n (line_texts q) (bad_bytes _ _ _ _ F2 Q)) as Z.
    match goal with |- obind (all_bytes en ?n ?l) _ = None => replace (all_bytes en n l) with (@None (list str)) by (symmetry; exact (Z n)) end. reflexivity.
  - lost_field opAssetParamsGet.
  - lost_field opItxn.
  - lost_field opItxnField.
  - lost_field opGtxna.
  - lost_field opGtxnsa.
  - lost_field opTxnas.
  - lost_field opAppParamsGet.
  - lost_field opAcctParamsGet.
  - lost_field opBlock.
  - lost_field opVrfVerify.
  - lost_field opAssetHoldingGet.
  - lost_field opGitxn.
  - lost_field opGtxnsas.
  - lost_field opGitxna.
Qed.

(* ------------------------------------------------------------------------------------------ *)
(* whole listings *)
Definition version_at (v : N) (l : listing) : N := fold_left next_version l v.
Lemma first_exception en l : forall v, Forall (fun e => immediates_fit en e = true) l -> exceptions v l <> [] ->
  exists a e b, l = a ++ e :: b /\ all_survive en v a = true /\ exceptional (version_at v a) e = true.
Proof.
  induction l as [|e l IH]; intros v F X; [destruct (X eq_refl)|]. inversion F as [|? ? F1 F2]; subst. cbn [exceptions] in X.
  destruct (exceptional v e) eqn:E; [exists [], e, l; auto|]. cbn [app] in X. destruct (IH _ F2 X) as [a [e' [b [-> [A B]]]]].
  exists (e :: a), e', b. split; [reflexivity|]. split; [|exact B]. cbn [all_survive]. rewrite F1, E. exact A.
Qed.
Lemma survive_last en l : forall v raw, all_survive en v l = true -> Forall2 (fun x e => word_line x (words e)) raw l ->
  last_version v (map code_of raw) = version_at v l.
Proof.
  induction l as [|e l IH]; intros v raw H F; inversion F as [|x ? raw' ? W F']; subst; [reflexivity|].
  cbn [all_survive] in H. apply Bool.andb_true_iff in H as [H H3]. apply Bool.andb_true_iff in H as [H1 H2]. apply Bool.negb_true_iff in H2.
  cbn [map last_version version_at fold_left]. rewrite (word_line_code _ _ W). destruct (word_line_entries en v x (words e) W) as [_ ->].
  rewrite (read_back_version en v e H2 H1). exact (IH _ _ H3 F').
Qed.
Lemma print_app a b s : print_listing (a ++ b) = Ret s -> exists x y, print_listing a = Ret x /\ print_listing b = Ret y /\ s = x ++ y.
Proof.
  revert s. induction a as [|e a IH]; intros s P; [exists [], s; auto|]. cbn [app print_listing] in *.
  destruct (print e) as [t| |]; try discriminate. cbn [bindr] in *. destruct (print_listing (a ++ b)) as [u| |]; try discriminate.
  cbn [bindr] in P. injection P as <-. destruct (IH u eq_refl) as [x [y [-> [-> ->]]]]. exists (t ++ c_lf :: x), y. cbn [bindr].
  repeat split. rewrite <- app_assoc. reflexivity.
Qed.
Lemma text_ends ls : ends_line (text_pieces ls) /\ last (text_pieces ls) (PWord []) <> PEol [c_cr].
Proof.
  induction ls as [|[ws b] ls [IH1 IH2]]; [split; [left; reflexivity|discriminate]|]. cbn [text_pieces].
  set (h := word_pieces ws ++ (if b then [PBlank c_space] else [])). rewrite app_assoc. fold h.
  assert (E : exists k, h ++ PEol [c_lf] :: text_pieces ls = k ++ text_pieces ls /\ k = h ++ [PEol [c_lf]]) by (eexists; split; [|reflexivity]; rewrite <- app_assoc; reflexivity).
  destruct E as [k [-> K]]. destruct IH1 as [Z|[y [w Z]]].
  - rewrite Z, app_nil_r, K. split; [right; eauto|]. rewrite last_last. discriminate.
  - rewrite Z in *. rewrite app_assoc. split; [right; eauto|]. rewrite last_last in *. exact IH2.
Qed.

Theorem lost_round_trip en l r s : Forall (fun e => immediates_fit en e = true /\ built e = true) l -> Forall from_tokens l ->
  exceptions 1 l <> [] -> print_listing l = Ret s -> process en s = Ret r -> r_listing r <> l.
Proof.
  intros F T X P R. destruct (first_exception en l 1) as [a [e [b [El [A Xe]]]]]; [eapply Forall_impl; [|exact F]; cbn; tauto|exact X|]. subst l.
  intros H.
  apply Forall_app in F as [_ F]. inversion F as [|? ? [F1 F2] _]; subst. apply Forall_app in T as [_ T]. inversion T as [|? ? T1 _]; subst.
  destruct (print_app _ _ _ P) as [x [y [Px [Py ->]]]].
  pose proof (survive_forall en a 1 A) as Fa. destruct (print_listing_text a) as [ls [Pa M]]; [eapply Forall_impl; [|exact Fa]; cbn beta; tauto|].
  rewrite Pa in Px. injection Px as <-.
  assert (Fw : Forall (fun x => Forall (fun w => one_token w = true) (fst x)) ls).
  { apply Forall_forall. intros z I. apply (in_map fst) in I. rewrite M in I. apply in_map_iff in I as [e' [<- I]].
    rewrite Forall_forall in Fa. exact (proj2 (Fa e' I)). }
  pose proof (word_text_lexes ls Fw) as L. destruct (lexes_exists y) as [qs Lq].
  assert (J : Lexes (word_text ls ++ y) (text_pieces ls ++ qs)).
  { apply lexes_join; [exact L|apply text_ends|exact Lq|]. intros [N _]. exact (proj2 (text_ends ls) N). }
  destruct (process_raw en _ _ r J R) as [raw [Li Rl]].
  destruct (lines_parts 0 _ _ _ raw J (proj1 (text_ends ls)) Li) as [ra [rb [-> [La [Lb _]]]]].
  destruct (word_text_lines ls Fw 0) as [ra' [La' [F2' _]]]. rewrite (Lines_fun _ _ La _ La') in *. clear La ra.
  assert (F3 : Forall2 (fun x e => word_line x (words e)) ra' a).
  { clear - M F2'. revert a M. induction F2' as [|x [ws c] raw ls W F2 IH]; intros l M; destruct l as [|e l]; try discriminate; constructor.
    - cbn [map fst] in *. injection M as -> _. exact W.
    - apply IH. cbn [map] in M. congruence. }
  destruct (process_result en _ r R) as [ts' [errs' [raw' [lds [_ [_ [_ Ro]]]]]]].
  rewrite (ro_listing _ _ _ _ _ _ _ Ro), Rl, map_app, all_entries_app, (survive_entries en a 1 ra' A F3), (survive_last en a 1 ra' A F3) in H.
  apply app_inv_head in H. cbn [print_listing] in Py. destruct (print e) as [t| |] eqn:Pe; try discriminate. cbn [bindr] in Py.
  destruct (print_listing b) as [u| |]; try discriminate. cbn [bindr] in Py. injection Py as <-.
  apply (lost_line en (version_at 1 a) e t u qs F1 F2 T1 Xe Pe Lq).
  apply (first_of en (version_at 1 a) qs _ _ rb e Lb); [|intros ->; discriminate Xe].
  destruct rb as [|z rb]; [discriminate|]. cbn [map all_entries first_entry] in *.
  destruct (entries en (version_at 1 a) (code_of z)) as [|e' es] eqn:Ez; [|cbn [app] in H; injection H as -> _; reflexivity].
  exfalso. revert Ez. unfold entries. destruct (kind_of (code_of z)) as [| |n| |p args|]; try discriminate; [destruct n; discriminate|destruct (pragma_version args); discriminate|].
  destruct (assemble en (version_at 1 a) p args) as [[? [|? ?]]|]; discriminate.
Qed.
Print Assumptions lost_round_trip.
