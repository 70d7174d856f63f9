(* Lines of words: how the lexer and Process see a text that consists of words. *)
From Verif Require Import Base LexSpec Lexer LexerProofs LexerThms Expr Codec CodecProofs Print OpTable Process ProcessSpec ProcessDoc RoundTripSpec.
From Coq Require Import Lia.

Lemma delim_iff c : delim c = true <-> is_delim c.
Proof.
  unfold delim, is_delim, is_blank, is_eolc. rewrite !Bool.orb_true_iff, !Ascii.eqb_eq. tauto.
Qed.
Lemma not_delim c : negb (delim c) = true <-> ~ is_delim c.
Proof. rewrite Bool.negb_true_iff, <- delim_iff. destruct (delim c); split; congruence. Qed.

Lemma word_lexes w r ps : is_word w = true -> ends_before is_delim r -> Lexes r ps -> Lexes (w ++ r) (PWord w :: ps).
Proof.
  intros W E L. destruct w as [|c w]; [discriminate|]. unfold is_word in W.
  apply Bool.andb_true_iff in W as [W S]. apply Bool.andb_true_iff in W as [F Q].
  apply Bool.negb_true_iff in Q, S. cbn [app]. constructor; [| | |exact E|exact L].
  - intros ->. rewrite Ascii.eqb_refl in Q. discriminate.
  - intros w' H. injection H as -> ->. rewrite !Ascii.eqb_refl in S. discriminate.
  - rewrite forallb_forall in F. apply Forall_forall. intros x I. apply not_delim. exact (F x I).
Qed.

Lemma string_parts w : is_string w = true -> exists m, w = c_quote :: m ++ [c_quote] /\ ~ In c_quote m /\ ~ last_is c_bslash m.
Proof.
  unfold is_string. destruct w as [|c r]; [discriminate|]. destruct (rev r) as [|d m] eqn:R; [rewrite Bool.andb_false_r; discriminate|].
  intros H. apply Bool.andb_true_iff in H as [C H]. apply Bool.andb_true_iff in H as [H L]. apply Bool.andb_true_iff in H as [D N].
  apply Ascii.eqb_eq in C, D. subst c d. apply (f_equal (@rev ascii)) in R. rewrite rev_involutive in R. cbn [rev] in R. subst r.
  exists (rev m). split; [reflexivity|]. split.
  - intros I. apply in_rev in I. apply Bool.negb_true_iff in N. assert (X : existsb (fun x => Ascii.eqb x c_quote) m = true); [|congruence].
    apply existsb_exists. exists c_quote. split; [exact I|apply Ascii.eqb_refl].
  - intros [m' E]. apply (f_equal (@rev ascii)) in E. rewrite rev_involutive, rev_app_distr in E. cbn [rev app] in E. subst m.
    rewrite Ascii.eqb_refl in L. discriminate.
Qed.
Lemma unescape_plain m : ~ In c_quote m -> unescape_quotes m = m.
Proof.
  induction m as [|c m IH]; intros N; [reflexivity|]. destruct m as [|d m]; [reflexivity|]. rewrite unescape_cons2.
  destruct (byte d =? byte c_quote)%N eqn:D.
  - apply N.eqb_eq in D. destruct N. right. left. unfold byte in D. apply (f_equal ascii_of_N) in D. rewrite !ascii_N_embedding in D. exact D.
  - rewrite IH by (intros I; apply N; right; exact I). match goal with |- (if ?b then _ else _) = _ => destruct b eqn:B end; [|reflexivity].
    exfalso. revert B D. to_ascii. intros B D. rewrite D, Bool.andb_false_r in B. discriminate.
Qed.
Lemma no_quote_escaped m : ~ In c_quote m -> quotes_escaped m.
Proof. intros N i E. destruct N. exact (nth_error_In _ _ E). Qed.

(* the piece a token comes from *)
Definition inner (w : str) : str := match w with _ :: r => removelast r | [] => [] end.
Definition piece_of (w : str) : piece := if is_word w then PWord w else PString (inner w).
Lemma token_lexes w r ps : one_token w = true -> ends_before is_delim r -> Lexes r ps -> Lexes (w ++ r) (piece_of w :: ps).
Proof.
  unfold one_token, piece_of. intros W E L. destruct (is_word w) eqn:X; [exact (word_lexes w r ps X E L)|]. cbn [orb] in W.
  destruct (string_parts w W) as [m [-> [N B]]]. unfold inner. rewrite removelast_last. cbn [app]. rewrite <- app_assoc. cbn [app].
  constructor; [exact (no_quote_escaped m N)|exact B|exact L].
Qed.
Lemma token_layout w l c ps : one_token w = true ->
  layout l c (piece_of w :: ps) = (Token w l c (c + length w) TokValue :: fst (layout l (c + length w) ps), snd (layout l (c + length w) ps)).
Proof.
  unfold one_token, piece_of. intros W. destruct (is_word w) eqn:X; [reflexivity|]. cbn [orb] in W.
  destruct (string_parts w W) as [m [-> [N B]]]. unfold inner. rewrite removelast_last. cbn [layout piece_text].
  rewrite (unescape_plain m N). reflexivity.
Qed.

(* the pieces of a line of words *)
Fixpoint word_pieces (ws : list str) : list piece :=
  match ws with
  | [] => []
  | [w] => [piece_of w]
  | w :: r => piece_of w :: PBlank c_space :: word_pieces r
  end.

Lemma words_lex ws : forall r ps, Forall (fun w => one_token w = true) ws -> ends_before is_delim r -> Lexes r ps ->
  Lexes (join ws ++ r) (word_pieces ws ++ ps).
Proof.
  induction ws as [|w ws IH]; intros r ps F E L; [exact L|]. inversion F as [|? ? W Fw]; subst.
  destruct ws as [|w2 ws]; [exact (token_lexes w r ps W E L)|].
  cbn [join word_pieces app]. rewrite <- app_assoc. apply token_lexes; [exact W|left; left; reflexivity|].
  cbn [app]. constructor; [left; reflexivity|]. apply IH; assumption.
Qed.

(* the tokens of a line of words *)
Definition word_line (l : list token) (ws : list str) : Prop :=
  texts l = ws /\ Forall (fun t => tok_t t = TokValue) l.

Lemma word_line_cons t l w ws : tok_v t = w -> tok_t t = TokValue -> word_line l ws -> word_line (t :: l) (w :: ws).
Proof. intros E T [A B]. split; [unfold texts in *; cbn [map]; congruence|constructor; assumption]. Qed.

Lemma layout_words ws : forall l c ps, Forall (fun w => one_token w = true) ws -> exists ts c', word_line ts ws /\
  layout l c (word_pieces ws ++ ps) = (ts ++ fst (layout l c' ps), snd (layout l c' ps)).
Proof.
  induction ws as [|w ws IH]; intros l c ps F.
  - exists [], c. split; [split; [reflexivity|constructor]|]. cbn [app word_pieces]. apply surjective_pairing.
  - inversion F as [|? ? W Fw]; subst. destruct ws as [|w2 ws].
    + exists [Token w l c (c + length w) TokValue]. exists (c + length w).
      split; [apply word_line_cons; [reflexivity|reflexivity|split; [reflexivity|constructor]]|]. cbn [word_pieces app]. apply token_layout. exact W.
    + destruct (IH l (c + length w + 1) ps Fw) as [ts [c' [Wl E]]].
      exists (Token w l c (c + length w) TokValue :: ts), c'.
      split; [apply word_line_cons; [reflexivity|reflexivity|exact Wl]|].
      change (word_pieces (w :: w2 :: ws) ++ ps) with (piece_of w :: PBlank c_space :: (word_pieces (w2 :: ws) ++ ps)).
      rewrite token_layout by exact W. cbn [layout piece_text]. change (length [c_space]) with 1. rewrite E. reflexivity.
Qed.

Lemma word_line_no_eol l ws : word_line l ws -> existsb is_eol l = false.
Proof.
  intros [_ F]. induction F as [|t l T F IH]; [reflexivity|]. cbn [existsb]. rewrite IH. unfold is_eol. rewrite T. reflexivity.
Qed.
Lemma word_line_code l ws : word_line l ws -> code_of l = l.
Proof.
  intros [_ F]. destruct l as [|t l]; [reflexivity|]. cbn [code_of]. f_equal. inversion F as [|? ? _ F']; subst.
  clear - F'. induction F' as [|t l T F IH]; [reflexivity|]. cbn [until_comment]. unfold is_comment. rewrite T, IH. reflexivity.
Qed.

(* a text of lines of words, each closed by a line feed; a line may end in a blank *)
Fixpoint word_text (ls : list (list str * bool)) : str :=
  match ls with
  | [] => []
  | (ws, b) :: r => join ws ++ (if b then [c_space] else []) ++ c_lf :: word_text r
  end.
Fixpoint text_pieces (ls : list (list str * bool)) : list piece :=
  match ls with
  | [] => []
  | (ws, b) :: r => word_pieces ws ++ (if b then [PBlank c_space] else []) ++ PEol [c_lf] :: text_pieces r
  end.

Lemma word_text_lexes ls : Forall (fun x => Forall (fun w => one_token w = true) (fst x)) ls ->
  Lexes (word_text ls) (text_pieces ls).
Proof.
  induction ls as [|[ws b] ls IH]; intros F; [constructor|]. inversion F as [|? ? W Fw]; subst.
  cbn [word_text text_pieces]. apply words_lex; [exact W|destruct b; [left; left; reflexivity|right; left; reflexivity]|].
  destruct b; cbn [app]; [constructor; [left; reflexivity|]|]; constructor; exact (IH Fw).
Qed.

Lemma word_text_lines ls : Forall (fun x => Forall (fun w => one_token w = true) (fst x)) ls ->
  forall l, exists raw, Lines (fst (layout l 0 (text_pieces ls))) raw /\
  Forall2 (fun x y => word_line x (fst y)) raw ls /\ snd (layout l 0 (text_pieces ls)) = [].
Proof.
  induction ls as [|[ws b] ls IH]; intros F0 l.
  - exists []. repeat split; constructor.
  - inversion F0 as [|? ? W0 F1]; subst. destruct (IH F1 (S l)) as [raw [L [F E]]]. cbn [text_pieces].
    destruct (layout_words ws l 0 ((if b then [PBlank c_space] else []) ++ PEol [c_lf] :: text_pieces ls) W0) as [ts [c [W Ew]]].
    exists (ts :: raw). rewrite Ew. cbn [fst snd].
    assert (exists c', layout l c ((if b then [PBlank c_space] else []) ++ PEol [c_lf] :: text_pieces ls) =
      layout l c' (PEol [c_lf] :: text_pieces ls)) as [c' ->] by (destruct b; eexists; reflexivity).
    cbn [layout fst snd]. split; [|split; [constructor; [exact W|exact F]|exact E]].
    constructor; [exact (word_line_no_eol _ _ W)|reflexivity|exact L].
Qed.

Lemma app_eol_inj a b c d t u : existsb is_eol a = false -> existsb is_eol c = false -> is_eol t = true -> is_eol u = true ->
  a ++ t :: b = c ++ u :: d -> a = c /\ t = u /\ b = d.
Proof.
  revert c. induction a as [|x a IH]; intros c A C T U E; destruct c as [|y c]; cbn [app existsb] in *.
  - injection E as -> ->. auto.
  - injection E as -> _. rewrite T in C. discriminate.
  - injection E as -> _. rewrite U in A. discriminate.
  - injection E as -> E. apply Bool.orb_false_iff in A as [_ A]. apply Bool.orb_false_iff in C as [_ C].
    destruct (IH c A C T U E) as [-> [-> ->]]. auto.
Qed.
Lemma existsb_app_eol a t b : is_eol t = true -> existsb is_eol (a ++ t :: b) = true.
Proof. intros T. rewrite existsb_app. cbn [existsb]. rewrite T. destruct (existsb is_eol a); reflexivity. Qed.
Lemma Lines_fun ts r1 : Lines ts r1 -> forall r2, Lines ts r2 -> r1 = r2.
Proof.
  induction 1 as [|l Hl Nl|l t r ls Nl T L IH]; intros r2 L2.
  - inversion L2 as [|l H N|l t r ls N T L0]; subst; [reflexivity|congruence|]. destruct l; discriminate.
  - inversion L2 as [|l' H N|l' t r ls N T L0]; subst; [congruence|reflexivity|].
    rewrite existsb_app_eol in Nl by exact T. discriminate.
  - inversion L2 as [E|l' H N E|l' t' r' ls' N T' L0 E]; subst.
    + destruct l; discriminate.
    + rewrite existsb_app_eol in N by exact T. discriminate.
    + destruct (app_eol_inj _ _ _ _ _ _ N Nl T' T E) as [-> [-> ->]]. f_equal. exact (IH _ L0).
Qed.

(* ------------------------------------------------------------------------------------------ *)
(* what a line of words contributes *)
Definition line_entries (en : env) (v : N) (ws : list str) : list expr :=
  match ws with
  | [] => [EmptyExpr]
  | w :: args =>
      match label_name w with
      | Some n => match n with [] => [EmptyExpr] | _ => [LabelExpr n] end
      | None =>
          if seqb w (bs "#pragma") then
            match pragma_version args with Some v' => [PragmaExpr (v' mod 256)%N] | None => [EmptyExpr] end
          else
            match ops_get w with
            | Some p => match assemble en v p args with
                        | Some (e, []) => [e]
                        | Some (e, _ :: _) => [e; EmptyExpr]
                        | None => [EmptyExpr]
                        end
            | None => [EmptyExpr]
            end
      end
  end.
Definition line_version (v : N) (ws : list str) : N :=
  match ws with
  | [] => v
  | w :: args =>
      match label_name w with
      | Some _ => v
      | None => if seqb w (bs "#pragma") then match pragma_version args with Some v' => v' | None => v end else v
      end
  end.

Lemma word_line_entries en v l ws : word_line l ws ->
  entries en v l = line_entries en v ws /\ version_after v l = line_version v ws.
Proof.
  intros [E F]. destruct l as [|t l]; subst ws; [split; reflexivity|]. inversion F as [|? ? T _]; subst.
  unfold entries, version_after, line_entries, line_version, kind_of. cbn [texts map]. rewrite T.
  destruct (label_name (tok_v t)); [split; reflexivity|].
  destruct (seqb (tok_v t) (bs "#pragma")); [split; reflexivity|].
  destruct (ops_get (tok_v t)); split; reflexivity.
Qed.

(* a printed listing *)
Definition prints_as (e : expr) (x : list str * bool) : Prop :=
  fst x = words e /\ print e = Ret (join (fst x) ++ if snd x then [c_space] else []).

Lemma print_listing_text l : Forall (fun e => exists b, prints_as e (words e, b)) l ->
  exists ls, print_listing l = Ret (word_text ls) /\ map fst ls = map words l.
Proof.
  induction l as [|e l IH]; intros F; [exists []; split; reflexivity|].
  inversion F as [|? ? [b [_ P]] Fl]; subst. destruct (IH Fl) as [ls [E M]].
  exists ((words e, b) :: ls). cbn [print_listing fst snd] in *. rewrite P. cbn [bindr]. rewrite E. cbn [bindr].
  split; [|cbn [map fst]; congruence]. cbn [word_text]. rewrite <- app_assoc. reflexivity.
Qed.
