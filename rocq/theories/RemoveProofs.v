(* Applying edits that delete words: the pieces, tokens and lines of the new text. *)
From Verif Require Import Base LexSpec Lexer LexerProofs LexerThms LexStatements DocLines DocProofs DocTokens Expr Linter Codec OpTable Process ProcessSpec ProcessProofs ProcessLine ProcessDoc ProcessThms Semantics Query Lsp LspSpec LspProofs Edit RoundTripSpec RoundTripLex QueryProofs EditProofs RenameSpec RenameProofs FixLines FixProofs FixVersion FixCommands RemoveSpec.
From Coq Require Import Lia ZifyBool ZifyNat ZifyN Sorted.

(* ------------------------------------------------------------------------------------------ *)
(* A deletion covers a whole word exactly if one may put an empty string in its place. *)
Definition shadow (e : text_edit) : text_edit := TextEdit (te_range e) [c_quote; c_quote].
Lemma shadow_starts l c es : filter (starts_at l c) (map shadow es) = map shadow (filter (starts_at l c) es).
Proof. induction es as [|e es IH]; [reflexivity|]. cbn [map filter]. change (starts_at l c (shadow e)) with (starts_at l c e). destruct (starts_at l c e); cbn [map]; rewrite IH; reflexivity. Qed.
Lemma shadow_begins l c s es : filter (begins l c s) (map shadow es) = map shadow (filter (begins l c s) es).
Proof. induction es as [|e es IH]; [reflexivity|]. cbn [map filter]. change (begins l c s (shadow e)) with (begins l c s e). destruct (begins l c s e); cbn [map]; rewrite IH; reflexivity. Qed.
Lemma shadow_none l c es : filter (starts_at l c) (map shadow es) = [] -> filter (starts_at l c) es = [].
Proof. rewrite shadow_starts. destruct (filter _ es); [reflexivity|discriminate]. Qed.
Lemma shadow_nobegin l c s es : filter (begins l c s) (map shadow es) = [] -> filter (begins l c s) es = [].
Proof. rewrite shadow_begins. destruct (filter _ es); [reflexivity|discriminate]. Qed.
Lemma shadow_nodup es : NoDup (map e_start es) -> NoDup (map e_start (map shadow es)).
Proof. rewrite map_map. exact (fun H => H). Qed.

Lemma raw_ok_empty w : raw_ok ([c_quote; c_quote] ++ w) -> w = [].
Proof.
  intros [H|[v [E [Q _]]]].
  - unfold is_word in H. cbn [app] in H. rewrite Ascii.eqb_refl in H. rewrite andb_false_r in H. discriminate H.
  - cbn [app] in E. injection E as E. destruct v as [|x v]; [cbn in E; congruence|].
    cbn [app] in E. injection E as <- _. destruct (Q 0 eq_refl) as [j [J _]]. discriminate J.
Qed.

Fixpoint drop (es : list text_edit) (l c : nat) (ps : list piece) : list piece :=
  match ps with
  | [] => []
  | p :: r =>
      match p with
      | PEol w => p :: drop es (S l) 0 r
      | PWord w => match filter (starts_at l c) es with [] => [p] | _ => [] end ++ drop es l (c + length w) r
      | _ => p :: drop es l (c + length (piece_text p)) r
      end
  end.

Lemma drop_word es l c w ps : NoDup (map e_start es) -> Forall (fun e => te_text e = []) es -> w <> [] -> fits (map shadow es) l c (PWord w :: ps) ->
  filter (starts_at l c) es = [] \/
  exists e, filter (starts_at l c) es = [e] /\ te_text e = [] /\ r_el (te_range e) = Z.of_nat l /\ r_ec (te_range e) = Z.of_nat (c + length w).
Proof.
  intros N T W F. destruct (word_cases _ _ _ _ _ (shadow_nodup _ N) W F) as [E|[e' [I [E H]]]].
  - left. apply shadow_none. exact E.
  - right. rewrite shadow_starts in E. destruct (filter (starts_at l c) es) as [|e [|? ?]] eqn:Fe; try discriminate E.
    injection E as <-. exists e. split; [reflexivity|].
    assert (In e es /\ starts_at l c e = true) as [Ie Se] by (apply filter_In; rewrite Fe; left; reflexivity).
    rewrite Forall_forall in T. split; [exact (T e Ie)|]. destruct H as [_ [H2 [H3 [H4 H5]]]].
    apply raw_ok_empty in H5. apply starts_spec in Se. cbn [shadow te_range] in *. split; [exact H2|].
    assert (length (skipn (width (shadow e)) w) = 0) as K by (rewrite H5; reflexivity). rewrite skipn_length in K. unfold width in *. cbn [shadow te_range] in *. lia.
Qed.

Theorem edited_drop es s ps : Lexes s ps -> strings_on_one_line ps -> NoDup (map e_start es) -> Forall (fun e => te_text e = []) es ->
  forall l c, fits (map shadow es) l c ps -> edited es l c None s = texts_of (drop es l c ps).
Proof.
  intros L O N T. unfold texts_of. revert O. induction L as [|x r ps Hc L IH|r ps L IH|r ps L IH|r ps Hr L IH|w r ps Hw Hr L IH
                 |w r ps Hq Hl L IH|w Hq|x w r ps Hq Hs Hw Hr L IH]; intros O l c F;
    try (pose proof (one_line_tail _ _ O) as O'); cbn [drop map concat].
  - cbn [edited]. rewrite filter_none; [reflexivity|]. intros e I. unfold fits in F. rewrite Forall_forall in F.
    destruct (F (shadow e) (in_map _ _ _ I)) as [A|[]]. unfold begins, is_here, earlier in *. cbn [shadow te_range] in *. lia.
  - cbn [piece_text app length]. rewrite edited_plain.
    + rewrite <- Nat.add_1_r, (IH O' l (c + 1)); [|exact (fits_skip _ _ _ (PBlank x) _ I F)]. reflexivity.
    + destruct Hc as [-> | ->]; split; discriminate.
    + apply shadow_none, (skip_none _ _ _ (PBlank x) _ I F). cbn. lia.
  - cbn [piece_text app]. rewrite edited_lf; [|exact (shadow_nobegin _ _ _ _ (eol_none _ _ _ _ _ _ _ F))]. rewrite (IH O' (S l) 0); [reflexivity|exact (fits_eol _ _ _ _ _ F)].
  - cbn [piece_text app]. rewrite edited_crlf; [|exact (shadow_nobegin _ _ _ _ (eol_none _ _ _ _ _ _ _ F))]. rewrite (IH O' (S l) 0); [reflexivity|exact (fits_eol _ _ _ _ _ F)].
  - cbn [piece_text app]. rewrite edited_cr; [|exact (shadow_nobegin _ _ _ _ (eol_none _ _ _ _ _ _ _ F))|exact Hr]. rewrite (IH O' (S l) 0); [reflexivity|exact (fits_eol _ _ _ _ _ F)].
  - change (c_slash :: c_slash :: w ++ r) with ((piece_text (PComment w)) ++ r). rewrite walk_plain.
    + rewrite (IH O'); [reflexivity|]. exact (fits_skip _ _ _ (PComment w) _ I F).
    + cbn [piece_text]. repeat (apply Forall_cons; [split; discriminate|]). exact (noeol_plain _ Hw).
    + intros k K. exact (shadow_none _ _ _ (skip_none _ _ _ (PComment w) _ I F k K)).
  - replace (c_quote :: w ++ c_quote :: r) with (piece_text (PString w) ++ r)
      by (cbn [piece_text app]; rewrite <- app_assoc; reflexivity).
    rewrite walk_plain.
    + rewrite (IH O'); [reflexivity|]. exact (fits_skip _ _ _ (PString w) _ I F).
    + cbn [piece_text]. constructor; [split; discriminate|]. apply Forall_app. split; [apply one_line_plain; apply O; left; left; reflexivity|].
      repeat constructor; discriminate.
    + intros k K. exact (shadow_none _ _ _ (skip_none _ _ _ (PString w) _ I F k K)).
  - change (c_quote :: w) with (piece_text (POpen w)). rewrite <- (app_nil_r (piece_text (POpen w))) at 1. rewrite walk_plain.
    + pose proof (fits_skip _ _ _ (POpen w) _ I F) as F'. cbn [edited]. rewrite filter_none; [reflexivity|].
      intros e I. unfold fits in F'. rewrite Forall_forall in F'.
      destruct (F' (shadow e) (in_map _ _ _ I)) as [A|[]]. unfold begins, is_here, earlier in *. cbn [shadow te_range] in *. lia.
    + cbn [piece_text]. constructor; [split; discriminate|]. apply one_line_plain. apply O. right. left. reflexivity.
    + intros k K. exact (shadow_none _ _ _ (skip_none _ _ _ (POpen w) _ I F k K)).
  - assert (W : x :: w <> []) by discriminate. change (x :: w ++ r) with ((x :: w) ++ r).
    pose proof (word_plain _ _ Hw) as P. pose proof (fits_word _ _ _ _ _ F W) as F'. rewrite map_app, concat_app, <- (IH O' _ _ F').
    destruct (drop_word _ _ _ _ _ N T W F) as [E|[e [E [E1 [E2 E3]]]]]; rewrite E.
    + cbn [map concat piece_text]. rewrite app_nil_r. apply walk_plain; [exact P|]. intros k K. destruct (Nat.eq_dec k c) as [->|]; [exact E|].
      apply shadow_none. apply (word_later _ _ _ _ _ (shadow_nodup _ N) F). lia.
    + cbn [map concat app]. change (x :: w ++ r) with ((x :: w) ++ r). rewrite (walk_edit es l c e (x :: w)); [rewrite E1; reflexivity|exact P|exact E|exact E2|exact E3|exact W].
Qed.

(* ------------------------------------------------------------------------------------------ *)
(* the new text falls into the pieces that are left *)
Lemma drop_delim es s ps : Lexes s ps -> forall l c, ends_before is_delim s -> ends_before is_delim (texts_of (drop es l c ps)).
Proof.
  intros L l c E. destruct L; cbn [drop texts_of map concat]; try exact I; try exact E.
  match goal with F : Forall _ (_ :: _) |- _ => inversion F as [|? ? Nd _]; subst end. destruct (Nd E).
Qed.
Lemma drop_eolc es s ps : Lexes s ps -> forall l c, ends_before is_eolc s -> ends_before is_eolc (texts_of (drop es l c ps)).
Proof.
  intros L l c E. destruct L; cbn [drop texts_of map concat]; try exact I; try exact E.
  match goal with F : Forall _ (_ :: _) |- _ => inversion F as [|? ? Nd _]; subst end. destruct Nd. right. exact E.
Qed.

Theorem lexes_drop es s ps : Lexes s ps -> ~ In (PEol [c_cr]) ps -> forall l c, Lexes (texts_of (drop es l c ps)) (drop es l c ps).
Proof.
  intros L. induction L as [|x r ps Hc L IH|r ps L IH|r ps L IH|r ps Hr L IH|w r ps Hw Hr L IH
                 |w r ps Hq Hl L IH|w Hq|x w r ps Hq Hs Hw Hr L IH]; intros C l c;
    try (assert (C' : ~ In (PEol [c_cr]) ps) by (intros Q; apply C; right; exact Q); specialize (IH C')); cbn [drop].
  - constructor.
  - constructor; [exact Hc|apply IH].
  - constructor. apply IH.
  - constructor. apply IH.
  - destruct C. left. reflexivity.
  - cbn [texts_of map concat piece_text app]. constructor; [exact Hw|exact (drop_eolc _ _ _ L _ _ Hr)|apply IH].
  - cbn [texts_of map concat piece_text app]. rewrite <- app_assoc. cbn [app]. constructor; [exact Hq|exact Hl|apply IH].
  - cbn [texts_of map concat piece_text app]. rewrite app_nil_r. constructor. exact Hq.
  - destruct (filter (starts_at l c) es); [|apply IH]. cbn [app texts_of map concat piece_text]. constructor; [exact Hq|exact Hs|exact Hw|exact (drop_delim _ _ _ L _ _ Hr)|apply IH].
Qed.

(* ------------------------------------------------------------------------------------------ *)
(* the tokens that are left *)
Definition kept (es : list text_edit) (t : token) : bool := negb (existsb (starts_at (tok_l t) (tok_b t)) es).
Lemma kept_none es t : filter (starts_at (tok_l t) (tok_b t)) es = [] -> kept es t = true.
Proof.
  unfold kept. intros F. apply negb_true_iff. destruct (existsb _ es) eqn:E; [|reflexivity]. apply existsb_exists in E. destruct E as [e E].
  assert (In e (filter (starts_at (tok_l t) (tok_b t)) es)) as Q by (apply filter_In; exact E). rewrite F in Q. destruct Q.
Qed.
Lemma kept_some es t e r : filter (starts_at (tok_l t) (tok_b t)) es = e :: r -> kept es t = false.
Proof.
  unfold kept. intros F. apply negb_false_iff. apply existsb_exists. exists e.
  assert (In e (filter (starts_at (tok_l t) (tok_b t)) es)) as Q by (rewrite F; left; reflexivity). apply filter_In in Q. exact Q.
Qed.

Theorem layout_drop es s ps : Lexes s ps -> forall l c c', fits (map shadow es) l c ps ->
  Forall2 same_tok (filter (kept es) (fst (layout l c ps))) (fst (layout l c' (drop es l c ps))) /\
  Forall (fun t => is_eol t = true -> kept es t = true) (fst (layout l c ps)).
Proof.
  assert (El : forall l c w qs n, fits (map shadow es) l c (PEol w :: qs) -> kept es (Token w l c n TokEol) = true).
  { intros l c w qs n F. apply kept_none. cbn [tok_l tok_b]. apply filter_none. intros e I. apply starts_false.
    unfold fits in F. rewrite Forall_forall in F. destruct (F (shadow e) (in_map _ _ _ I)) as [A|A]; [unfold earlier in A; cbn [shadow te_range] in A; lia|].
    change (target (shadow e) (S l) 0 qs) in A; apply target_after in A; cbn [shadow te_range] in A; lia. }
  intros L. induction L as [|x r ps Hc L IH|r ps L IH|r ps L IH|r ps Hr L IH|w r ps Hw Hr L IH
                 |w r ps Hq Hl L IH|w Hq|x w r ps Hq Hs Hw Hr L IH]; intros l c c' F; cbn [drop].
  - split; constructor.
  - cbn [layout fst]. apply IH. exact (fits_skip _ _ _ (PBlank x) _ I F).
  - cbn [layout fst filter]. rewrite (El _ _ _ _ _ F). destruct (IH (S l) 0 0 (fits_eol _ _ _ _ _ F)) as [A B].
    split; [constructor; [split; reflexivity|exact A]|constructor; [intros _; exact (El _ _ _ _ _ F)|exact B]].
  - cbn [layout fst filter]. rewrite (El _ _ _ _ _ F). destruct (IH (S l) 0 0 (fits_eol _ _ _ _ _ F)) as [A B].
    split; [constructor; [split; reflexivity|exact A]|constructor; [intros _; exact (El _ _ _ _ _ F)|exact B]].
  - cbn [layout fst filter]. rewrite (El _ _ _ _ _ F). destruct (IH (S l) 0 0 (fits_eol _ _ _ _ _ F)) as [A B].
    split; [constructor; [split; reflexivity|exact A]|constructor; [intros _; exact (El _ _ _ _ _ F)|exact B]].
  - cbn [layout fst filter]. rewrite kept_none by (cbn [tok_l tok_b]; apply shadow_none, (skip_none _ _ _ (PComment w) _ I F); cbn; lia).
    destruct (IH l _ (c' + length (piece_text (PComment w))) (fits_skip _ _ _ (PComment w) _ I F)) as [A B].
    split; [constructor; [split; reflexivity|exact A]|constructor; [discriminate|exact B]].
  - cbn [layout fst filter]. rewrite kept_none by (cbn [tok_l tok_b]; apply shadow_none, (skip_none _ _ _ (PString w) _ I F); cbn; lia).
    destruct (IH l _ (c' + length (piece_text (PString w))) (fits_skip _ _ _ (PString w) _ I F)) as [A B].
    split; [constructor; [split; reflexivity|exact A]|constructor; [discriminate|exact B]].
  - split; constructor.
  - assert (W : x :: w <> []) by discriminate. pose proof (fits_word _ _ _ _ _ F W) as F'. cbn [layout fst filter].
    destruct (filter (starts_at l c) es) as [|e fe] eqn:E; cbn [app].
    + rewrite kept_none by exact E. cbn [layout fst]. destruct (IH l _ (c' + length (piece_text (PWord (x :: w)))) F') as [A B].
      split; [constructor; [split; reflexivity|exact A]|constructor; [discriminate|exact B]].
    + rewrite (kept_some es _ e fe) by exact E. destruct (IH l _ c' F') as [A B]. split; [exact A|constructor; [discriminate|exact B]].
Qed.

(* the lines that are left *)
Lemma Lines_filter (k : token -> bool) ts raw : Lines ts raw -> Forall (fun t => is_eol t = true -> k t = true) ts ->
  exists raw', Lines (filter k ts) raw' /\ (raw' = map (filter k) raw \/ raw' ++ [[]] = map (filter k) raw).
Proof.
  assert (X : forall l, existsb is_eol l = false -> existsb is_eol (filter k l) = false).
  { induction l as [|t l IH]; [reflexivity|]. cbn [existsb filter]. intros H. apply orb_false_iff in H. destruct H as [H1 H2].
    destruct (k t); [cbn [existsb]; rewrite H1; apply IH; exact H2|apply IH; exact H2]. }
  induction 1 as [|l N E|l t r ls E T L IH]; intros F.
  - exists []. split; [constructor|left; reflexivity].
  - cbn [map]. destruct (filter k l) as [|t w] eqn:Fl.
    + exists []. split; [constructor|right; reflexivity].
    + exists [t :: w]. split; [|left; reflexivity]. apply Lines_last; [discriminate|]. rewrite <- Fl. apply X. exact E.
  - apply Forall_app in F. destruct F as [F1 F2]. inversion F2 as [|? ? Ft Fr]; subst. destruct (IH Fr) as [raw' [A B]].
    exists (filter k l :: raw'). rewrite filter_app. cbn [filter map]. rewrite (Ft T). split; [constructor; [apply X; exact E|exact T|exact A]|].
    destruct B as [-> | <-]; [left|right]; reflexivity.
Qed.

(* ------------------------------------------------------------------------------------------ *)
(* the edits of the command *)
Definition remove_label (r : presult) (name : str) : list text_edit := map (fun y => TextEdit (sym_range y) []) (sym_by_name r name).

Lemma remove_edits en src r name : process en src = Ret r ->
  remove_label r name = map delete_token (flat_map (def_of name) (r_lines r)).
Proof.
  intros E. destruct (symbols_complete en src r E) as [S _]. unfold remove_label, sym_by_name.
  assert (G : forall ss ds, map (fun s => (sy_name s, sy_l s, sy_b s, sy_e s)) ss = map (fun d : token * str => (snd d, tok_l (fst d), tok_b (fst d), tok_e (fst d))) ds ->
    map (fun s => TextEdit (sym_range s) []) (filter (fun s => seqb (sy_name s) name) ss) =
    map delete_token (flat_map (fun d => if seqb (snd d) name then [fst d] else []) ds)).
  { induction ss as [|s ss IH]; intros [|d ds] Q; try discriminate Q; [reflexivity|]. cbn [map] in Q. injection Q as Q1 Q2 Q3 Q4 Q.
    cbn [filter flat_map]. rewrite <- Q1. destruct (seqb (sy_name s) name) eqn:N; cbn [map app]; rewrite (IH _ Q); [|reflexivity].
    f_equal. unfold sym_range, delete_token. rewrite Q2, Q3, Q4. reflexivity. }
  rewrite (G _ _ S). f_equal. unfold def_of. generalize (r_lines r). induction l as [|x l IH]; [reflexivity|].
  cbn [flat_map]. rewrite flat_map_app, IH. reflexivity.
Qed.
Lemma def_of_tokens name ls : name <> [] -> flat_map (def_of name) ls = label_tokens name ls.
Proof.
  intros N. unfold label_tokens. apply flat_map_ext. intros [|t w]; [reflexivity|].
  destruct (seqb (tok_v t) (name ++ bs ":") && negb (is_comment t)) eqn:E.
  - apply andb_prop in E. destruct E as [E C]. apply seqb_eq in E.
    assert (K : kind_of (t :: w) = LLabel name).
    { unfold kind_of, is_comment in *. rewrite E, label_name_of. destruct (tok_t t); try discriminate C; reflexivity. }
    unfold def_of, defines. rewrite K. destruct name as [|c m]; [congruence|]. cbn [flat_map snd fst app].
    rewrite (proj2 (seqb_eq (c :: m) (c :: m)) eq_refl). reflexivity.
  - destruct (def_of name (t :: w)) as [|u v] eqn:D; [reflexivity|]. exfalso.
    destruct (def_of_spec name (t :: w) u) as [x [X1 [X2 [X3 _]]]]; [rewrite D; left; reflexivity|]. injection X1 as -> _.
    rewrite X3, (proj2 (seqb_eq (name ++ bs ":") (name ++ bs ":")) eq_refl) in E. unfold is_comment in E. destruct (tok_t u); try discriminate E. congruence.
Qed.

Lemma assemble_labelled en v b p : labelled b p -> forall args e rest, assemble en v p args = Some (e, rest) -> label_def e = None.
Proof.
  induction p as [e0|n p IH|m n p IH|k n g IH|n g IH|n g IH|n g IH|n g IH]; cbn [labelled assemble]; intros P args e rest H; try tauto.
  - exact (IH P _ _ _ H).
  - exact (IH P _ _ _ H).
  - destruct P as [_ P]. destruct k; try (exfalso; exact P). destruct args as [|a args]; [discriminate H|].
    cbn [operand operand_value obind fst snd] in H. destruct (P a) as [x [Ex [_ D]]]. rewrite Ex in H. cbn [assemble] in H. injection H as <- _. exact D.
  - destruct P as [_ P]. destruct (P args) as [x [Ex [_ D]]]. rewrite Ex in H. cbn [assemble] in H. injection H as <- _. exact D.
Qed.
Lemma assemble_no_label en v n p args e rest : ops_get n = Some p -> assemble en v p args = Some (e, rest) -> label_def e = None.
Proof.
  intros G A. pose proof (ops_kind _ _ G) as K. destruct (one_of branch_names n); [exact (assemble_labelled _ _ _ _ K _ _ _ A)|].
  destruct (one_of table_names n); [exact (assemble_labelled _ _ _ _ K _ _ _ A)|]. exact (proj2 (assemble_plain _ _ _ K _ _ _ A)).
Qed.
Lemma kind_op t w p args : kind_of (t :: w) = LOp p args -> ops_get (tok_v t) = Some p.
Proof.
  unfold kind_of. destruct (tok_t t); try discriminate; destruct (label_name _); try discriminate; destruct (seqb _ _); try discriminate;
  destruct (ops_get _); congruence.
Qed.

Definition emptied (l : list token) : Prop := kind_of l = LBlank \/ exists w, kind_of l = LComment w.
Definition unlabelled (name : str) (l l' : list token) : Prop :=
  kind_of l <> LLabel name /\ kind_of l' = kind_of l /\ map tok_v (names_labels l') = map tok_v (names_labels l) /\ map snd (defines l') = map snd (defines l) \/
  kind_of l = LLabel name /\ emptied l'.

Lemma unlabel_other en v name l : kind_of l <> LLabel name -> map (unlabel name) (entries en v l) = entries en v l.
Proof.
  intros N. unfold entries. destruct l as [|t w]; [reflexivity|]. destruct (kind_of (t :: w)) as [| |[|c m]|args|p args|] eqn:K; try reflexivity.
  - cbn [map unlabel]. destruct (seqb (c :: m) name) eqn:E; [|reflexivity]. apply seqb_eq in E. congruence.
  - destruct (pragma_version args); reflexivity.
  - apply kind_op in K. destruct (assemble en v p args) as [[e [|x y]]|] eqn:A; try reflexivity; pose proof (assemble_no_label _ _ _ _ _ _ _ K A) as D;
      destruct e; try discriminate D; reflexivity.
Qed.

Lemma all_unlabelled en name ls ls' : name <> [] -> Forall2 (unlabelled name) ls ls' -> forall v,
  all_entries en v ls' = map (unlabel name) (all_entries en v ls) /\ all_surplus en v ls' = all_surplus en v ls /\
  map tok_v (flat_map names_labels ls') = map tok_v (flat_map names_labels ls) /\
  map snd (flat_map defines ls') = filter (fun n => negb (seqb n name)) (map snd (flat_map defines ls)).
Proof.
  intros Nn. induction 1 as [|l l' ls ls' H F IH]; intros v; [repeat split|].
  assert (G : version_after v l' = version_after v l /\ entries en v l' = map (unlabel name) (entries en v l) /\ surplus en v l' = surplus en v l /\
    map tok_v (names_labels l') = map tok_v (names_labels l) /\ map snd (defines l') = filter (fun n => negb (seqb n name)) (map snd (defines l))).
  { destruct H as [[N [K [R D]]]|[K E]].
    - unfold version_after, surplus. rewrite (unlabel_other en v name l N). unfold entries. rewrite K. repeat split; [exact R|]. rewrite D.
      unfold defines. destruct l as [|t w]; [reflexivity|]. destruct (kind_of (t :: w)) as [| |[|c m]| | |]; try reflexivity.
      cbn [map snd filter]. destruct (seqb (c :: m) name) eqn:Q; [apply seqb_eq in Q; congruence|reflexivity].
    - assert (W : map snd (defines l) = [name] /\ names_labels l = []).
      { unfold defines, names_labels. destruct l as [|t w]; [discriminate K|]. rewrite K. destruct name; [congruence|auto]. }
      destruct W as [W1 W2]. rewrite W1, W2. unfold version_after, entries, surplus. rewrite K. destruct name as [|c m]; [congruence|].
      assert (Q : seqb (c :: m) (c :: m) = true) by (apply seqb_eq; reflexivity). cbn [map unlabel filter]. rewrite Q. cbn [negb].
      destruct l' as [|t' w']; [repeat split|]. unfold names_labels, defines.
      destruct E as [E|[x E]]; rewrite E; repeat split. }
  destruct G as [G1 [G2 [G3 [G4 G5]]]]. destruct (IH (version_after v l)) as [A [B [C D]]].
  cbn [all_entries all_surplus flat_map]. rewrite G1, A, B, G2, G3, !map_app, C, D, G4, G5, filter_app. auto.
Qed.

Lemma filter_all {A} (f : A -> bool) l : (forall x, In x l -> f x = true) -> filter f l = l.
Proof. induction l as [|x l IH]; intros H; [reflexivity|]. cbn. rewrite (H x (or_introl eq_refl)). f_equal. apply IH. intros y I. apply H. right. exact I. Qed.
Lemma lines_good_nth ls : forall i k l, lines_good i ls -> nth_error ls k = Some l -> line_good (i + k) 0 l.
Proof.
  induction ls as [|x ls IH]; intros i [|k] l G N; try discriminate N; destruct G as [G1 G2].
  - cbn in N. injection N as <-. rewrite Nat.add_0_r. exact G1.
  - cbn in N. rewrite <- Nat.add_succ_comm. apply IH; assumption.
Qed.

Section remove.
Variable en : env.
Variable src : str.
Variable r : presult.
Variable ps : list piece.
Variable name : str.
Hypothesis HP : process en src = Ret r.
Hypothesis HL : Lexes src ps.
Hypothesis HO : strings_on_one_line ps.
Hypothesis HC : ~ In (PEol [c_cr]) ps.
Hypothesis HS : filter is_surplus_diag (r_diag r) = [].
Hypothesis HN : name <> [].
Hypothesis HA : stands_alone name (r_lines r).
Let es := remove_label r name.
Let defs := flat_map (def_of name) (r_lines r).

Lemma rm_es : es = map delete_token defs.
Proof. exact (remove_edits en src r name HP). Qed.
Lemma rm_tokens : fst (layout 0 0 ps) = r_tokens r.
Proof.
  destruct (process_result en src r HP) as [ts [errs [raw [lds [T [_ [_ R]]]]]]]. rewrite (tokenize_spec _ _ HL) in T. injection T as T.
  rewrite T, (ro_tokens _ _ _ _ _ _ _ R). reflexivity.
Qed.
Lemma rm_fits : fits (map shadow es) 0 0 ps.
Proof.
  unfold fits. rewrite rm_es, map_map. apply Forall_map, Forall_forall. intros t It. right. apply (target_token _ src ps HL 0 0). rewrite rm_tokens.
  destruct (def_fact en src r HP name t It) as [A [B [C [D [_ E]]]]]. destruct (lines_tokens _ _ _ HP) as [Inc Fa].
  exists t. split; [apply Inc; exact A|]. split; [exact B|]. split; [exact C|].
  pose proof (fact_of en src r HP t A) as [W _].
  unfold starts_at, width. cbn [shadow delete_token te_range te_text r_sl r_sc r_el r_ec].
  replace (Z.to_nat (Z.of_nat (tok_e t) - Z.of_nat (tok_b t))) with (length (tok_v t)) by lia.
  split; [lia|]. split; [reflexivity|]. split; [lia|]. split; [lia|]. rewrite skipn_all. right. exists []. split; [reflexivity|].
  split; [intros i H; destruct i; discriminate H|]. split; [intros [x H]; destruct x; discriminate H|]. split; intros [].
Qed.
Lemma rm_order : StronglySorted before defs.
Proof.
  unfold defs. destruct (lines_of_result _ _ _ HP) as [At _ _ _]. revert At. generalize 0. generalize (r_lines r).
  induction l as [|x l IH]; intros i At; [constructor|]. cbn [flat_map lines_at] in *. destruct At as [[A1 _] A2].
  apply SSorted_app; [|eapply IH; exact A2|].
  - unfold def_of, defines. destruct x as [|u w]; [constructor|]. destruct (kind_of (u :: w)) as [| |[|c m]| | |]; try constructor.
    cbn [flat_map fst snd app]. destruct (seqb _ _); repeat constructor.
  - intros a b Ia Ib. left. apply in_flat_map in Ib. destruct Ib as [m [Im Ib]]. destruct (lines_at_ge _ _ _ A2 Im) as [k [K1 [K2 _]]].
    destruct (def_of_spec _ _ _ Ia) as [wa [-> _]]. destruct (def_of_spec _ _ _ Ib) as [wb [-> _]].
    rewrite Forall_forall in *. rewrite (A1 a (or_introl eq_refl)), (K2 b (or_introl eq_refl)). lia.
Qed.
Lemma rm_nodup : NoDup (map e_start es).
Proof. rewrite rm_es, map_map. exact (starts_nodup (bs "x") eq_refl defs rm_order). Qed.
Lemma rm_empty : Forall (fun e => te_text e = []) es.
Proof. rewrite rm_es. apply Forall_map, Forall_forall. reflexivity. Qed.

Lemma hit_spec t : kept es t = false -> exists d l, In l (r_lines r) /\ In d (def_of name l) /\ tok_l d = tok_l t /\ tok_b d = tok_b t.
Proof.
  unfold kept. intros H. apply negb_false_iff in H. apply existsb_exists in H. destruct H as [e [Ie S]]. rewrite rm_es in Ie.
  apply in_map_iff in Ie. destruct Ie as [d [<- Id]]. destruct (def_in r name d Id) as [l [Il Idl]]. exists d, l. apply starts_spec in S.
  cbn [delete_token te_range r_sl r_sc] in S. repeat split; try assumption; lia.
Qed.

Lemma line_unlabelled raw k w : Lines (r_tokens r) raw -> r_lines r = map code_of raw -> nth_error raw k = Some w ->
  unlabelled name (code_of w) (code_of (filter (kept es) w)).
Proof.
  intros Li R N.
  assert (G : line_good k 0 w).
  { rewrite <- rm_tokens in Li. exact (lines_good_nth raw 0 k w (good_lines _ _ Li 0 (good_layout _ _ HL 0 0)) N). }
  destruct (good_at _ _ _ G) as [G1 G2].
  assert (Fw : Forall tok_fact w).
  { destruct (lines_tokens _ _ _ HP) as [_ Fa]. rewrite Forall_forall in *. intros t It. apply Fa. apply (lines_incl _ _ Li). apply in_concat. exists w.
    split; [exact (nth_error_In _ _ N)|exact It]. }
  pose proof (before_line _ _ _ G1 G2 Fw) as S. rewrite Forall_forall in G1.
  assert (Nc : nth_error (r_lines r) k = Some (code_of w)) by (rewrite R; apply map_nth_error; exact N).
  assert (H : forall t, In t w -> kept es t = false -> exists d v, w = d :: v /\ In d (def_of name (code_of w)) /\ tok_b d = tok_b t).
  { intros t It Kt. destruct (hit_spec t Kt) as [d [l [Il [Id [D1 D2]]]]]. destruct (def_of_spec _ _ _ Id) as [v [-> _]].
    apply In_nth_error in Il. destruct Il as [j Nj]. pose proof (line_index en src r HP j _ Nj d (or_introl eq_refl)) as J.
    rewrite D1, (G1 t It) in J. subst j. rewrite Nc in Nj. injection Nj as Nj. destruct w as [|x w]; [destruct It|]. cbn [code_of] in Nj. injection Nj as -> Ev.
    exists d, w. split; [reflexivity|]. split; [|exact D2]. cbn [code_of]. rewrite Ev. exact Id. }
  destruct w as [|t w]; [left; repeat split; discriminate|].
  destruct (kept es t) eqn:Kt.
  - (* the line defines another label, or none *)
    assert (Al : filter (kept es) (t :: w) = t :: w).
    { apply filter_all. intros u Iu. destruct (kept es u) eqn:Ku; [reflexivity|]. exfalso.
      destruct (H u Iu Ku) as [d [v [E [_ B]]]]. injection E as <- <-. destruct Iu as [<-|Iu]; [congruence|].
      inversion S as [|? ? _ Sf]; subst. rewrite Forall_forall in Sf. specialize (Sf u Iu). pose proof (G1 t (or_introl eq_refl)). pose proof (G1 u (or_intror Iu)). unfold before in Sf. lia. }
    rewrite Al. left. split; [|auto]. intros K.
    assert (kept es t = false); [|congruence]. unfold kept. apply negb_false_iff, existsb_exists. exists (delete_token t). split.
    + rewrite rm_es. apply in_map. unfold defs. apply in_flat_map. exists (code_of (t :: w)). split; [exact (nth_error_In _ _ Nc)|].
      unfold def_of, defines. cbn [code_of] in *. rewrite K. destruct name as [|c m]; [congruence|]. cbn [flat_map fst snd app].
      rewrite (proj2 (seqb_eq (c :: m) (c :: m)) eq_refl). left. reflexivity.
    + unfold starts_at. cbn [delete_token te_range r_sl r_sc]. lia.
  - right. destruct (H t (or_introl eq_refl) Kt) as [d [v [E [Id _]]]]. injection E as <- <-.
    destruct (def_of_spec _ _ _ Id) as [_ [_ [_ [_ [_ K]]]]]. split; [exact K|].
    assert (Al : filter (kept es) (t :: w) = w).
    { cbn [filter]. rewrite Kt. apply filter_all. intros u Iu. destruct (kept es u) eqn:Ku; [reflexivity|]. exfalso.
      destruct (H u (or_intror Iu) Ku) as [d [v [E [_ B]]]]. injection E as <- <-.
      inversion S as [|? ? _ Sf]; subst. rewrite Forall_forall in Sf. specialize (Sf u Iu). pose proof (G1 t (or_introl eq_refl)). pose proof (G1 u (or_intror Iu)). unfold before in Sf. lia. }
    rewrite Al. pose proof (HA _ (nth_error_In _ _ Nc) K) as L1. destruct w as [|u w]; [left; reflexivity|].
    cbn [code_of until_comment] in L1. unfold emptied, code_of. destruct (is_comment u) eqn:Cu; [|discriminate L1].
    right. exists (tok_v u). unfold is_comment in Cu. unfold kind_of. destruct (tok_t u); try discriminate Cu. reflexivity.
Qed.

Lemma lines_unlabelled raw : Lines (r_tokens r) raw -> r_lines r = map code_of raw ->
  Forall2 (unlabelled name) (r_lines r) (map code_of (map (filter (kept es)) raw)).
Proof.
  intros Li R. rewrite R. assert (G : forall k w, nth_error raw k = Some w -> unlabelled name (code_of w) (code_of (filter (kept es) w))) by (intros k w; apply line_unlabelled; assumption).
  clear - G. induction raw as [|w raw IH]; [constructor|]. cbn [map]. constructor; [exact (G 0 w eq_refl)|]. apply IH. intros k. exact (G (S k)).
Qed.

Theorem remove_label_result : exists r', process en (apply_edits es src) = Ret r' /\
  (r_listing r' = map (unlabel name) (r_listing r) \/ r_listing r' ++ [EmptyExpr] = map (unlabel name) (r_listing r)) /\
  map sy_name (r_syms r') = filter (fun n => negb (seqb n name)) (map sy_name (r_syms r)) /\
  map tok_v (r_refs r') = map tok_v (r_refs r).
Proof.
  destruct (process_raw en src ps r HL HP) as [raw [Li R]]. rewrite rm_tokens in Li.
  pose proof (lines_unlabelled raw Li R) as U.
  pose proof (lexes_drop es src ps HL HC 0 0) as LD. destruct (layout_drop es src ps HL 0 0 0 rm_fits) as [FT FE]. rewrite rm_tokens in FT, FE.
  destruct (Lines_filter (kept es) _ raw Li FE) as [raw1 [L1 C1]].
  destruct (Lines_exists (fst (layout 0 0 (drop es 0 0 ps)))) as [raw2 L2].
  pose proof (same_raw _ _ _ _ L1 L2 FT) as SR.
  assert (Ed : apply_edits es src = texts_of (drop es 0 0 ps)) by (exact (edited_drop es src ps HL HO rm_nodup rm_empty 0 0 rm_fits)).
  destruct (all_unlabelled en name _ _ HN U 1) as [A [B [C D]]].
  assert (S0 : all_surplus en 1 (r_lines r) = 0) by (destruct (result_surplus _ _ _ HP) as [Q _]; rewrite HS in Q; cbn in Q; lia).
  assert (Cut : map code_of raw1 = map code_of (map (filter (kept es)) raw) \/ map code_of raw1 ++ [[]] = map code_of (map (filter (kept es)) raw)).
  { destruct C1 as [-> |C1]; [left; reflexivity|right]. rewrite <- C1, map_app. reflexivity. }
  assert (S1 : all_surplus en 1 (map code_of raw1) = 0).
  { rewrite <- B in S0. destruct Cut as [-> |Cut]; [exact S0|]. rewrite <- Cut, all_surplus_app in S0. lia. }
  rewrite Ed. destruct (layout 0 0 (drop es 0 0 ps)) as [ts errs] eqn:Y.
  destruct (process_returns en (texts_of (drop es 0 0 ps)) ts errs raw2) as [r' P'].
  { rewrite (tokenize_spec _ _ LD), Y. reflexivity. }
  { exact L2. }
  { rewrite <- (same_surplus _ _ _ SR). exact S1. }
  exists r'. split; [exact P'|].
  destruct (process_raw en _ _ r' LD P') as [raw3 [L3 R3]]. rewrite Y in L3. cbn [fst] in L2, L3. rewrite <- (Lines_fun _ _ L2 _ L3) in R3.
  destruct (process_result en src r HP) as [? [? [? [? [_ [_ [_ Q]]]]]]]. destruct (process_result en _ r' P') as [? [? [? [? [_ [_ [_ Q']]]]]]].
  assert (Names : map tok_v (flat_map names_labels (map code_of raw2)) = map tok_v (flat_map names_labels (map code_of raw1)) /\
     map snd (flat_map defines (map code_of raw2)) = map snd (flat_map defines (map code_of raw1))).
  { clear - SR. induction SR as [|l l' ls ls' H F IH]; [auto|]. cbn [flat_map]. rewrite !map_app. destruct IH as [-> ->].
    destruct (FixProofs.same_names _ _ H) as [E1 E2]. unfold texts in E1. rewrite E1, E2. auto. }
  destruct Names as [N1 N2].
  assert (Sy : forall src r, process en src = Ret r -> map sy_name (r_syms r) = map snd (flat_map defines (r_lines r)) /\ map tok_v (r_refs r) = map tok_v (flat_map names_labels (r_lines r))).
  { intros s r0 E. destruct (symbols_complete en s r0 E) as [S [S' _]]. rewrite S'. split; [|reflexivity].
    transitivity (map (fun q => fst (fst (fst q))) (map (fun s => (sy_name s, sy_l s, sy_b s, sy_e s)) (r_syms r0))); [rewrite map_map; reflexivity|].
    rewrite S, map_map. reflexivity. }
  destruct (Sy _ _ HP) as [Sy1 Sy2]. destruct (Sy _ _ P') as [Sy3 Sy4].
  rewrite (ro_listing _ _ _ _ _ _ _ Q), (ro_listing _ _ _ _ _ _ _ Q'), Sy1, Sy2, Sy3, Sy4, R3, N1, N2, <- A, <- C, <- D.
  rewrite <- (proj1 (same_all_entries en _ _ SR 1)).
  destruct Cut as [Cut|Cut]; rewrite <- Cut.
  - auto.
  - rewrite all_entries_app, !flat_map_app, !map_app. cbn [flat_map map names_labels defines app]. rewrite !app_nil_r. auto.
Qed.
End remove.

Theorem label_remove_sent en es s out uri t r name : run en start es = Ret (s, out) -> s_exit s = false -> s_shutdown s = false ->
  latest uri es = Some t -> process (l_env en) t = Ret r -> sent en s (LabelRemove (Some [(uri, name)])) uri (remove_label r name).
Proof.
  intros A B C D E. apply (send_by en es s out uri t A B C D); [reflexivity|]. intros id. cbn [execute one_arg].
  destruct (results_opened en s uri t r E) as [s' [-> Q]]. cbn [bindr]. unfold send_edit. cbn [written bindr snd]. rewrite Q. reflexivity.
Qed.
