(* Documents cut at line ends: pieces, tokens and lines of the parts, and edits of whole lines. *)
From Verif Require Import Base LexSpec Lexer LexerProofs LexerThms DocLines DocProofs Expr Codec OpTable Process ProcessSpec ProcessDoc ProcessThms Semantics Query Lsp Edit RoundTripSpec RoundTripLex QueryProofs EditProofs.
From Coq Require Import Lia ZifyBool ZifyNat ZifyN.

(* ------------------------------------------------------------------------------------------ *)
(* cutting and joining texts *)
Lemma texts_app a b : texts_of (a ++ b) = texts_of a ++ texts_of b.
Proof. unfold texts_of. rewrite map_app. apply concat_app. Qed.

Lemma lexes_nonempty s p ps : Lexes s (p :: ps) -> exists c w, piece_text p = c :: w.
Proof. inversion 1; subst; cbn [piece_text]; eauto. Qed.

Lemma ends_prefix P s a b : Lexes s (a ++ b) -> ends_before P s -> ends_before P (texts_of a).
Proof.
  intros L H. destruct a as [|p a]; [exact I|]. destruct (lexes_nonempty _ _ _ L) as [c [w E]].
  rewrite <- (lexes_text _ _ L) in H. unfold texts_of. cbn [app map concat] in *. rewrite E in *. exact H.
Qed.

Lemma lexes_split a : forall s b, Lexes s (a ++ b) -> s = texts_of a ++ texts_of b /\ Lexes (texts_of a) a /\ Lexes (texts_of b) b.
Proof.
  induction a as [|p a IH]; intros s b L.
  - cbn [app] in *. unfold texts_of at 1 3. cbn. pose proof (lexes_text _ _ L) as E. fold (texts_of b) in E. rewrite E.
    split; [reflexivity|]. split; [constructor|exact L].
  - cbn [app] in L. unfold texts_of at 1 3. cbn [map concat]. fold (texts_of a).
    inversion L as [|c r ps B L'|r ps L'|r ps L'|r ps E L'|w r ps F E L'|w r ps F E L'|w F|c w r ps N C F E L']; subst; cbn [piece_text app].
    all: try (destruct (IH _ _ L') as [-> [A Bb]]).
    + split; [reflexivity|]. split; [constructor; assumption|exact Bb].
    + split; [reflexivity|]. split; [constructor; assumption|exact Bb].
    + split; [reflexivity|]. split; [constructor; assumption|exact Bb].
    + split; [reflexivity|]. split; [constructor; [exact (ends_prefix _ _ _ _ L' E)|assumption]|exact Bb].
    + split; [rewrite app_assoc; reflexivity|]. split; [constructor; [assumption|exact (ends_prefix _ _ _ _ L' E)|assumption]|exact Bb].
    + split; [rewrite <- !app_assoc; reflexivity|]. split; [rewrite <- app_assoc; cbn [app]; constructor; assumption|exact Bb].
    + match goal with E : [] = a ++ b |- _ => symmetry in E; apply app_eq_nil in E; destruct E as [-> ->] end. unfold texts_of. cbn. rewrite !app_nil_r.
      split; [reflexivity|]. split; [constructor; assumption|constructor].
    + split; [rewrite app_assoc; reflexivity|]. split; [constructor; try assumption; exact (ends_prefix _ _ _ _ L' E)|exact Bb].
Qed.

(* the pieces end with a line end, or there are none *)
Definition ends_line (a : list piece) : Prop := a = [] \/ exists b w, a = b ++ [PEol w].
Lemma ends_line_tail p a : ends_line (p :: a) -> a <> [] -> ends_line a.
Proof.
  intros [E|[b [w E]]] N; [discriminate|]. destruct b as [|x b]; cbn in E; injection E as -> E; [congruence|]. right. eauto.
Qed.
Lemma ends_line_eol p a : ends_line (p :: a) -> a = [] -> exists w, p = PEol w.
Proof. intros [E|[b [w E]]] ->; [discriminate|]. destruct b as [|x [|y b]]; cbn in E; try discriminate. injection E as ->. eauto. Qed.

Lemma ends_app P s a t : Lexes s a -> a <> [] -> ends_before P s -> ends_before P (s ++ t).
Proof. intros L N. inversion L; subst; try congruence; cbn; auto. Qed.

(* two texts with a line end between them *)
Lemma lexes_join s a : Lexes s a -> forall t b, ends_line a -> Lexes t b -> ~ (last a (PWord []) = PEol [c_cr] /\ ends_before (fun c => c = c_lf) t /\ t <> []) ->
  Lexes (s ++ t) (a ++ b).
Proof.
  assert (X : forall p (x : list piece), x <> [] -> last (p :: x) (PWord []) = last x (PWord [])) by (intros p [|q x] N; [congruence|reflexivity]).
  induction 1 as [|c r ps B L IH|r ps L IH|r ps L IH|r ps E L IH|w r ps F E L IH|w r ps F E L IH|w F|c w r ps N C F E L IH]; intros t b Z T Q.
  - exact T.
  - destruct ps as [|q ps]; [destruct (ends_line_eol _ _ Z eq_refl); discriminate|].
    cbn [app]. constructor; [assumption|]. apply IH; [eapply ends_line_tail; [exact Z|discriminate]|exact T|]. rewrite (X _ (q :: ps)) in Q by discriminate. exact Q.
  - destruct ps as [|q ps].
    + inversion L; subst. cbn [app]. constructor. exact T.
    + cbn [app]. constructor. apply IH; [eapply ends_line_tail; [exact Z|discriminate]|exact T|]. rewrite (X _ (q :: ps)) in Q by discriminate. exact Q.
  - destruct ps as [|q ps].
    + inversion L; subst. cbn [app]. constructor. exact T.
    + cbn [app]. constructor. apply IH; [eapply ends_line_tail; [exact Z|discriminate]|exact T|]. rewrite (X _ (q :: ps)) in Q by discriminate. exact Q.
  - destruct ps as [|q ps].
    + inversion L; subst. cbn [app]. constructor; [|exact T]. destruct t as [|y t]; [exact I|]. cbn. intros ->. apply Q. repeat split; discriminate.
    + cbn [app]. constructor; [eapply ends_app; [exact L|discriminate|exact E]|]. apply IH; [eapply ends_line_tail; [exact Z|discriminate]|exact T|]. rewrite (X _ (q :: ps)) in Q by discriminate. exact Q.
  - destruct ps as [|q ps]; [destruct (ends_line_eol _ _ Z eq_refl); discriminate|].
    cbn [app]. rewrite <- app_assoc. constructor; [assumption|eapply ends_app; [exact L|discriminate|exact E]|]. apply IH; [eapply ends_line_tail; [exact Z|discriminate]|exact T|]. rewrite (X _ (q :: ps)) in Q by discriminate. exact Q.
  - destruct ps as [|q ps]; [destruct (ends_line_eol _ _ Z eq_refl); discriminate|].
    cbn [app]. rewrite <- app_assoc. cbn [app]. constructor; [assumption|assumption|]. apply IH; [eapply ends_line_tail; [exact Z|discriminate]|exact T|]. rewrite (X _ (q :: ps)) in Q by discriminate. exact Q.
  - destruct (ends_line_eol _ _ Z eq_refl); discriminate.
  - destruct ps as [|q ps]; [destruct (ends_line_eol _ _ Z eq_refl); discriminate|].
    cbn [app]. rewrite <- app_assoc. constructor; try assumption; [eapply ends_app; [exact L|discriminate|exact E]|]. apply IH; [eapply ends_line_tail; [exact Z|discriminate]|exact T|]. rewrite (X _ (q :: ps)) in Q by discriminate. exact Q.
Qed.

(* a text without an open string and a text that starts with a carriage return *)
Lemma lexes_join_cr s a : Lexes s a -> (forall w, ~ In (POpen w) a) -> forall t b, Lexes (c_cr :: t) b -> Lexes (s ++ c_cr :: t) (a ++ b).
Proof.
  assert (D : is_delim c_cr) by (right; right; reflexivity). assert (E' : is_eolc c_cr) by (right; reflexivity).
  assert (X : forall (P : ascii -> Prop) r t, P c_cr -> ends_before P r -> ends_before P (r ++ c_cr :: t)) by (intros P [|x r] t H1 H2; [exact H1|exact H2]).
  induction 1 as [|c r ps B L IH|r ps L IH|r ps L IH|r ps E L IH|w r ps F E L IH|w r ps F E L IH|w F|c w r ps N C F E L IH]; intros O t b T; cbn [app].
  - exact T.
  - constructor; [assumption|]. apply IH; [|exact T]. intros w I. apply (O w). right. exact I.
  - constructor. apply IH; [|exact T]. intros w I. apply (O w). right. exact I.
  - constructor. apply IH; [|exact T]. intros w I. apply (O w). right. exact I.
  - constructor; [apply X; [discriminate|exact E]|]. apply IH; [|exact T]. intros w I. apply (O w). right. exact I.
  - rewrite <- app_assoc. constructor; [assumption|apply X; assumption|]. apply IH; [|exact T]. intros w' I. apply (O w'). right. exact I.
  - rewrite <- app_assoc. cbn [app]. constructor; [assumption|assumption|]. apply IH; [|exact T]. intros w' I. apply (O w'). right. exact I.
  - exfalso. apply (O w). left. reflexivity.
  - rewrite <- app_assoc. constructor; try assumption; [apply X; assumption|]. apply IH; [|exact T]. intros w' I. apply (O w'). right. exact I.
Qed.

(* ------------------------------------------------------------------------------------------ *)
(* the tokens of the parts, up to their positions *)
Definition same_tok (t t' : token) : Prop := tok_t t = tok_t t' /\ tok_v t = tok_v t'.
Definition end_line (l : nat) (ps : list piece) : nat := l + length (filter is_peol ps).

Lemma layout_same ps : forall l c l' c', Forall2 same_tok (fst (layout l c ps)) (fst (layout l' c' ps)).
Proof.
  induction ps as [|p ps IH]; intros l c l' c'; [constructor|].
  destruct p; cbn [layout fst]; try apply IH; try (constructor; [split; reflexivity|apply IH]). constructor.
Qed.

Lemma layout_app a : (forall w, ~ In (POpen w) a) -> forall l c b,
  exists c', fst (layout l c (a ++ b)) = fst (layout l c a) ++ fst (layout (end_line l a) c' b) /\ (ends_line a -> a <> [] -> c' = 0) /\ (a = [] -> c' = c).
Proof.
  unfold end_line. induction a as [|p a IH]; intros O l c b.
  - exists c. cbn. rewrite Nat.add_0_r. split; [reflexivity|]. split; [congruence|reflexivity].
  - assert (O' : forall w, ~ In (POpen w) a) by (intros w I; apply (O w); right; exact I).
    cbn [app]. destruct p; cbn [layout filter is_peol length app fst].
    1: destruct (IH O' l (c + length (piece_text (PBlank c0))) b) as [c' [A [B C]]].
    2: destruct (IH O' (S l) 0 b) as [c' [A [B C]]].
    3: destruct (IH O' l (c + length (piece_text (PComment w))) b) as [c' [A [B C]]].
    4: destruct (IH O' l (c + length (piece_text (PString w))) b) as [c' [A [B C]]].
    5: destruct (IH O' l (c + length (piece_text (PWord w))) b) as [c' [A [B C]]].
    6: destruct (O w); left; reflexivity.
    all: exists c'; rewrite A; rewrite ?Nat.add_succ_r, ?Nat.add_succ_l; (split; [reflexivity|]); (split; [|discriminate]).
    all: intros E _; destruct (list_eq_dec (fun (x y : piece) => ltac:(repeat decide equality)) a []) as [->|N].
    all: try (apply B; [eapply ends_line_tail; [exact E|exact N]|exact N]).
    all: try (destruct (ends_line_eol _ _ E eq_refl); discriminate).
    apply C. reflexivity.
Qed.

Lemma Lines_app ts ra : Lines ts ra -> (ts = [] \/ exists u t, ts = u ++ [t] /\ is_eol t = true) ->
  forall us rb, Lines us rb -> Lines (ts ++ us) (ra ++ rb).
Proof.
  induction 1 as [|l N E|l t r ls E T L IH]; intros H us rb U.
  - exact U.
  - destruct H as [->|[u [t [-> T]]]]; [congruence|]. rewrite existsb_app in E. cbn in E. rewrite T in E. destruct (existsb is_eol u); discriminate.
  - cbn [app]. rewrite <- app_assoc. cbn [app]. constructor; [exact E|exact T|]. apply IH; [|exact U].
    destruct r as [|x r]; [left; reflexivity|]. right. destruct H as [H|[u [y [H Y]]]]; [destruct l; discriminate|].
    assert (R : x :: r = removelast (x :: r) ++ [last (x :: r) t]) by (apply app_removelast_last; discriminate).
    exists (removelast (x :: r)), (last (x :: r) t). split; [exact R|].
    assert (Q : l ++ t :: x :: r = (l ++ t :: removelast (x :: r)) ++ [last (x :: r) t]) by (rewrite <- app_assoc; cbn [app]; rewrite <- R; reflexivity).
    rewrite Q in H. apply app_inj_tail in H. destruct H as [_ ->]. exact Y.
Qed.

Lemma layout_ends a l c : (forall w, ~ In (POpen w) a) -> ends_line a -> fst (layout l c a) = [] \/ exists u t, fst (layout l c a) = u ++ [t] /\ is_eol t = true.
Proof.
  intros O [->|[b [w ->]]]; [left; reflexivity|]. right.
  destruct (layout_app b) with (l := l) (c := c) (b := [PEol w]) as [c' [A _]].
  { intros v I. apply (O v). apply in_or_app. left. exact I. }
  rewrite A. eexists _, _. split; [reflexivity|reflexivity].
Qed.

(* the lines of a text *)
Definition raw_lines (s : str) (raw : list (list token)) : Prop := exists ps l, Lexes s ps /\ Lines (fst (layout l 0 ps)) raw.

(* ------------------------------------------------------------------------------------------ *)
(* cutting after the k-th line end *)
Definition eols (ps : list piece) : nat := length (filter is_peol ps).
Lemma eols_app a b : eols (a ++ b) = eols a + eols b.
Proof. unfold eols. rewrite filter_app, app_length. reflexivity. Qed.

Lemma cut_exists ps : forall k, k <= eols ps -> exists a b, ps = a ++ b /\ ends_line a /\ eols a = k.
Proof.
  induction ps as [|p ps IH]; intros [|k] H.
  - exists [], []. repeat split. left. reflexivity.
  - cbn in H. lia.
  - exists [], (p :: ps). repeat split. left. reflexivity.
  - unfold eols in H. cbn [filter] in H. destruct (is_peol p) eqn:P.
    + destruct p; try discriminate P. cbn [length] in H. destruct (IH k) as [a [b [-> [E N]]]]; [unfold eols; lia|].
      exists (PEol w :: a), b. split; [reflexivity|]. split; [|unfold eols in *; cbn; lia].
      destruct E as [->|[x [v ->]]]; right; [exists [], w; reflexivity|exists (PEol w :: x), v; reflexivity].
    + destruct (IH (S k) H) as [a [b [-> [E N]]]]. exists (p :: a), b. split; [reflexivity|].
      split; [|unfold eols in *; cbn [filter]; rewrite P; exact N].
      destruct E as [->|[x [v ->]]]; [discriminate N|]. right. exists (p :: x), v. reflexivity.
Qed.

(* ------------------------------------------------------------------------------------------ *)
(* edits of whole lines *)
Lemma edited_past es : forall n s l c, length s <= n -> Forall (earlier l c) es -> edited es l c None s = s.
Proof.
  induction n as [|n IH]; intros s l c H F.
  - destruct s; [|cbn in H; lia]. cbn [edited]. rewrite filter_none; [reflexivity|]. intros e I.
    rewrite Forall_forall in F. specialize (F e I). unfold earlier in F. unfold begins, is_here. lia.
  - assert (N : filter (begins l c s) es = []).
    { apply filter_none. intros e I. rewrite Forall_forall in F. specialize (F e I). unfold earlier in F. unfold begins, is_here.
      destruct s; [lia|]. destruct (at_line_end _); lia. }
    destruct s as [|x r]; cbn [edited]; rewrite N; [reflexivity|]. cbn [find map concat app].
    assert (F1 : Forall (earlier (S l) 0) es) by (eapply Forall_impl; [|exact F]; cbn; intros e; apply earlier_line).
    assert (F2 : Forall (earlier l (S c)) es) by (eapply Forall_impl; [|exact F]; cbn; intros e; apply earlier_col; lia).
    cbn [length] in H. destruct (Ascii.eqb x c_lf); [rewrite IH by (assumption || lia); reflexivity|].
    destruct (Ascii.eqb x c_cr).
    + destruct r as [|y r']; [rewrite IH by (assumption || lia); reflexivity|].
      cbn [length] in H. destruct (Ascii.eqb y c_lf); rewrite IH by (assumption || cbn; lia); reflexivity.
    + rewrite IH by (assumption || lia). reflexivity.
Qed.

Definition later (l : nat) (e : text_edit) : Prop := (Z.of_nat l <= r_sl (te_range e))%Z.
Lemma later_none es l k s : Forall (later k) es -> l < k -> s <> [] -> forall c, filter (begins l c s) es = [].
Proof.
  intros F H N c. apply filter_none. intros e I. rewrite Forall_forall in F. specialize (F e I). unfold later in F.
  unfold begins, is_here. destruct s; [congruence|]. lia.
Qed.
Lemma later_starts es l k : Forall (later k) es -> l < k -> forall c, filter (starts_at l c) es = [].
Proof.
  intros F H c. apply filter_none. intros e I. rewrite Forall_forall in F. specialize (F e I). unfold later in F.
  unfold starts_at. lia.
Qed.

Lemma piece_plain s p ps : Lexes s (p :: ps) -> strings_on_one_line (p :: ps) -> is_peol p = false -> Forall plain_char (piece_text p).
Proof.
  intros L O P. assert (Q : plain_char c_quote) by (split; discriminate). assert (S1 : plain_char c_slash) by (split; discriminate).
  inversion L; subst; try discriminate P; cbn [piece_text].
  - constructor; [|constructor]. match goal with H : is_blank _ |- _ => destruct H as [->| ->] end; split; discriminate.
  - constructor; [exact S1|]. constructor; [exact S1|]. apply noeol_plain. assumption.
  - constructor; [exact Q|]. apply Forall_app. split; [|constructor; [exact Q|constructor]]. apply one_line_plain. apply O. left. left. reflexivity.
  - constructor; [exact Q|]. apply one_line_plain. apply O. right. left. reflexivity.
  - apply word_plain. assumption.
Qed.

(* before the lines of the edits nothing changes *)
Lemma walk_lines es a : forall s b l c, Lexes s (a ++ b) -> strings_on_one_line (a ++ b) -> ends_line a -> a <> [] ->
  Forall (later (l + eols a)) es -> edited es l c None s = texts_of a ++ edited es (l + eols a) 0 None (texts_of b).
Proof.
  induction a as [|p a IH]; intros s b l c L O E N F; [congruence|]. clear N.
  destruct (is_peol p) eqn:P.
  - destruct p; try discriminate P. unfold eols, texts_of in *. cbn [filter is_peol length map concat piece_text app] in *. fold (texts_of a) (eols a) in *.
    assert (H : l < l + S (eols a)) by lia.
    assert (X : forall r, Lexes r (a ++ b) -> edited es (S l) 0 None r = texts_of a ++ edited es (l + S (eols a)) 0 None (texts_of b)).
    { intros r L'. destruct a as [|q a].
      - cbn [app] in *. rewrite <- (lexes_text _ _ L'). cbn. rewrite Nat.add_1_r. reflexivity.
      - rewrite Nat.add_succ_r in *. rewrite <- Nat.add_succ_l. apply (IH r b (S l) 0 L'); [eapply one_line_tail; exact O|eapply ends_line_tail; [exact E|discriminate]|discriminate|exact F]. }
    inversion L as [| |r ps L'|r ps L'|r ps E' L'| | | |]; subst.
    + rewrite edited_lf by (apply (later_none _ _ _ _ F H); discriminate). rewrite (X _ L'). reflexivity.
    + rewrite edited_crlf by (apply (later_none _ _ _ _ F H); discriminate). rewrite (X _ L'). reflexivity.
    + rewrite edited_cr by (try assumption; apply (later_none _ _ _ _ F H); discriminate). rewrite (X _ L'). reflexivity.
  - assert (N : a <> []) by (intros ->; destruct (ends_line_eol _ _ E eq_refl) as [w ->]; discriminate P).
    pose proof (ends_line_tail _ _ E N) as Ea.
    assert (K : 0 < eols a). { destruct Ea as [->|[x [w ->]]]; [congruence|]. rewrite eols_app. cbn. lia. }
    destruct (lexes_split [p] _ _ L) as [-> [_ L']].
    assert (U : eols (p :: a) = eols a) by (unfold eols; cbn [filter]; rewrite P; reflexivity). rewrite U in *.
    assert (Tx : texts_of [p] = piece_text p) by (unfold texts_of; cbn; apply app_nil_r). rewrite Tx.
    rewrite walk_plain; [|exact (piece_plain _ _ _ L O P)|intros k _; apply (later_starts _ _ _ F); lia].
    rewrite (IH _ b l _ L' (one_line_tail _ _ O) Ea N F). change (texts_of (p :: a)) with (piece_text p ++ texts_of a). rewrite <- app_assoc. reflexivity.
Qed.

(* leaving out the lines up to the end of an edit *)
Lemma skip_step es l c e x r : (Z.of_nat l < r_el (te_range e))%Z -> x <> c_lf -> x <> c_cr ->
  edited es l c (Some e) (x :: r) = edited es l (S c) (Some e) r.
Proof.
  intros H A B. apply Ascii.eqb_neq in A, B. cbn [edited].
  assert (F : finished e l c (x :: r) = false) by (unfold finished, reached; lia). rewrite F, A, B. reflexivity.
Qed.
Lemma skip_plain es l e u : forall c r, (Z.of_nat l < r_el (te_range e))%Z -> Forall plain_char u ->
  edited es l c (Some e) (u ++ r) = edited es l (c + length u) (Some e) r.
Proof.
  induction u as [|x u IH]; intros c r H P; cbn [app length]; [rewrite Nat.add_0_r; reflexivity|].
  inversion P as [|? ? [A B] Pu]; subst. rewrite skip_step by assumption. rewrite IH by assumption. f_equal. lia.
Qed.

Lemma skip_lines es e q : forall s b l c, Lexes s (q ++ b) -> strings_on_one_line (q ++ b) -> r_ec (te_range e) = 0%Z ->
  q <> [] -> (ends_line q /\ r_el (te_range e) = Z.of_nat (l + eols q) \/ b = [] /\ (Z.of_nat (l + eols q) < r_el (te_range e))%Z) ->
  exists l' c', l <= l' /\ (l < l' \/ c < c') /\ edited es l c (Some e) s = edited es l' c' None (texts_of b).
Proof.
  induction q as [|p q IH]; intros s b l c L O Ec N H; [congruence|]. clear N.
  destruct (is_peol p) eqn:P.
  - destruct p; try discriminate P. unfold eols in H. cbn [filter is_peol length] in H. fold (eols q) in H.
    assert (X : forall r, Lexes r (q ++ b) -> exists l' c', l <= l' /\ (l < l' \/ c < c') /\ edited es (S l) 0 (Some e) r = edited es l' c' None (texts_of b)).
    { intros r L'. destruct q as [|y q].
      - cbn [app] in *. exists (S l), 0. split; [lia|]. split; [left; lia|]. rewrite <- (lexes_text _ _ L'). fold (texts_of b). apply edited_done. unfold finished, reached.
        destruct H as [[_ H]|[-> H]]; [|reflexivity]. destruct (texts_of b); [reflexivity|]. cbn [length eols filter] in H. destruct (at_line_end _); lia.
      - destruct (IH r b (S l) 0 L' (one_line_tail _ _ O) Ec) as [l' [c' [A [B C]]]]; [discriminate| |exists l', c'; split; [lia|split; [left; lia|exact C]]].
        destruct H as [[E H]|[-> H]]; [left; split; [eapply ends_line_tail; [exact E|discriminate]|lia]|right; split; [reflexivity|lia]]. }
    assert (G : (Z.of_nat l < r_el (te_range e))%Z) by (destruct H as [[_ H]|[_ H]]; lia).
    assert (F : forall x r, finished e l c (x :: r) = false) by (intros x r; unfold finished, reached; lia).
    inversion L as [| |r ps L'|r ps L'|r ps E' L'| | | |]; subst; cbn [edited]; rewrite F; cbn [map concat app].
    + change (Ascii.eqb c_lf c_lf) with true. cbn iota. apply X. exact L'.
    + change (Ascii.eqb c_cr c_lf) with false. change (Ascii.eqb c_cr c_cr) with true. change (Ascii.eqb c_lf c_lf) with true. cbn iota. apply X. exact L'.
    + change (Ascii.eqb c_cr c_lf) with false. change (Ascii.eqb c_cr c_cr) with true. cbn iota. destruct r as [|y r]; [apply X; exact L'|].
      change (y <> c_lf) in E'. apply Ascii.eqb_neq in E'. rewrite E'. apply X. exact L'.
  - destruct (lexes_split [p] _ _ L) as [-> [_ L']]. 
    assert (Tx : texts_of [p] = piece_text p) by (unfold texts_of; cbn; apply app_nil_r). rewrite Tx.
    assert (U : eols (p :: q) = eols q) by (unfold eols; cbn [filter]; rewrite P; reflexivity). rewrite U in H.
    assert (K : ends_line (p :: q) -> q <> [] /\ 0 < eols q).
    { intros E. assert (N : q <> []) by (intros ->; destruct (ends_line_eol _ _ E eq_refl) as [w ->]; discriminate P). split; [exact N|].
      destruct (ends_line_tail _ _ E N) as [->|[x [w ->]]]; [congruence|]. rewrite eols_app. cbn. lia. }
    rewrite skip_plain; [|destruct H as [[E H]|[_ H]]; [destruct (K E); lia|lia]|exact (piece_plain _ _ _ L O P)].
    assert (Lp : 0 < length (piece_text p)) by (destruct (lexes_nonempty _ _ _ L) as [x [w ->]]; cbn; lia).
    destruct q as [|y q].
    + destruct H as [[E H]|[-> H]]; [destruct (K E); congruence|]. cbn [app] in *. exists l, (c + length (piece_text p)).
      split; [lia|]. split; [right; lia|]. apply edited_done. reflexivity.
    + destruct (IH (texts_of ((y :: q) ++ b)) b l (c + length (piece_text p)) L' (one_line_tail _ _ O) Ec) as [l' [c' [A [B C]]]]; [discriminate| |exists l', c'; split; [lia|split; [lia|exact C]]].
      destruct H as [[E H]|[-> H]]; [left; split; [eapply ends_line_tail; [exact E|discriminate]|lia]|right; split; [reflexivity|lia]].
Qed.

(* replacing the lines of q *)
Theorem replace_lines e s a q b : Lexes s (a ++ q ++ b) -> strings_on_one_line (a ++ q ++ b) -> ends_line a ->
  r_sl (te_range e) = Z.of_nat (eols a) -> r_sc (te_range e) = 0%Z -> r_ec (te_range e) = 0%Z -> q <> [] ->
  (ends_line q /\ r_el (te_range e) = Z.of_nat (eols a + eols q) \/ b = [] /\ (Z.of_nat (eols a + eols q) < r_el (te_range e))%Z) ->
  apply_edits [e] s = texts_of a ++ te_text e ++ texts_of b.
Proof.
  intros L O E Sl Sc Ec N H.
  destruct (lexes_split a _ _ L) as [-> [La Lq]].
  assert (O' : strings_on_one_line (q ++ b)).
  { intros w [I|I]; apply O; [left|right]; apply in_or_app; right; exact I. }
  assert (G : (Z.of_nat (eols a) < r_el (te_range e))%Z).
  { destruct H as [[[->|[x [w ->]]] H]|[_ H]]; [congruence| |lia]. rewrite eols_app in H. cbn in H. lia. }
  assert (X : edited [e] (eols a) 0 None (texts_of (q ++ b)) = te_text e ++ texts_of b).
  { destruct (skip_lines [e] e q _ b (eols a) 0 Lq O' Ec N H) as [l' [c' [A [B C]]]].
    assert (Y : forall l c x r, l = eols a -> c = 0 -> edited [e] l c None (x :: r) = te_text e ++ edited [e] l c (Some e) (x :: r)).
    { intros l c x r -> ->. assert (F : finished e (eols a) 0 (x :: r) = false) by (unfold finished, reached; lia).
      assert (Bg : begins (eols a) 0 (x :: r) e = true). { unfold begins, is_here. rewrite Sl, Sc. destruct (at_line_end _); lia. }
      cbn [edited filter]. rewrite Bg, F. cbn [find map concat]. rewrite F. cbn [negb app]. rewrite app_nil_r. reflexivity. }
    destruct q as [|p q]; [congruence|]. destruct (lexes_nonempty _ _ _ Lq) as [x [w Ew]].
    unfold texts_of at 1 in C. unfold texts_of at 1. cbn [app map concat] in *. rewrite Ew in *. cbn [app] in *. rewrite Y by reflexivity. rewrite C.
    f_equal. apply (edited_past _ (length (texts_of b))); [lia|]. constructor; [|constructor]. unfold earlier. rewrite Sl, Sc. lia. }
  unfold apply_edits. destruct a as [|p a].
  - cbn [app texts_of concat map]. exact X.
  - rewrite (walk_lines [e] (p :: a) _ (q ++ b) 0 0 L O E); [|discriminate|constructor; [unfold later; lia|constructor]]. rewrite Nat.add_0_l, X. reflexivity.
Qed.

(* adding text before a line *)
Theorem insert_line e s a b : Lexes s (a ++ b) -> strings_on_one_line (a ++ b) -> ends_line a ->
  te_range e = Range (Z.of_nat (eols a)) 0 (Z.of_nat (eols a)) 0 ->
  apply_edits [e] s = texts_of a ++ te_text e ++ texts_of b.
Proof.
  intros L O E R. destruct (lexes_split a _ _ L) as [-> [La Lb]].
  assert (X : edited [e] (eols a) 0 None (texts_of b) = te_text e ++ texts_of b).
  { assert (Bg : begins (eols a) 0 (texts_of b) e = true).
    { unfold begins, is_here. rewrite R. cbn. destruct (texts_of b); [lia|]. destruct (at_line_end _); lia. }
    assert (F : finished e (eols a) 0 (texts_of b) = true).
    { unfold finished, reached. rewrite R. cbn. destruct (texts_of b); [reflexivity|]. destruct (at_line_end _); lia. }
    assert (Z1 : Forall (earlier (S (eols a)) 0) [e]) by (constructor; [unfold earlier; rewrite R; cbn; lia|constructor]).
    assert (Z2 : Forall (earlier (eols a) 1) [e]) by (constructor; [unfold earlier; rewrite R; cbn; lia|constructor]).
    destruct (texts_of b) as [|x r]; cbn [edited filter]; rewrite Bg; cbn [find map concat]; rewrite ?F; cbn [negb]; rewrite ?app_nil_r; [reflexivity|]. f_equal.
    destruct (Ascii.eqb x c_lf); [rewrite (edited_past _ (length r)) by (assumption || lia); reflexivity|].
    destruct (Ascii.eqb x c_cr); [|rewrite (edited_past _ (length r)) by (assumption || lia); reflexivity].
    destruct r as [|y r']; [rewrite (edited_past _ 0) by (assumption || cbn; lia); reflexivity|].
    destruct (Ascii.eqb y c_lf); rewrite (edited_past _ (length (y :: r'))) by (assumption || cbn; lia); reflexivity. }
  unfold apply_edits. destruct a as [|p a].
  - cbn [app texts_of concat map]. exact X.
  - rewrite (walk_lines [e] (p :: a) _ b 0 0 L O E); [|discriminate|constructor; [unfold later; rewrite R; cbn; lia|constructor]]. rewrite Nat.add_0_l, X. reflexivity.
Qed.

(* ------------------------------------------------------------------------------------------ *)
(* the lines of the parts *)
Lemma Lines_exists ts : exists raw, Lines ts raw.
Proof. exists (Process.split_lines ts []). apply (split_lines_spec ts []); [reflexivity|right; reflexivity]. Qed.

Lemma no_open s a b : Lexes s (a ++ b) -> ends_line a -> forall w, ~ In (POpen w) a.
Proof.
  revert s. induction a as [|p a IH]; intros s L E w I; [destruct I|].
  assert (N : forall v, p <> POpen v).
  { intros v ->. inversion L; subst. destruct a; [|discriminate]. destruct (ends_line_eol _ _ E eq_refl); discriminate. }
  destruct I as [->|I]; [exact (N w eq_refl)|].
  destruct (lexes_split [p] _ _ L) as [_ [_ L']]. destruct a as [|q a]; [destruct I|].
  exact (IH _ L' (ends_line_tail _ _ E ltac:(discriminate)) w I).
Qed.

Lemma layout_eol_count ps : (forall w, ~ In (POpen w) ps) -> forall l c, length (filter is_eol (fst (layout l c ps))) = eols ps.
Proof.
  unfold eols. induction ps as [|p ps IH]; intros O l c; [reflexivity|].
  assert (O' : forall w, ~ In (POpen w) ps) by (intros w I; apply (O w); right; exact I).
  destruct p; cbn [layout fst filter is_eol is_peol tok_t length]; rewrite ?IH by exact O'; try reflexivity.
  destruct (O w). left. reflexivity.
Qed.

Lemma ends_line_count a l c raw : (forall w, ~ In (POpen w) a) -> ends_line a -> Lines (fst (layout l c a)) raw -> length raw = eols a.
Proof.
  intros O E L. pose proof (lines_count _ _ L) as C. rewrite (layout_eol_count _ O) in C. rewrite C.
  destruct (layout_ends a l c O E) as [->|[u [t [-> T]]]]; [cbn; lia|]. rewrite rev_app_distr. cbn. rewrite T. lia.
Qed.

Lemma lines_parts l s a b raw : Lexes s (a ++ b) -> ends_line a -> Lines (fst (layout l 0 (a ++ b))) raw ->
  exists ra rb, raw = ra ++ rb /\ Lines (fst (layout l 0 a)) ra /\ Lines (fst (layout (l + eols a) 0 b)) rb /\ length ra = eols a.
Proof.
  intros L E H. pose proof (no_open _ _ _ L E) as O. destruct (layout_app a O l 0 b) as [c' [A [B C]]].
  assert (Ec : c' = 0).
  { destruct a as [|p a]; [apply C; reflexivity|apply B; [exact E|discriminate]]. }
  subst c'. unfold end_line in A. fold (eols a) in A.
  destruct (Lines_exists (fst (layout l 0 a))) as [ra La]. destruct (Lines_exists (fst (layout (l + eols a) 0 b))) as [rb Lb].
  exists ra, rb. split; [|split; [exact La|split; [exact Lb|exact (ends_line_count _ _ _ _ O E La)]]].
  rewrite A in H. apply (Lines_fun _ _ H). exact (Lines_app _ _ La (layout_ends a l 0 O E) _ _ Lb).
Qed.

(* lines with the same texts *)
Lemma same_tok_texts l l' : Forall2 same_tok l l' -> same_texts l l'.
Proof.
  unfold same_texts. induction 1 as [|t t' l l' [A B] F IH]; [reflexivity|]. cbn [map]. rewrite IH, B. unfold is_comment. rewrite A. reflexivity.
Qed.
Lemma same_raw ts ts' raw raw' : Lines ts raw -> Lines ts' raw' -> Forall2 same_tok ts ts' -> Forall2 same_texts (map code_of raw) (map code_of raw').
Proof.
  intros A B F. destruct (Lines_rel same_tok ts raw) with (ts' := ts') as [raw2 [C D]]; [|exact A|exact F|].
  - intros t t' [H _]. unfold is_eol. rewrite H. reflexivity.
  - rewrite (Lines_fun _ _ B _ C). clear - D. induction D; [constructor|]. cbn [map]. constructor; [|assumption]. apply same_tok_texts. apply code_rel; [|assumption].
    intros t t' [H1 _]. unfold is_comment. rewrite H1. reflexivity.
Qed.

Lemma process_raw en s ps r : Lexes s ps -> process en s = Ret r -> exists raw, Lines (fst (layout 0 0 ps)) raw /\ r_lines r = map code_of raw.
Proof.
  intros L P. destruct (process_result en s r P) as [ts [errs [raw [lds [T [Li [_ R]]]]]]].
  rewrite (tokenize_spec _ _ L) in T. injection T as T. exists raw. rewrite T. split; [exact Li|exact (ro_lines _ _ _ _ _ _ _ R)].
Qed.

(* cutting the lines of a processed document *)
Theorem cut_lines en s a b r : Lexes s (a ++ b) -> ends_line a -> process en s = Ret r ->
  exists ra rb, r_lines r = map code_of ra ++ map code_of rb /\ Lines (fst (layout 0 0 a)) ra /\ Lines (fst (layout (eols a) 0 b)) rb /\ length ra = eols a.
Proof.
  intros L E P. destruct (process_raw en s _ r L P) as [raw [Li R]]. destruct (lines_parts _ _ _ _ _ L E Li) as [ra [rb [-> [A [B C]]]]].
  exists ra, rb. rewrite R, map_app. auto.
Qed.

(* joining them again *)
Theorem join_lines en s a b ra rb l c l' c' : Lexes s (a ++ b) -> ends_line a -> Lines (fst (layout l c a)) ra -> Lines (fst (layout l' c' b)) rb ->
  exists raw, Lines (fst (layout 0 0 (a ++ b))) raw /\ Forall2 same_texts (map code_of ra ++ map code_of rb) (map code_of raw) /\
    (forall r, process en s = Ret r -> r_lines r = map code_of raw) /\
    (all_surplus en 1 (map code_of raw) = 0 -> exists r, process en s = Ret r).
Proof.
  intros L E A B. destruct (Lines_exists (fst (layout 0 0 (a ++ b)))) as [raw H]. exists raw. split; [exact H|].
  destruct (lines_parts _ _ _ _ _ L E H) as [ra' [rb' [-> [A' [B' C]]]]]. split; [|split].
  - rewrite map_app. apply Forall2_app; [exact (same_raw _ _ _ _ A A' (layout_same _ _ _ _ _))|exact (same_raw _ _ _ _ B B' (layout_same _ _ _ _ _))].
  - intros r P. destruct (process_raw en s _ r L P) as [raw2 [Li R]]. rewrite R. f_equal. exact (Lines_fun _ _ Li _ H).
  - intros Z. destruct (layout 0 0 (a ++ b)) as [ts errs] eqn:Y. apply (process_returns en s ts errs (ra' ++ rb')); [rewrite (tokenize_spec _ _ L), Y; reflexivity|exact H|exact Z].
Qed.

Lemma same_surplus en ls ls' : Forall2 same_texts ls ls' -> forall v, all_surplus en v ls = all_surplus en v ls'.
Proof.
  induction 1 as [|l l' ls ls' H F IH]; intros v; [reflexivity|]. cbn [all_surplus].
  destruct (same_entries en v _ _ H) as [_ ->]. unfold surplus. rewrite (same_kind _ _ H), IH. reflexivity.
Qed.
Lemma all_surplus_app en a : forall v b, all_surplus en v (a ++ b) = all_surplus en v a + all_surplus en (last_version v a) b.
Proof. induction a as [|l a IH]; intros v b; [reflexivity|]. cbn [app all_surplus last_version]. rewrite IH. lia. Qed.
