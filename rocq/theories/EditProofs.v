(* Applying edits that replace words by words or strings: the pieces and tokens of the new text. *)
From Verif Require Import Base LexSpec Lexer LexerProofs LexerThms DocLines DocProofs Expr Codec OpTable Process ProcessSpec ProcessDoc ProcessThms Semantics Query Lsp Edit RoundTripSpec RoundTripLex QueryProofs.
From Coq Require Import Lia ZifyBool ZifyNat ZifyN Sorted.

(* ------------------------------------------------------------------------------------------ *)
(* walking over a text *)
Definition e_start (e : text_edit) : Z * Z := (r_sl (te_range e), r_sc (te_range e)).
Definition starts_at (l c : nat) (e : text_edit) : bool :=
  (r_sl (te_range e) =? Z.of_nat l)%Z && (r_sc (te_range e) =? Z.of_nat c)%Z.
Definition width (e : text_edit) : nat := Z.to_nat (r_ec (te_range e) - r_sc (te_range e)).
Definition plain_char (x : ascii) : Prop := x <> c_lf /\ x <> c_cr.

Lemma plain_eqb x : plain_char x -> Ascii.eqb x c_lf = false /\ Ascii.eqb x c_cr = false.
Proof. intros [A B]. split; apply Ascii.eqb_neq; assumption. Qed.
Lemma not_end x r : plain_char x -> at_line_end (x :: r) = false.
Proof. intros P. destruct (plain_eqb x P) as [A B]. unfold at_line_end. rewrite A, B. reflexivity. Qed.
Lemma begins_plain l c x r e : plain_char x -> begins l c (x :: r) e = starts_at l c e.
Proof.
  intros P. unfold begins, is_here, starts_at. rewrite (not_end x r P), (Z.eqb_sym (Z.of_nat l)), (Z.eqb_sym (Z.of_nat c)). reflexivity.
Qed.

Lemma filter_none {A} f (l : list A) : (forall x, In x l -> f x = false) -> filter f l = [].
Proof.
  induction l as [|x l IH]; intros H; [reflexivity|]. cbn. rewrite (H x (or_introl eq_refl)). apply IH. intros y I. apply H. right. exact I.
Qed.

Lemma edited_plain es l c x r : plain_char x -> filter (starts_at l c) es = [] ->
  edited es l c None (x :: r) = x :: edited es l (S c) None r.
Proof.
  intros P F. destruct (plain_eqb x P) as [A B]. cbn [edited].
  rewrite (filter_ext _ (starts_at l c) (fun e => begins_plain l c x r e P)), F, A, B. reflexivity.
Qed.
Lemma walk_plain es l u : forall c r, Forall plain_char u ->
  (forall k, c <= k < c + length u -> filter (starts_at l k) es = []) ->
  edited es l c None (u ++ r) = u ++ edited es l (c + length u) None r.
Proof.
  induction u as [|x u IH]; intros c r P H; [cbn; rewrite Nat.add_0_r; reflexivity|].
  inversion P; subst. cbn [app length]. rewrite edited_plain; [|assumption|apply H; cbn; lia].
  rewrite IH; [f_equal; f_equal; f_equal; lia|assumption|]. intros k K. apply H. cbn. lia.
Qed.

Lemma edited_done es l c e s : finished e l c s = true -> edited es l c (Some e) s = edited es l c None s.
Proof. intros H. destruct s; cbn [edited]; rewrite H; reflexivity. Qed.

Lemma walk_skip es l e u : forall c r, Forall plain_char u ->
  r_el (te_range e) = Z.of_nat l -> r_ec (te_range e) = Z.of_nat (c + length u) ->
  edited es l c (Some e) (u ++ r) = edited es l (c + length u) None r.
Proof.
  induction u as [|x u IH]; intros c r P L E; cbn [app length] in *.
  - rewrite Nat.add_0_r in *. apply edited_done. unfold finished, reached. destruct r; [reflexivity|]. rewrite L, E.
    destruct (at_line_end _); lia.
  - inversion P as [|? ? Px Pu]; subst. destruct (plain_eqb x Px) as [A B].
    assert (F : finished e l c (x :: u ++ r) = false).
    { unfold finished, reached. rewrite L, E, (not_end _ _ Px). cbn [orb]. lia. }
    cbn [edited]. rewrite F, A, B. cbn [map concat app].
    replace (c + S (length u)) with (S c + length u) by lia. apply IH; [assumption|assumption|lia].
Qed.

(* an edit of the first n characters of the text u *)
Lemma walk_edit es l c e u r : Forall plain_char u -> filter (starts_at l c) es = [e] ->
  r_el (te_range e) = Z.of_nat l -> r_ec (te_range e) = Z.of_nat (c + length u) -> u <> [] ->
  edited es l c None (u ++ r) = te_text e ++ edited es l (c + length u) None r.
Proof.
  intros P F L E N. destruct u as [|x u]; [congruence|]. inversion P as [|? ? Px Pu]; subst. destruct (plain_eqb x Px) as [A B].
  cbn [app length edited] in *. rewrite (filter_ext _ (starts_at l c) (fun e => begins_plain l c x (u ++ r) e Px)), F.
  cbn [map concat find]. rewrite app_nil_r.
  assert (D : finished e l c (x :: u ++ r) = false).
  { unfold finished, reached. rewrite L, E, (not_end _ _ Px). cbn [orb]. lia. }
  rewrite D, A, B. cbn [negb app]. f_equal. replace (c + S (length u)) with (S c + length u) by lia.
  apply walk_skip; [assumption|assumption|lia].
Qed.

(* ------------------------------------------------------------------------------------------ *)
(* what a replaced word may become *)
Definition literal (raw : str) : Prop :=
  exists w, raw = c_quote :: w ++ [c_quote] /\ quotes_escaped w /\ ~ last_is c_bslash w /\ one_line w.
Definition raw_ok (raw : str) : Prop := is_word raw = true \/ literal raw.
Definition retext (raw : str) : piece :=
  if starts_quote raw then PString (removelast (tl raw)) else PWord raw.
Definition piece_tok (p : piece) : str :=
  match p with
  | PString w => quote_str ++ unescape_quotes w ++ quote_str
  | PWord w | PComment w | PEol w => w
  | _ => []
  end.

Lemma retext_word raw : is_word raw = true -> retext raw = PWord raw.
Proof.
  unfold retext, is_word, starts_quote. destruct raw as [|c r]; [discriminate|]. intros H.
  apply andb_prop in H. destruct H as [H _]. apply andb_prop in H. destruct H as [_ H]. apply negb_true_iff in H. rewrite H. reflexivity.
Qed.
Lemma retext_literal w : retext (c_quote :: w ++ [c_quote]) = PString w.
Proof. unfold retext. cbn [starts_quote tl]. rewrite Ascii.eqb_refl, removelast_last. reflexivity. Qed.
Lemma retext_text raw : raw_ok raw -> piece_text (retext raw) = raw.
Proof.
  intros [H|[w [-> _]]]; [rewrite (retext_word _ H); reflexivity|]. rewrite retext_literal. reflexivity.
Qed.

(* the pieces after the edits *)
Definition cut_word (es : list text_edit) (l c : nat) (w : str) : piece :=
  match filter (starts_at l c) es with
  | e :: _ => retext (te_text e ++ skipn (width e) w)
  | [] => PWord w
  end.
Fixpoint change (es : list text_edit) (l c : nat) (ps : list piece) : list piece :=
  match ps with
  | [] => []
  | p :: r =>
      match p with
      | PEol w => p :: change es (S l) 0 r
      | PWord w => cut_word es l c w :: change es l (c + length w) r
      | _ => p :: change es l (c + length (piece_text p)) r
      end
  end.

(* the edit replaces the beginning of a word *)
Definition on_word (e : text_edit) (l c : nat) (w : str) : Prop :=
  starts_at l c e = true /\ r_el (te_range e) = Z.of_nat l /\
  (r_sc (te_range e) < r_ec (te_range e))%Z /\ width e <= length w /\ raw_ok (te_text e ++ skipn (width e) w).
Fixpoint target (e : text_edit) (l c : nat) (ps : list piece) : Prop :=
  match ps with
  | [] => False
  | p :: r =>
      match p with
      | PEol _ => target e (S l) 0 r
      | PWord w => on_word e l c w \/ target e l (c + length w) r
      | _ => target e l (c + length (piece_text p)) r
      end
  end.
Definition earlier (l c : nat) (e : text_edit) : Prop :=
  (r_sl (te_range e) < Z.of_nat l \/ (r_sl (te_range e) = Z.of_nat l /\ r_sc (te_range e) < Z.of_nat c))%Z.
Definition fits (es : list text_edit) (l c : nat) (ps : list piece) : Prop :=
  Forall (fun e => earlier l c e \/ target e l c ps) es.

Lemma target_after e ps : forall l c, target e l c ps ->
  (Z.of_nat l < r_sl (te_range e) \/ (Z.of_nat l = r_sl (te_range e) /\ Z.of_nat c <= r_sc (te_range e)))%Z.
Proof.
  induction ps as [|p ps IH]; intros l c H; [destruct H|]. cbn [target] in H.
  destruct p; try (specialize (IH _ _ H); lia).
  destruct H as [H|H]; [|specialize (IH _ _ H); lia]. destruct H as [H _]. unfold starts_at in H. lia.
Qed.

Lemma starts_spec l c e : starts_at l c e = true <-> (r_sl (te_range e) = Z.of_nat l /\ r_sc (te_range e) = Z.of_nat c)%Z.
Proof. unfold starts_at. lia. Qed.
Lemma starts_false l c e : starts_at l c e = false <-> ~ (r_sl (te_range e) = Z.of_nat l /\ r_sc (te_range e) = Z.of_nat c)%Z.
Proof. unfold starts_at. lia. Qed.

(* stepping over a piece at whose start no edit begins *)
Lemma fits_step es l c ps l' c' ps' : fits es l c ps ->
  (forall e, earlier l c e -> earlier l' c' e) -> (forall e, target e l c ps -> earlier l' c' e \/ target e l' c' ps') ->
  fits es l' c' ps'.
Proof. intros F A B. eapply Forall_impl; [|exact F]. cbn. intros e [H|H]; [left; apply A; exact H|apply B; exact H]. Qed.

Lemma fits_none es l c n ps : fits es l c ps -> (forall e, target e l c ps -> target e l (c + n) ps \/ exists ps', target e l (c + n) ps') ->
  forall k, c <= k < c + n -> filter (starts_at l k) es = [].
Proof.
  intros F H k K. apply filter_none. intros e I. apply starts_false. unfold fits in F. rewrite Forall_forall in F.
  destruct (F e I) as [A|A]; [unfold earlier in A; lia|]. destruct (H e A) as [B|[ps' B]]; pose proof (target_after _ _ _ _ B); lia.
Qed.

Lemma unique_start es l c e : NoDup (map e_start es) -> In e es -> starts_at l c e = true -> filter (starts_at l c) es = [e].
Proof.
  induction es as [|x es IH]; intros N I S; [destruct I|]. cbn [map] in N. inversion N as [|? ? Nx Ne]; subst.
  cbn [filter]. destruct I as [->|I].
  - rewrite S. f_equal. apply filter_none. intros y Iy. apply starts_false. intros Q. apply starts_spec in S.
    apply Nx. apply in_map_iff. exists y. split; [|exact Iy]. unfold e_start. f_equal; lia.
  - destruct (starts_at l c x) eqn:Sx; [|apply IH; assumption]. exfalso. apply Nx. apply in_map_iff. exists e. split; [|exact I].
    apply starts_spec in S, Sx. unfold e_start. f_equal; lia.
Qed.

Lemma word_plain c w : Forall (fun c => ~ is_delim c) (c :: w) -> Forall plain_char (c :: w).
Proof. apply Forall_impl. intros x N. split; intros ->; apply N; right; [left|right]; reflexivity. Qed.
Lemma one_line_plain w : one_line w -> Forall plain_char w.
Proof. intros [A B]. apply Forall_forall. intros x I. split; intros ->; [exact (A I)|exact (B I)]. Qed.
Lemma noeol_plain w : Forall (fun c => ~ is_eolc c) w -> Forall plain_char w.
Proof. apply Forall_impl. intros x N. split; intros ->; apply N; [left|right]; reflexivity. Qed.
Lemma one_line_tail p ps : strings_on_one_line (p :: ps) -> strings_on_one_line ps.
Proof. intros H w I. apply H. destruct I; [left|right]; right; assumption. Qed.

(* what happens at a word *)
Lemma word_cases es l c w ps : NoDup (map e_start es) -> w <> [] -> fits es l c (PWord w :: ps) ->
  filter (starts_at l c) es = [] \/ exists e, In e es /\ filter (starts_at l c) es = [e] /\ on_word e l c w.
Proof.
  intros N W F. destruct (filter (starts_at l c) es) as [|e es'] eqn:Fe; [left; reflexivity|right].
  assert (In e es /\ starts_at l c e = true) as [I S] by (apply filter_In; rewrite Fe; left; reflexivity).
  exists e. split; [exact I|]. rewrite <- Fe, (unique_start es l c e N I S). split; [reflexivity|].
  unfold fits in F. rewrite Forall_forall in F. destruct (F e I) as [A|[A|A]]; [|exact A|].
  - apply starts_spec in S. unfold earlier in A. lia.
  - destruct w as [|x w]; [congruence|]. apply target_after in A. apply starts_spec in S. cbn [length] in A. lia.
Qed.

Lemma earlier_col l c c' e : c <= c' -> earlier l c e -> earlier l c' e.
Proof. unfold earlier. lia. Qed.
Lemma earlier_line l c e : earlier l c e -> earlier (S l) 0 e.
Proof. unfold earlier. lia. Qed.

(* pieces that are not words: no edit begins in them *)
Definition not_word (p : piece) : Prop := match p with PEol _ | PWord _ => False | _ => True end.
Lemma fits_skip es l c p ps : not_word p -> fits es l c (p :: ps) -> fits es l (c + length (piece_text p)) ps.
Proof.
  intros W F. eapply fits_step; [exact F|intros e; apply earlier_col; lia|]. intros e T. right. destruct p; try destruct W; exact T.
Qed.
Lemma fits_word es l c w ps : fits es l c (PWord w :: ps) -> w <> [] -> fits es l (c + length w) ps.
Proof.
  intros F W. eapply fits_step; [exact F|intros e; apply earlier_col; lia|]. cbn [target]. intros e [[T _]|T]; [left|right; exact T].
  apply starts_spec in T. destruct w; [congruence|]. unfold earlier. cbn [length]. lia.
Qed.
Lemma fits_eol es l c w ps : fits es l c (PEol w :: ps) -> fits es (S l) 0 ps.
Proof. intros F. eapply fits_step; [exact F|intros e; apply earlier_line|]. intros e T. right. exact T. Qed.
Lemma skip_none es l c p ps : not_word p -> fits es l c (p :: ps) ->
  forall k, c <= k < c + length (piece_text p) -> filter (starts_at l k) es = [].
Proof.
  intros W F. apply (fits_none _ _ _ _ _ F). intros e T. right. exists ps. destruct p; try destruct W; exact T.
Qed.
Lemma eol_none es l c x s w ps : fits es l c (PEol w :: ps) -> filter (begins l c (x :: s)) es = [].
Proof.
  intros F. apply filter_none. intros e I. unfold fits in F. rewrite Forall_forall in F. unfold begins, is_here.
  destruct (F e I) as [A|A]; [unfold earlier in A; destruct (at_line_end _); lia|].
  change (target e (S l) 0 ps) in A; apply target_after in A. destruct (at_line_end _); lia.
Qed.
Lemma word_later es l c w ps : NoDup (map e_start es) -> fits es l c (PWord w :: ps) ->
  forall k, c < k < c + length w -> filter (starts_at l k) es = [].
Proof.
  intros N F k K. apply filter_none. intros e I. apply starts_false. unfold fits in F. rewrite Forall_forall in F.
  destruct (F e I) as [A|[A|A]]; [unfold earlier in A; lia| |apply target_after in A; lia].
  destruct A as [A _]. apply starts_spec in A. lia.
Qed.

Lemma edited_lf es l c r : filter (begins l c (c_lf :: r)) es = [] ->
  edited es l c None (c_lf :: r) = c_lf :: edited es (S l) 0 None r.
Proof. intros F. cbn [edited]. rewrite F. reflexivity. Qed.
Lemma edited_crlf es l c r : filter (begins l c (c_cr :: c_lf :: r)) es = [] ->
  edited es l c None (c_cr :: c_lf :: r) = c_cr :: c_lf :: edited es (S l) 0 None r.
Proof. intros F. cbn [edited]. rewrite F. reflexivity. Qed.
Lemma edited_cr es l c r : filter (begins l c (c_cr :: r)) es = [] -> ends_before (fun c => c <> c_lf) r ->
  edited es l c None (c_cr :: r) = c_cr :: edited es (S l) 0 None r.
Proof.
  intros F E. cbn [edited]. rewrite F. cbn [map concat find app]. change (Ascii.eqb c_cr c_lf) with false. change (Ascii.eqb c_cr c_cr) with true.
  cbn iota. destruct r as [|y r]; [reflexivity|]. change (y <> c_lf) in E. apply Ascii.eqb_neq in E. rewrite E. reflexivity.
Qed.

Theorem edited_change es s ps : Lexes s ps -> strings_on_one_line ps -> NoDup (map e_start es) ->
  forall l c, fits es l c ps -> edited es l c None s = concat (map piece_text (change es l c ps)).
Proof.
  intros L O N. revert O. induction L as [|x r ps Hc L IH|r ps L IH|r ps L IH|r ps Hr L IH|w r ps Hw Hr L IH
                 |w r ps Hq Hl L IH|w Hq|x w r ps Hq Hs Hw Hr L IH]; intros O l c F;
    try (pose proof (one_line_tail _ _ O) as O'); cbn [change map concat].
  - cbn [edited]. rewrite filter_none; [reflexivity|]. intros e I. unfold fits in F. rewrite Forall_forall in F.
    destruct (F e I) as [A|[]]. unfold begins, is_here, earlier in *. lia.
  - cbn [piece_text app length]. rewrite edited_plain.
    + rewrite <- Nat.add_1_r, (IH O' l (c + 1)); [|exact (fits_skip _ _ _ (PBlank x) _ I F)]. reflexivity.
    + destruct Hc as [-> | ->]; split; discriminate.
    + apply (skip_none _ _ _ (PBlank x) _ I F). cbn. lia.
  - cbn [piece_text app]. rewrite edited_lf; [|exact (eol_none _ _ _ _ _ _ _ F)]. rewrite (IH O' (S l) 0); [reflexivity|exact (fits_eol _ _ _ _ _ F)].
  - cbn [piece_text app]. rewrite edited_crlf; [|exact (eol_none _ _ _ _ _ _ _ F)]. rewrite (IH O' (S l) 0); [reflexivity|exact (fits_eol _ _ _ _ _ F)].
  - cbn [piece_text app]. rewrite edited_cr; [|exact (eol_none _ _ _ _ _ _ _ F)|exact Hr]. rewrite (IH O' (S l) 0); [reflexivity|exact (fits_eol _ _ _ _ _ F)].
  - change (c_slash :: c_slash :: w ++ r) with ((piece_text (PComment w)) ++ r). rewrite walk_plain.
    + rewrite (IH O'); [reflexivity|]. exact (fits_skip _ _ _ (PComment w) _ I F).
    + cbn [piece_text]. repeat (apply Forall_cons; [split; discriminate|]). exact (noeol_plain _ Hw).
    + exact (skip_none _ _ _ (PComment w) _ I F).
  - replace (c_quote :: w ++ c_quote :: r) with (piece_text (PString w) ++ r)
      by (cbn [piece_text app]; rewrite <- app_assoc; reflexivity).
    rewrite walk_plain.
    + rewrite (IH O'); [reflexivity|]. exact (fits_skip _ _ _ (PString w) _ I F).
    + cbn [piece_text]. constructor; [split; discriminate|]. apply Forall_app. split; [apply one_line_plain; apply O; left; left; reflexivity|].
      repeat constructor; discriminate.
    + exact (skip_none _ _ _ (PString w) _ I F).
  - change (c_quote :: w) with (piece_text (POpen w)). rewrite <- (app_nil_r (piece_text (POpen w))) at 1. rewrite walk_plain.
    + pose proof (fits_skip _ _ _ (POpen w) _ I F) as F'. cbn [edited]. rewrite filter_none; [reflexivity|].
      intros e I. unfold fits in F'. rewrite Forall_forall in F'.
      destruct (F' e I) as [A|[]]. unfold begins, is_here, earlier in *. lia.
    + cbn [piece_text]. constructor; [split; discriminate|]. apply one_line_plain. apply O. right. left. reflexivity.
    + exact (skip_none _ _ _ (POpen w) _ I F).
  - assert (W : x :: w <> []) by discriminate. change (x :: w ++ r) with ((x :: w) ++ r).
    pose proof (word_plain _ _ Hw) as P. pose proof (fits_word _ _ _ _ _ F W) as F'. rewrite <- (IH O' _ _ F').
    unfold cut_word. destruct (word_cases _ _ _ _ _ N W F) as [E|[e [I [E T]]]]; rewrite E.
    + apply walk_plain; [exact P|]. intros k K. destruct (Nat.eq_dec k c) as [->|]; [exact E|].
      apply (word_later _ _ _ _ _ N F). lia.
    + destruct T as [T1 [T2 [T3 [T4 T5]]]]. rewrite (retext_text _ T5). apply starts_spec in T1. unfold width in *.
      set (n := Z.to_nat (r_ec (te_range e) - r_sc (te_range e))) in *.
      assert (Hn : Z.of_nat n = (r_ec (te_range e) - r_sc (te_range e))%Z) by (unfold n; lia).
      rewrite <- (firstn_skipn n (x :: w)) in P |- * at 1. apply Forall_app in P. destruct P as [P1 P2].
      assert (Ln : length (firstn n (x :: w)) = n) by (apply firstn_length_le; exact T4).
      rewrite <- app_assoc, (walk_edit es l c e (firstn n (x :: w))); [|exact P1|exact E|exact T2|lia|destruct n; [lia|discriminate]].
      rewrite Ln, walk_plain; [|exact P2|].
      * rewrite <- app_assoc. do 3 f_equal. rewrite skipn_length. lia.
      * intros k K. rewrite skipn_length in K. apply (word_later _ _ _ _ _ N F). lia.
Qed.

(* ------------------------------------------------------------------------------------------ *)
(* the new text falls into the changed pieces *)
Lemma word_chars raw : is_word raw = true -> exists c w, raw = c :: w /\ c <> c_quote /\ (forall w', c :: w <> c_slash :: c_slash :: w') /\
  Forall (fun c => ~ is_delim c) (c :: w).
Proof.
  destruct raw as [|c w]; [discriminate|]. intros H. unfold is_word in H.
  apply andb_prop in H as [W S]. apply andb_prop in W as [Fw Q]. apply negb_true_iff in Q, S. exists c, w. split; [reflexivity|].
  split; [intros ->; rewrite Ascii.eqb_refl in Q; discriminate|]. split.
  - intros w' H. injection H as -> ->. rewrite !Ascii.eqb_refl in S. discriminate.
  - rewrite forallb_forall in Fw. apply Forall_forall. intros x I. apply not_delim. exact (Fw x I).
Qed.

Lemma lexes_raw raw r ps : raw_ok raw -> ends_before is_delim r -> Lexes r ps -> Lexes (raw ++ r) (retext raw :: ps).
Proof.
  intros [H|[w [-> [A [B _]]]]] E L.
  - rewrite (retext_word _ H). destruct (word_chars _ H) as [c [w [-> [P [Q R]]]]]. cbn [app]. constructor; assumption.
  - rewrite retext_literal. cbn [app]. rewrite <- app_assoc. cbn [app]. constructor; assumption.
Qed.

Definition texts_of (ps : list piece) : str := concat (map piece_text ps).

(* the first character of a text that starts with a delimiter is not edited *)
Lemma change_delim es s ps : Lexes s ps -> forall l c, ends_before is_delim s -> ends_before is_delim (texts_of (change es l c ps)).
Proof.
  intros L l c E. destruct L; cbn [change texts_of map concat]; try exact I; try exact E.
  match goal with F : Forall _ (_ :: _) |- _ => inversion F as [|? ? Nd _]; subst end. destruct (Nd E).
Qed.
Lemma change_eolc es s ps : Lexes s ps -> forall l c, ends_before is_eolc s -> ends_before is_eolc (texts_of (change es l c ps)).
Proof.
  intros L l c E. destruct L; cbn [change texts_of map concat]; try exact I; try exact E.
  match goal with F : Forall _ (_ :: _) |- _ => inversion F as [|? ? Nd _]; subst end. destruct Nd. right. exact E.
Qed.
Lemma raw_not_lf raw r : raw_ok raw -> ends_before (fun c => c <> c_lf) (raw ++ r).
Proof.
  intros [H|[w [-> _]]]; [|cbn; discriminate]. destruct (word_chars _ H) as [c [w [-> [_ [_ R]]]]]. cbn.
  inversion R as [|? ? Nd _]; subst. intros ->. apply Nd. right. left. reflexivity.
Qed.

Lemma word_raw_ok x w : x <> c_quote -> (forall w', x :: w <> c_slash :: c_slash :: w') -> Forall (fun c => ~ is_delim c) (x :: w) -> is_word (x :: w) = true.
Proof.
  intros Q S F. unfold is_word. rewrite !andb_true_iff, !negb_true_iff. repeat split.
  - apply forallb_forall. intros y I. rewrite Forall_forall in F. apply not_delim. exact (F y I).
  - apply Ascii.eqb_neq. exact Q.
  - destruct (Ascii.eqb x c_slash) eqn:E1; [|reflexivity]. destruct w as [|d w]; [reflexivity|]. cbn [andb].
    destruct (Ascii.eqb d c_slash) eqn:E2; [|reflexivity]. apply Ascii.eqb_eq in E1, E2. subst. destruct (S w eq_refl).
Qed.

Lemma cut_word_ok es l c w ps : NoDup (map e_start es) -> is_word w = true -> fits es l c (PWord w :: ps) ->
  exists raw, raw_ok raw /\ cut_word es l c w = retext raw.
Proof.
  intros N W F. unfold cut_word. destruct (word_cases es l c w ps N) as [E|[e [_ [E T]]]]; try exact F.
  - intros ->. discriminate W.
  - rewrite E. exists w. split; [left; exact W|]. symmetry. apply retext_word. exact W.
  - rewrite E. eexists. split; [apply T|reflexivity].
Qed.

Theorem lexes_change es s ps : Lexes s ps -> strings_on_one_line ps -> NoDup (map e_start es) -> forall l c, fits es l c ps ->
  Lexes (texts_of (change es l c ps)) (change es l c ps) /\ strings_on_one_line (change es l c ps).
Proof.
  intros L O N. revert O. induction L as [|x r ps Hc L IH|r ps L IH|r ps L IH|r ps Hr L IH|w r ps Hw Hr L IH
                 |w r ps Hq Hl L IH|w Hq|x w r ps Hq Hs Hw Hr L IH]; intros O l c F;
    try (pose proof (one_line_tail _ _ O) as O'); cbn [change].
  - split; [constructor|exact O].
  - destruct (IH O' l (c + 1) (fits_skip _ _ _ (PBlank x) _ I F)) as [A B]. split; [constructor; [exact Hc|exact A]|].
    intros u [[U|U]|[U|U]]; try discriminate U; apply B; auto.
  - destruct (IH O' (S l) 0 (fits_eol _ _ _ _ _ F)) as [A B]. split; [constructor; exact A|].
    intros u [[U|U]|[U|U]]; try discriminate U; apply B; auto.
  - destruct (IH O' (S l) 0 (fits_eol _ _ _ _ _ F)) as [A B]. split; [constructor; exact A|].
    intros u [[U|U]|[U|U]]; try discriminate U; apply B; auto.
  - pose proof (fits_eol _ _ _ _ _ F) as F'. destruct (IH O' (S l) 0 F') as [A B]. split.
    + constructor; [|exact A]. destruct L; cbn [change map concat]; try exact I; try exact Hr.
      destruct (cut_word_ok es (S l) 0 (c0 :: w) ps N (word_raw_ok _ _ H H0 H1) F') as [raw [R1 R2]].
      rewrite R2, (retext_text _ R1). apply raw_not_lf. exact R1.
    + intros u [[U|U]|[U|U]]; try discriminate U; apply B; auto.
  - destruct (IH O' l _ (fits_skip _ _ _ (PComment w) _ I F)) as [A B]. split.
    + cbn [texts_of map concat piece_text app]. constructor; [exact Hw|exact (change_eolc _ _ _ L _ _ Hr)|exact A].
    + intros u [[U|U]|[U|U]]; try discriminate U; apply B; auto.
  - destruct (IH O' l _ (fits_skip _ _ _ (PString w) _ I F)) as [A B]. split.
    + cbn [texts_of map concat piece_text app]. rewrite <- app_assoc. cbn [app]. constructor; [exact Hq|exact Hl|exact A].
    + intros u [[U|U]|[U|U]]; try discriminate U; [|apply B; auto..]. apply O. left. left. congruence.
  - split; [|exact O]. cbn [texts_of map concat piece_text app]. rewrite app_nil_r. constructor. exact Hq.
  - assert (W : x :: w <> []) by discriminate. destruct (IH O' l _ (fits_word _ _ _ _ _ F W)) as [A B].
    destruct (cut_word_ok es l c (x :: w) ps N (word_raw_ok _ _ Hq Hs Hw) F) as [raw [R1 R2]]. rewrite R2. split.
    + cbn [texts_of map concat]. rewrite (retext_text _ R1). apply lexes_raw; [exact R1|exact (change_delim _ _ _ L _ _ Hr)|exact A].
    + assert (B1 : forall u, In (PString u) [retext raw] \/ In (POpen u) [retext raw] -> one_line u).
      { intros u U. destruct R1 as [R1|[v [-> [_ [_ V]]]]].
        - rewrite (retext_word _ R1) in U. destruct U as [[U|[]]|[U|[]]]; discriminate U.
        - rewrite retext_literal in U. destruct U as [[U|[]]|[U|[]]]; [injection U as <-; exact V|discriminate U]. }
      intros u [[U|U]|[U|U]]; [apply B1; left; left; exact U|apply B; left; exact U|apply B1; right; left; exact U|apply B; right; exact U].
Qed.

(* ------------------------------------------------------------------------------------------ *)
(* the tokens of the new text *)
Definition new_text (es : list text_edit) (t : token) : str :=
  match filter (starts_at (tok_l t) (tok_b t)) es with
  | e :: _ => piece_tok (retext (te_text e ++ skipn (width e) (tok_v t)))
  | [] => tok_v t
  end.
Definition edited_tok (es : list text_edit) (t t' : token) : Prop :=
  tok_t t' = tok_t t /\ tok_l t' = tok_l t /\ tok_v t' = new_text es t.

Lemma layout_retext raw l c ps : raw_ok raw ->
  layout l c (retext raw :: ps) =
  (Token (piece_tok (retext raw)) l c (c + length raw) TokValue :: fst (layout l (c + length raw) ps), snd (layout l (c + length raw) ps)).
Proof.
  intros R. pose proof (retext_text _ R) as T. unfold retext in *. destruct (starts_quote raw); cbn [layout piece_tok]; rewrite T; reflexivity.
Qed.

Theorem layout_change es s ps : Lexes s ps -> NoDup (map e_start es) -> forall l c c', fits es l c ps ->
  Forall2 (edited_tok es) (fst (layout l c ps)) (fst (layout l c' (change es l c ps))).
Proof.
  intros L N. induction L as [|x r ps Hc L IH|r ps L IH|r ps L IH|r ps Hr L IH|w r ps Hw Hr L IH
                 |w r ps Hq Hl L IH|w Hq|x w r ps Hq Hs Hw Hr L IH]; intros l c c' F; cbn [change].
  - constructor.
  - cbn [layout fst]. apply IH. exact (fits_skip _ _ _ (PBlank x) _ I F).
  - cbn [layout fst]. constructor; [|apply IH; exact (fits_eol _ _ _ _ _ F)]. split; [reflexivity|]. split; [reflexivity|].
    unfold new_text. cbn [tok_l tok_b tok_v]. rewrite filter_none; [reflexivity|]. intros e I. apply starts_false.
    unfold fits in F. rewrite Forall_forall in F. destruct (F e I) as [A|A]; [unfold earlier in A; lia|change (target e (S l) 0 ps) in A; apply target_after in A; lia].
  - cbn [layout fst]. constructor; [|apply IH; exact (fits_eol _ _ _ _ _ F)]. split; [reflexivity|]. split; [reflexivity|].
    unfold new_text. cbn [tok_l tok_b tok_v]. rewrite filter_none; [reflexivity|]. intros e I. apply starts_false.
    unfold fits in F. rewrite Forall_forall in F. destruct (F e I) as [A|A]; [unfold earlier in A; lia|change (target e (S l) 0 ps) in A; apply target_after in A; lia].
  - cbn [layout fst]. constructor; [|apply IH; exact (fits_eol _ _ _ _ _ F)]. split; [reflexivity|]. split; [reflexivity|].
    unfold new_text. cbn [tok_l tok_b tok_v]. rewrite filter_none; [reflexivity|]. intros e I. apply starts_false.
    unfold fits in F. rewrite Forall_forall in F. destruct (F e I) as [A|A]; [unfold earlier in A; lia|change (target e (S l) 0 ps) in A; apply target_after in A; lia].
  - cbn [layout fst]. constructor; [|apply IH; exact (fits_skip _ _ _ (PComment w) _ I F)]. split; [reflexivity|]. split; [reflexivity|].
    unfold new_text. cbn [tok_l tok_b tok_v]. rewrite (skip_none _ _ _ (PComment w) _ I F); [reflexivity|]. cbn. lia.
  - cbn [layout fst]. constructor; [|apply IH; exact (fits_skip _ _ _ (PString w) _ I F)]. split; [reflexivity|]. split; [reflexivity|].
    unfold new_text. cbn [tok_l tok_b tok_v]. rewrite (skip_none _ _ _ (PString w) _ I F); [reflexivity|]. cbn. lia.
  - constructor.
  - assert (W : x :: w <> []) by discriminate. pose proof (fits_word _ _ _ _ _ F W) as F'.
    unfold cut_word. destruct (word_cases _ _ _ _ _ N W F) as [E|[e [I [E T]]]]; rewrite E.
    + cbn [layout fst]. constructor; [|apply IH; exact F']. split; [reflexivity|]. split; [reflexivity|].
      unfold new_text. cbn [tok_l tok_b tok_v]. rewrite E. reflexivity.
    + destruct T as [T1 [T2 [T3 [T4 T5]]]]. rewrite (layout_retext _ _ _ _ T5). cbn [layout fst].
      constructor; [|apply IH; exact F']. split; [reflexivity|]. split; [reflexivity|].
      unfold new_text. cbn [tok_l tok_b tok_v]. rewrite E. reflexivity.
Qed.

(* edits of word tokens *)
Definition on_token (ts : list token) (e : text_edit) : Prop :=
  exists t, In t ts /\ tok_t t = TokValue /\ starts_quote (tok_v t) = false /\
    starts_at (tok_l t) (tok_b t) e = true /\ r_el (te_range e) = Z.of_nat (tok_l t) /\
    (r_sc (te_range e) < r_ec (te_range e))%Z /\ width e <= length (tok_v t) /\ raw_ok (te_text e ++ skipn (width e) (tok_v t)).

Lemma target_token e s ps : Lexes s ps -> forall l c, on_token (fst (layout l c ps)) e -> target e l c ps.
Proof.
  induction 1; intros l0 c0 [t [I T]]; cbn [layout fst target] in *; try (destruct I as [<-|I]; [try (destruct T as [T _]; discriminate T)|]);
    try (apply IHLexes; exists t; split; [exact I|exact T]).
  - destruct I.
  - destruct T as [_ [T _]]. cbn in T. discriminate T.
  - destruct I.
  - left. destruct T as [_ [_ T]]. cbn [tok_l tok_b tok_v] in T. exact T.
  - right. apply IHLexes. exists t. split; [exact I|exact T].
Qed.

Theorem edit_tokens src ps ts errs es : Lexes src ps -> strings_on_one_line ps -> tokenize src = Ret (ts, errs) ->
  NoDup (map e_start es) -> Forall (on_token ts) es ->
  exists ts' errs', tokenize (apply_edits es src) = Ret (ts', errs') /\ Forall2 (edited_tok es) ts ts'.
Proof.
  intros L O T N E. rewrite (tokenize_spec _ _ L) in T. injection T as T.
  assert (F : fits es 0 0 ps).
  { eapply Forall_impl; [|exact E]. cbn. intros e H. right. apply (target_token e src ps L 0 0). rewrite T. exact H. }
  destruct (lexes_change _ _ _ L O N 0 0 F) as [A _].
  unfold apply_edits. rewrite (edited_change _ _ _ L O N 0 0 F). fold (texts_of (change es 0 0 ps)). rewrite (tokenize_spec _ _ A).
  destruct (layout 0 0 (change es 0 0 ps)) as [ts' errs'] eqn:Y. exists ts', errs'. split; [reflexivity|].
  pose proof (layout_change es _ _ L N 0 0 0 F) as Q. rewrite T, Y in Q. exact Q.
Qed.

(* ------------------------------------------------------------------------------------------ *)
(* the lines *)
Lemma Lines_fun ts a : Lines ts a -> forall b, Lines ts b -> a = b.
Proof.
  assert (X : forall l t r l' t' r', existsb is_eol l = false -> is_eol t = true -> existsb is_eol l' = false -> is_eol t' = true ->
    l ++ t :: r = l' ++ t' :: r' -> l = l' /\ r = r').
  { induction l as [|x l IH]; intros t r l' t' r' A B C D E; destruct l' as [|x' l']; cbn in *.
    - injection E as _ ->. auto.
    - injection E as <- _. apply orb_false_iff in C. destruct C. congruence.
    - injection E as -> _. apply orb_false_iff in A. destruct A. congruence.
    - injection E as -> E. apply orb_false_iff in A, C. destruct (IH _ _ _ _ _ (proj2 A) B (proj2 C) D E) as [-> ->]. auto. }
  assert (Y : forall l t r l', existsb is_eol l' = false -> is_eol t = true -> l ++ t :: r = l' -> False).
  { intros l t r l' A B <-. rewrite existsb_app in A. cbn in A. rewrite B in A. destruct (existsb is_eol l); discriminate A. }
  induction 1 as [|l N E|l t r ls E T L IH]; intros b H.
  - inversion H; [reflexivity|congruence|]. destruct l; discriminate.
  - inversion H; subst; [congruence|reflexivity|]. exfalso. eapply Y; [|exact H1|reflexivity]. exact E.
  - inversion H; subst.
    + destruct l; discriminate.
    + exfalso. eapply Y; [|exact T|reflexivity]. exact H1.
    + destruct (X _ _ _ _ _ _ H1 H2 E T H0) as [-> ->]. f_equal. apply IH. exact H3.
Qed.

Lemma Lines_rel (R : token -> token -> Prop) ts raw : (forall t t', R t t' -> is_eol t' = is_eol t) -> Lines ts raw ->
  forall ts', Forall2 R ts ts' -> exists raw', Lines ts' raw' /\ Forall2 (Forall2 R) raw raw'.
Proof.
  intros HR. assert (X : forall l l', Forall2 R l l' -> existsb is_eol l' = existsb is_eol l).
  { induction 1; cbn; [reflexivity|]. rewrite IHForall2, (HR _ _ H). reflexivity. }
  induction 1 as [|l N E|l t r ls E T L IH]; intros ts' F.
  - inversion F; subst. exists []. split; constructor.
  - exists [ts']. split; [|repeat constructor; exact F]. apply Lines_last; [inversion F; subst; congruence|rewrite (X _ _ F); exact E].
  - apply Forall2_app_inv_l in F. destruct F as [l' [r0 [F1 [F2 ->]]]]. inversion F2 as [|? t' ? r' Ht Fr]; subst.
    destruct (IH _ Fr) as [raw' [A B]]. exists (l' :: raw'). split; [|constructor; assumption].
    constructor; [rewrite (X _ _ F1); exact E|rewrite (HR _ _ Ht); exact T|exact A].
Qed.

Lemma code_rel (R : token -> token -> Prop) l l' : (forall t t', R t t' -> is_comment t' = is_comment t) ->
  Forall2 R l l' -> Forall2 R (code_of l) (code_of l').
Proof.
  intros HR F. destruct F as [|t t' l l' H F]; [constructor|]. cbn [code_of]. constructor; [exact H|].
  induction F as [|u u' l l' Hu F IH]; [constructor|]. cbn [until_comment]. rewrite (HR _ _ Hu).
  destruct (is_comment u); [constructor|]. constructor; assumption.
Qed.

Theorem edit_lines en src ps r es : Lexes src ps -> strings_on_one_line ps -> process en src = Ret r ->
  NoDup (map e_start es) -> Forall (on_token (r_tokens r)) es ->
  exists ts' errs' raw', tokenize (apply_edits es src) = Ret (ts', errs') /\ Lines ts' raw' /\
    Forall2 (Forall2 (edited_tok es)) (r_lines r) (map code_of raw').
Proof.
  intros L O P N E. destruct (process_result en src r P) as [ts [errs [raw [lds [T [Li [_ R]]]]]]].
  rewrite (ro_tokens _ _ _ _ _ _ _ R) in E. rewrite (ro_lines _ _ _ _ _ _ _ R).
  destruct (edit_tokens _ _ _ _ _ L O T N E) as [ts' [errs' [T' F]]].
  destruct (Lines_rel (edited_tok es) ts raw) with (ts' := ts') as [raw' [A B]]; [|exact Li|exact F|].
  - intros t t' [H _]. unfold is_eol. rewrite H. reflexivity.
  - exists ts', errs', raw'. split; [exact T'|]. split; [exact A|].
    clear - B. induction B; [constructor|]. cbn [map]. constructor; [|assumption]. apply code_rel; [|assumption].
    intros t t' [H1 _]. unfold is_comment. rewrite H1. reflexivity.
Qed.

Lemma edit_result en src ps r es r' : Lexes src ps -> strings_on_one_line ps -> process en src = Ret r ->
  NoDup (map e_start es) -> Forall (on_token (r_tokens r)) es -> process en (apply_edits es src) = Ret r' ->
  Forall2 (Forall2 (edited_tok es)) (r_lines r) (r_lines r').
Proof.
  intros L O P N E P'. destruct (edit_lines _ _ _ _ _ L O P N E) as [ts' [errs' [raw' [T [Li F]]]]].
  destruct (process_result en _ r' P') as [ts2 [errs2 [raw2 [lds2 [T2 [L2 [_ R2]]]]]]].
  rewrite T in T2. injection T2 as <- <-. rewrite (Lines_fun _ _ L2 _ Li) in R2. rewrite (ro_lines _ _ _ _ _ _ _ R2). exact F.
Qed.
