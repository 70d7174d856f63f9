(** The lexer of lexer.go computes the pieces of LexSpec.v. *)
From Verif Require Import Base Utf8 Utf8Proofs Lexer LexSpec.
From Coq Require Import ZifyBool ZifyNat ZifyN.

(** * Byte-level view of the rune loops *)

(** Remaining input of a lexer state. *)
Definition zrem (z : lexer) : str := skipn (zi z) (zsrc z).

Fixpoint span_len (f : N -> bool) (s : str) : nat :=
  match s with
  | [] => 0
  | c :: s' => if f (byte c) then S (span_len f s') else 0
  end.

(** A predicate on runes that holds of everything outside ASCII. *)
Definition high_true (f : N -> bool) := forall r, (128 <= r)%N -> f r = true.

Lemma span_len_high f s n : high_true f -> Forall high (firstn n s) -> n <= length s ->
  span_len f s = n + span_len f (skipn n s).
Proof.
  intros Hf. revert s; induction n as [|n IH]; intros s H Hn; [reflexivity|].
  destruct s as [|c s]; cbn in Hn; [lia|]. cbn in H |- *.
  inversion H; subst. rewrite Hf by assumption. rewrite (IH s) by (auto; lia). reflexivity.
Qed.

Lemma span_len_le f s : span_len f s <= length s.
Proof. induction s; cbn; [lia|]. destruct (f _); cbn; lia. Qed.

(** What one [DecodeRune] does, byte-wise. *)
Lemma decode_cases c s :
  (decode_rune (c :: s) = (byte c, 1) /\ (byte c < 128)%N) \/
  (exists r n, decode_rune (c :: s) = (r, n) /\ (128 <= r)%N /\ high c /\ 1 <= n <= length (c :: s) /\
    Forall high (firstn n (c :: s))).
Proof.
  destruct (N.ltb_spec (byte c) 128) as [H|H].
  - left; split; [apply decode_ascii|]; assumption.
  - right. destruct (decode_high c s H) as (r & n & E & ? & ? & ?). exists r, n; auto 6.
Qed.

Lemma skipn_cons_nth {A} n (s : list A) c r : skipn n s = c :: r -> n < length s /\ skipn (S n) s = r.
Proof.
  revert s; induction n as [|n IH]; intros [|x s] H; cbn in *; try discriminate.
  - injection H as -> ->; split; [lia|reflexivity].
  - apply IH in H as [? ?]; split; [lia|assumption].
Qed.

Lemma skipn_nil_len {A} n (s : list A) : skipn n s = [] -> n >= length s.
Proof. intros H. apply (f_equal (@length A)) in H. rewrite skipn_length in H. cbn in H. lia. Qed.

Lemma skipn_plus {A} n m (s : list A) : skipn m (skipn n s) = skipn (n + m) s.
Proof. revert s; induction n as [|n IH]; intros s; cbn; [reflexivity|]. destruct s; [now destruct m|apply IH]. Qed.

Lemma zrem_inc z n : zrem (z_inc z n) = skipn n (zrem z).
Proof. unfold zrem; cbn. rewrite skipn_plus. reflexivity. Qed.

Lemma z_inc_inc z n m : z_inc (z_inc z n) m = z_inc z (n + m).
Proof. unfold z_inc; cbn. f_equal; lia. Qed.

Lemma z_inc_0 z : z_inc z 0 = z.
Proof. destruct z; unfold z_inc; cbn. f_equal; lia. Qed.

Definition in_src (z : lexer) : Prop := zi z <= length (zsrc z).

Lemma zrem_length z : in_src z -> length (zrem z) = length (zsrc z) - zi z.
Proof. intros; unfold zrem; apply skipn_length. Qed.

Lemma zrem_nil z : in_src z -> zrem z = [] -> zi z = length (zsrc z).
Proof. unfold in_src, zrem; intros H E. apply skipn_nil_len in E. lia. Qed.

Lemma zrem_cons z c s : zrem z = c :: s -> zi z < length (zsrc z).
Proof. unfold zrem; intros E. apply skipn_cons_nth in E. lia. Qed.

Lemma z_rune_at_rem z : in_src z -> z_rune_at z (zi z) = Ret (decode_rune (zrem z)).
Proof. unfold in_src, z_rune_at, zrem; intros H. destruct (Nat.leb_spec (zi z) (length (zsrc z))); [reflexivity|lia]. Qed.

Lemma in_src_inc z n : in_src z -> n <= length (zrem z) -> in_src (z_inc z n).
Proof. intros H Hn. rewrite zrem_length in Hn by assumption. unfold in_src in *; cbn; lia. Qed.

Ltac at_end z Hin E :=
  let H := fresh in
  assert (H : (zi z =? length (zsrc z)) = true)
    by (apply Nat.eqb_eq, zrem_nil; assumption); rewrite H; clear H.
Ltac not_end z E :=
  let H := fresh in
  assert (H : (zi z =? length (zsrc z)) = false)
    by (apply Nat.eqb_neq; pose proof (zrem_cons z _ _ E); lia); rewrite H; clear H.

(** * The loops *)

Lemma read_word_spec fuel z : in_src z -> length (zrem z) < fuel ->
  read_word fuel z = z_emit (z_inc z (span_len (fun c => negb (is_terminating c)) (zrem z))) TokValue.
Proof.
  assert (Hf : high_true (fun c => negb (is_terminating c))).
  { intros r Hr. unfold is_terminating, r_cr, r_lf, r_space, r_tab. cbn. lia. }
  revert z; induction fuel as [|fuel IH]; intros z Hin Hfu; [lia|].
  cbn [read_word]. destruct (zrem z) as [|c s] eqn:E.
  - at_end z Hin E. cbn. rewrite z_inc_0. reflexivity.
  - not_end z E. rewrite z_rune_at_rem, E by assumption. cbn [bindr].
    destruct (decode_cases c s) as [[D Hc]|(r & n & D & Hr & Hh & Hn & Hall)]; rewrite D.
    + cbn [span_len]. destruct (is_terminating (byte c)) eqn:T; cbn [negb].
      * rewrite z_inc_0. reflexivity.
      * rewrite IH; rewrite ?zrem_inc, ?E; cbn [skipn length] in *; try lia.
        -- rewrite z_inc_inc. reflexivity.
        -- apply in_src_inc; rewrite ?E; cbn; auto; lia.
    + pose proof (Hf r Hr) as T. cbn in T. apply negb_true_iff in T. rewrite T.
      rewrite (span_len_high _ (c :: s) n) by (auto; lia).
      rewrite <- z_inc_inc, <- E, <- zrem_inc. apply IH.
      * apply in_src_inc; rewrite ?E; auto; lia.
      * rewrite zrem_inc, skipn_length, E. lia.
Qed.

(** [z_mark] commutes with [z_inc] when the token start is re-marked. *)
Lemma z_mark_mark_inc z n m : z_mark (z_inc (z_mark (z_inc z n)) m) = z_mark (z_inc z (n + m)).
Proof. unfold z_mark, z_inc; cbn. f_equal; lia. Qed.

Definition blank_rune (c : N) : bool := ((c =? r_space) || (c =? r_tab))%N.

Lemma skip_whitespace_spec fuel z : in_src z -> zp z = zi z -> length (zrem z) < fuel ->
  skip_whitespace fuel z = Ret (z_mark (z_inc z (span_len blank_rune (zrem z)))).
Proof.
  revert z; induction fuel as [|fuel IH]; intros z Hin Hp Hfu; [lia|].
  assert (H0 : z_mark (z_inc z 0) = z).
  { rewrite z_inc_0. destruct z; cbn in Hp; subst; reflexivity. }
  cbn [skip_whitespace]. destruct (zrem z) as [|c s] eqn:E.
  - at_end z Hin E. cbn [span_len]. rewrite H0. reflexivity.
  - not_end z E. rewrite z_rune_at_rem, E by assumption. cbn [bindr].
    destruct (decode_cases c s) as [[D Hc]|(r & n & D & Hr & Hh & Hn & Hall)]; rewrite D.
    + cbn [span_len]. unfold blank_rune at 1.
      destruct ((byte c =? r_space)%N) eqn:T1; cbn [negb orb andb].
      2: destruct ((byte c =? r_tab)%N) eqn:T2; cbn [negb].
      3: rewrite H0; reflexivity.
      all: rewrite IH; rewrite ?zrem_inc; cbn [zrem z_mark zi zsrc].
      all: try (rewrite z_mark_mark_inc; repeat f_equal; change (zrem (z_mark (z_inc z 1))) with (zrem (z_inc z 1)); rewrite zrem_inc, E; reflexivity).
      all: try reflexivity.
      all: try (apply in_src_inc; rewrite ?E; cbn; auto; lia).
      all: change (zrem (z_mark (z_inc z 1))) with (zrem (z_inc z 1)); rewrite zrem_inc, E; cbn [skipn length] in *; lia.
    + assert (Hb : blank_rune (byte c) = false).
      { unfold blank_rune, r_space, r_tab; unfold high in Hh; cbn. lia. }
      cbn [span_len]. rewrite Hb.
      replace ((negb (r =? r_space) && negb (r =? r_tab))%N) with true
        by (unfold r_space, r_tab; cbn; lia).
      rewrite H0. reflexivity.
Qed.

Definition noeol_rune (c : N) : bool := negb ((c =? r_cr) || (c =? r_lf))%N.

(** The last lines of the comment loop. *)
Definition finish_comment (z : lexer) : res lexer :=
  letr v := slice (zsrc z) (zp z + 2) (zi z) in
  Ret (z_mark (z_append z v TokComment)).

Lemma read_comment_spec2 fuel z : in_src z -> zp z + 2 <= zi z -> length (zrem z) < fuel ->
  read_comment fuel z = finish_comment (z_inc z (span_len noeol_rune (zrem z))).
Proof.
  revert z; induction fuel as [|fuel IH]; intros z Hin Hp Hfu; [lia|].
  cbn [read_comment]. cbv zeta.
  assert (Hl : (zi z - zp z <? 2) = false) by lia.
  change (letr v := slice (zsrc z) (zp z + 2) (zi z) in Ret (z_mark (z_append z v TokComment)))
    with (finish_comment z).
  destruct (zrem z) as [|c s] eqn:E.
  - at_end z Hin E. rewrite Hl. cbn [span_len]. rewrite z_inc_0. reflexivity.
  - not_end z E. rewrite z_rune_at_rem, E by assumption. cbn [bindr].
    destruct (decode_cases c s) as [[D Hc]|(r & n & D & Hr & Hh & Hn & Hall)]; rewrite D, Hl.
    + cbn [span_len]. change (noeol_rune (byte c)) with (negb ((byte c =? r_cr) || (byte c =? r_lf))%N).
      destruct ((byte c =? r_cr) || (byte c =? r_lf))%N eqn:T; cbn [negb].
      * rewrite z_inc_0. reflexivity.
      * rewrite IH; rewrite ?zrem_inc, ?E; cbn [skipn length] in *; try lia.
        -- rewrite z_inc_inc. reflexivity.
        -- apply in_src_inc; rewrite ?E; cbn; auto; lia.
        -- cbn; lia.
    + replace ((r =? r_cr) || (r =? r_lf))%N with false by (unfold r_cr, r_lf; cbn; lia).
      assert (Hf : high_true noeol_rune).
      { intros x Hx. unfold noeol_rune, r_cr, r_lf. cbn. lia. }
      rewrite (span_len_high _ (c :: s) n) by (auto; lia).
      rewrite <- z_inc_inc, <- E, <- zrem_inc. apply IH.
      * apply in_src_inc; rewrite ?E; auto; lia.
      * cbn; lia.
      * rewrite zrem_inc, skipn_length, E. lia.
Qed.

(** Length of a string body up to its closing quote. *)
Fixpoint body_len (prev : N) (s : str) : option nat :=
  match s with
  | [] => None
  | c :: s' => if ((byte c =? r_quote) && negb (prev =? r_bslash))%N then Some 0
               else option_map S (body_len (byte c) s')
  end.

Lemma body_len_high p s n r : Forall high (firstn n s) -> 1 <= n <= length s -> (128 <= r)%N ->
  body_len p s = option_map (fun k => n + k) (body_len r (skipn n s)).
Proof.
  revert p s; induction n as [|n IH]; intros p s Hall Hn Hr; [lia|].
  destruct s as [|c s]; cbn in Hn; [lia|]. cbn [firstn] in Hall. inversion Hall; subst.
  cbn [body_len skipn]. unfold high in *.
  replace ((byte c =? r_quote) && negb (p =? r_bslash))%N with false
    by (unfold r_quote; cbn; lia).
  destruct n as [|n].
  - cbn [skipn]. assert (He : forall s, body_len (byte c) s = body_len r s).
    { intros [|d s']; [reflexivity|]. cbn [body_len].
      replace (byte c =? r_bslash)%N with false by (unfold r_bslash; cbn; lia).
      replace (r =? r_bslash)%N with false by (unfold r_bslash; cbn; lia). reflexivity. }
    rewrite He. destruct (body_len r s); reflexivity.
  - rewrite (IH _ s) by (auto; lia). destruct (body_len r _); reflexivity.
Qed.

Lemma body_len_lt p s k : body_len p s = Some k -> k < length s.
Proof.
  revert p k; induction s as [|c s IH]; intros p k; cbn; [discriminate|].
  destruct (_ && _); [intros [= <-]; lia|].
  destruct (body_len _ s) eqn:E; cbn; [|discriminate]. intros [= <-]. apply IH in E. lia.
Qed.

(** The lines executed when the closing quote has been read. *)
Definition finish_string (z : lexer) : res lexer :=
  letr s := slice (zsrc z) (zp z + 1) (zi z - 1) in
  Ret (z_mark (z_append z (quote_str ++ unescape_quotes s ++ quote_str) TokValue)).

Lemma read_string_spec fuel p z : in_src z -> length (zrem z) < fuel ->
  read_string fuel p z =
    match body_len p (zrem z) with
    | Some k =>
        finish_string (z_inc z (k + 1))
    | None => Ret (z_fail (z_inc z (length (zrem z))) IncompleteString)
    end.
Proof.
  revert p z; induction fuel as [|fuel IH]; intros p z Hin Hfu; [lia|].
  cbn [read_string]. destruct (zrem z) as [|c s] eqn:E.
  - at_end z Hin E. cbn. rewrite z_inc_0. reflexivity.
  - not_end z E. rewrite z_rune_at_rem, E by assumption. cbn [bindr].
    destruct (decode_cases c s) as [[D Hc]|(r & n & D & Hr & Hh & Hn & Hall)]; rewrite D.
    + cbn [body_len]. destruct ((byte c =? r_quote) && negb (p =? r_bslash))%N eqn:T.
      * reflexivity.
      * rewrite IH; rewrite ?zrem_inc, ?E; cbn [skipn length] in *; try lia.
        2: apply in_src_inc; rewrite ?E; cbn; auto; lia.
        destruct (body_len (byte c) s) as [k|]; cbn [option_map]; cbv zeta.
        -- rewrite z_inc_inc. reflexivity.
        -- rewrite z_inc_inc. reflexivity.
    + replace ((r =? r_quote) && negb (p =? r_bslash))%N with false by (unfold r_quote; cbn; lia).
      rewrite (body_len_high p (c :: s) n r) by (auto; lia).
      rewrite IH. 2: apply in_src_inc; rewrite ?E; auto; lia.
      2: rewrite zrem_inc, skipn_length, E; cbn [length] in *; lia.
      rewrite zrem_inc, E.
      destruct (body_len r (skipn n (c :: s))) as [k|]; cbn [option_map]; cbv zeta.
      * rewrite z_inc_inc. rewrite Nat.add_assoc. reflexivity.
      * rewrite z_inc_inc, skipn_length. do 2 f_equal. f_equal. lia.
Qed.

(** * Bytes, runes and the grammar of LexSpec.v *)

Lemma byte_eqb c d : (byte c =? byte d)%N = Ascii.eqb c d.
Proof.
  destruct (Ascii.eqb_spec c d) as [->|H]; [apply N.eqb_refl|].
  apply N.eqb_neq. intros E. apply byte_inj in E. contradiction.
Qed.

Lemma r_quote_b : r_quote = byte c_quote. Proof. reflexivity. Qed.
Lemma r_bslash_b : r_bslash = byte c_bslash. Proof. reflexivity. Qed.
Lemma r_slash_b : r_slash = byte c_slash. Proof. reflexivity. Qed.
Lemma r_space_b : r_space = byte c_space. Proof. reflexivity. Qed.
Lemma r_tab_b : r_tab = byte c_tab. Proof. reflexivity. Qed.
Lemma r_lf_b : r_lf = byte c_lf. Proof. reflexivity. Qed.
Lemma r_cr_b : r_cr = byte c_cr. Proof. reflexivity. Qed.

Ltac to_ascii :=
  rewrite ?r_quote_b, ?r_bslash_b, ?r_slash_b, ?r_space_b, ?r_tab_b, ?r_lf_b, ?r_cr_b, ?byte_eqb.

Lemma blank_rune_spec c : blank_rune (byte c) = true <-> is_blank c.
Proof. unfold blank_rune, is_blank. to_ascii. rewrite orb_true_iff, !Ascii.eqb_eq. tauto. Qed.

Lemma noeol_rune_spec c : noeol_rune (byte c) = true <-> ~ is_eolc c.
Proof.
  unfold noeol_rune, is_eolc. to_ascii.
  rewrite negb_true_iff, orb_false_iff, !Ascii.eqb_neq. tauto.
Qed.

Lemma nonterm_spec c : negb (is_terminating (byte c)) = true <-> ~ is_delim c.
Proof.
  unfold is_terminating, is_delim, is_blank, is_eolc. to_ascii.
  rewrite negb_true_iff, !orb_false_iff, !Ascii.eqb_neq. tauto.
Qed.

Lemma span_len_app f w r :
  Forall (fun c => f (byte c) = true) w -> ends_before (fun c => f (byte c) = false) r ->
  span_len f (w ++ r) = length w.
Proof.
  induction 1 as [|c w Hc Hw IH]; intros Hr; cbn.
  - destruct r as [|d r]; cbn in *; [reflexivity|]. rewrite Hr; reflexivity.
  - rewrite Hc, IH by assumption. reflexivity.
Qed.

Lemma span_split f s : exists w r, s = w ++ r /\ length w = span_len f s /\
  Forall (fun c => f (byte c) = true) w /\ ends_before (fun c => f (byte c) = false) r.
Proof.
  induction s as [|c s (w & r & -> & Hl & Hw & Hr)]; cbn.
  - exists [], []; cbn; auto.
  - destruct (f (byte c)) eqn:E.
    + exists (c :: w), r. cbn. rewrite Hl. auto.
    + exists [], (c :: w ++ r). cbn. auto.
Qed.

Lemma Forall_impl' {A} (P Q : A -> Prop) l : (forall a, P a <-> Q a) -> Forall P l <-> Forall Q l.
Proof. intros H; split; apply Forall_impl; intros; apply H; assumption. Qed.

Lemma ends_before_impl (P Q : ascii -> Prop) s : (forall c, P c -> Q c) -> ends_before P s -> ends_before Q s.
Proof. destruct s; cbn; auto. Qed.

(** Quoted bodies with an explicit previous byte. *)
Definition esc_after (p : N) (w : str) : Prop :=
  forall i, nth_error w i = Some c_quote ->
    match i with 0 => p = r_bslash | S j => nth_error w j = Some c_bslash end.

Lemma quotes_escaped_after w : quotes_escaped w <-> esc_after r_quote w.
Proof.
  unfold quotes_escaped, esc_after; split; intros H i Hi.
  - destruct (H i Hi) as (j & -> & Hj). exact Hj.
  - specialize (H i Hi). destruct i as [|j]; [cbv in H; discriminate|]. exists j; auto.
Qed.

Lemma esc_after_cons p c w : esc_after p (c :: w) <->
  ((byte c =? r_quote) && negb (p =? r_bslash))%N = false /\ esc_after (byte c) w.
Proof.
  unfold esc_after; split.
  - intros H; split.
    + to_ascii. destruct (Ascii.eqb_spec c c_quote) as [->|]; cbn [andb]; [|reflexivity].
      specialize (H 0 eq_refl). cbn in H. subst p. reflexivity.
    + intros i Hi. specialize (H (S i) Hi). destruct i; cbn in H.
      * injection H as ->. reflexivity.
      * exact H.
  - intros [H1 H2] [|i] Hi; cbn in Hi.
    + injection Hi as ->. rewrite r_quote_b, N.eqb_refl in H1. cbn [andb] in H1.
      apply negb_false_iff, N.eqb_eq in H1. exact H1.
    + specialize (H2 i Hi). destruct i; cbn; [f_equal; apply byte_inj; exact H2|exact H2].
Qed.

Lemma body_len_none p w : body_len p w = None <-> esc_after p w.
Proof.
  revert p; induction w as [|c w IH]; intros p; cbn [body_len].
  - split; [|reflexivity]. intros _ i Hi. destruct i; discriminate.
  - rewrite esc_after_cons, <- IH.
    destruct (_ && _); [split; [discriminate|intros [? ?]; discriminate]|].
    destruct (body_len (byte c) w); cbn; split; try discriminate; auto.
    intros [_ H]; discriminate.
Qed.

(** Previous byte after reading [w]. *)
Definition prev_of (p : N) (w : str) : N := last (map byte w) p.

Lemma prev_of_cons p c w : prev_of p (c :: w) = prev_of (byte c) w.
Proof.
  unfold prev_of. cbn [map]. destruct (map byte w) as [|x l] eqn:E; cbn; [reflexivity|].
  clear E. revert x. induction l as [|y l IH]; intros x; cbn; [reflexivity|]. apply IH.
Qed.

Lemma body_len_app p w r : esc_after p w -> prev_of p w <> r_bslash ->
  body_len p (w ++ c_quote :: r) = Some (length w).
Proof.
  revert p; induction w as [|c w IH]; intros p He Hp; cbn [app body_len length].
  - cbn in Hp. rewrite r_quote_b, N.eqb_refl. cbn [andb].
    destruct (N.eqb_spec p r_bslash); [contradiction|reflexivity].
  - apply esc_after_cons in He as [H1 H2]. rewrite H1. rewrite prev_of_cons in Hp.
    rewrite IH by assumption. reflexivity.
Qed.

Lemma body_len_some p s k : body_len p s = Some k ->
  exists w r, s = w ++ c_quote :: r /\ length w = k /\ esc_after p w /\ prev_of p w <> r_bslash.
Proof.
  revert p k; induction s as [|c s IH]; intros p k; cbn [body_len]; [discriminate|].
  destruct (_ && _) eqn:T.
  - intros [= <-]. apply andb_true_iff in T as [T1 T2].
    rewrite r_quote_b, byte_eqb in T1. apply Ascii.eqb_eq in T1; subst c.
    apply negb_true_iff, N.eqb_neq in T2.
    exists [], s. cbn. repeat split; auto. intros [|i] Hi; discriminate.
  - destruct (body_len (byte c) s) as [k'|] eqn:E; cbn; [|discriminate]. intros [= <-].
    apply IH in E as (w & r & -> & <- & H1 & H2).
    exists (c :: w), r. cbn [app length]. repeat split; auto.
    + apply esc_after_cons; auto.
    + rewrite prev_of_cons; assumption.
Qed.

Lemma prev_bslash w : prev_of r_quote w <> r_bslash <-> ~ last_is c_bslash w.
Proof.
  unfold prev_of, last_is. destruct w as [|d w'] using rev_ind.
  - cbn; split; intros _; [intros [[|? ?] H]; discriminate | discriminate].
  - clear IHw'. rewrite map_app. cbn [map]. rewrite last_last. split.
    + intros H (x & Hx). apply app_inj_tail in Hx as [_ ->]. apply H; reflexivity.
    + intros H E. apply H. exists w'. f_equal. f_equal. apply byte_inj. exact E.
Qed.

(** Every source falls into pieces. *)
Lemma lexes_exists_n n s : length s <= n -> exists ps, Lexes s ps.
Proof.
  revert s; induction n as [|n IH]; intros s Hn.
  { destruct s; [|cbn in Hn; lia]. exists []; constructor. }
  destruct s as [|c s]; [exists []; constructor|]. cbn in Hn.
  destruct (blank_rune (byte c)) eqn:Hb.
  { destruct (IH s ltac:(lia)) as [ps Hps]. eexists; apply Lx_blank; [apply blank_rune_spec|]; eassumption. }
  destruct (Ascii.eqb_spec c c_lf) as [->|Hlf].
  { destruct (IH s ltac:(lia)) as [ps Hps]. eexists; apply Lx_lf; eassumption. }
  destruct (Ascii.eqb_spec c c_cr) as [->|Hcr].
  { destruct s as [|d s]; [exists [PEol [c_cr]]; repeat constructor|].
    destruct (Ascii.eqb_spec d c_lf) as [->|Hd]; cbn in Hn.
    - destruct (IH s ltac:(lia)) as [ps Hps]. eexists; apply Lx_crlf; eassumption.
    - destruct (IH (d :: s) ltac:(cbn; lia)) as [ps Hps]. eexists; apply Lx_cr; [exact Hd|eassumption]. }
  destruct (Ascii.eqb_spec c c_quote) as [->|Hq].
  { destruct (body_len r_quote s) as [k|] eqn:E.
    - apply body_len_some in E as (w & r & -> & _ & H1 & H2).
      rewrite app_length in Hn; cbn in Hn.
      destruct (IH r ltac:(lia)) as [ps Hps].
      eexists; apply Lx_string; [apply quotes_escaped_after|apply prev_bslash|]; eassumption.
    - eexists; apply Lx_open. apply quotes_escaped_after, body_len_none; assumption. }
  destruct (Ascii.eqb_spec c c_slash) as [->|Hs];
    [destruct s as [|d s]; [|destruct (Ascii.eqb_spec d c_slash) as [->|Hd]]|].
  - eexists. apply (Lx_word c_slash [] [] []); try discriminate; cbn; auto; [|constructor].
    constructor; [|constructor]. unfold is_delim, is_blank, is_eolc. intuition discriminate.
  - destruct (span_split noeol_rune s) as (w & r & -> & _ & Hw & Hr).
    cbn in Hn. rewrite app_length in Hn. destruct (IH r ltac:(lia)) as [ps Hps].
    eexists; apply Lx_comment; [| |eassumption].
    + revert Hw; apply Forall_impl; intros a. apply noeol_rune_spec.
    + revert Hr; apply ends_before_impl; intros a Ha.
      unfold noeol_rune in Ha. apply negb_false_iff, orb_true_iff in Ha. revert Ha.
      to_ascii. rewrite !Ascii.eqb_eq. unfold is_eolc; tauto.
  - destruct (span_split (fun c => negb (is_terminating c)) (d :: s)) as (w & r & E & _ & Hw & Hr).
    rewrite E in *. rewrite app_length in Hn.
    destruct (IH r ltac:(lia)) as [ps Hps].
    eexists; apply Lx_word; [discriminate| | | |exact Hps].
    + intros w' E'. injection E' as ->. cbn in E. injection E as -> _. contradiction.
    + constructor; [unfold is_delim, is_blank, is_eolc; intuition discriminate|].
      revert Hw; apply Forall_impl; intros a. apply nonterm_spec.
    + revert Hr; apply ends_before_impl; intros a Ha.
      unfold is_terminating in Ha. apply negb_false_iff in Ha. revert Ha.
      to_ascii. rewrite !orb_true_iff, !Ascii.eqb_eq. unfold is_delim, is_eolc, is_blank; tauto.
  - destruct (span_split (fun c => negb (is_terminating c)) s) as (w & r & E & _ & Hw & Hr).
    rewrite E in *. rewrite app_length in Hn.
    destruct (IH r ltac:(lia)) as [ps Hps].
    eexists; apply Lx_word; [assumption| | | |exact Hps].
    + intros w' E'. injection E' as -> _. contradiction.
    + constructor.
      * unfold is_delim, is_eolc. rewrite <- blank_rune_spec. rewrite Hb. intuition discriminate.
      * revert Hw; apply Forall_impl; intros a. apply nonterm_spec.
    + revert Hr; apply ends_before_impl; intros a Ha.
      unfold is_terminating in Ha. apply negb_false_iff in Ha. revert Ha.
      to_ascii. rewrite !orb_true_iff, !Ascii.eqb_eq. unfold is_delim, is_eolc, is_blank; tauto.
Qed.

Lemma lexes_exists s : exists ps, Lexes s ps.
Proof. exact (lexes_exists_n (length s) s (le_n _)). Qed.

(** * Layout of pieces *)

(** Tokens and errors of the pieces that start at line [l], column [c]. *)
Fixpoint layout (l c : nat) (ps : list piece) : list token * list lexer_error :=
  match ps with
  | [] => ([], [])
  | p :: ps' =>
    let n := length (piece_text p) in
    let cons t r := (t :: fst r, snd r) in
    match p with
    | PBlank _ => layout l (c + n) ps'
    | PEol w => cons (Token w l c (c + n) TokEol) (layout (S l) 0 ps')
    | PComment w => cons (Token w l c (c + n) TokComment) (layout l (c + n) ps')
    | PString w => cons (Token (quote_str ++ unescape_quotes w ++ quote_str) l c (c + n) TokValue)
                        (layout l (c + n) ps')
    | PWord w => cons (Token w l c (c + n) TokValue) (layout l (c + n) ps')
    | POpen w => ([], [LexErr l (c + n) IncompleteString])
    end
  end.

Definition zcol (z : lexer) : nat := zi z - zlb z.

(** State between two tokens. *)
Record ready (z : lexer) : Prop := {
  rd_in : in_src z;
  rd_p : zp z = zi z;
  rd_lb : zlb z <= zi z;
  rd_li : zli z = zi z - zlb z }.

Lemma ready_skip z k : ready z -> k <= length (zrem z) -> ready (z_mark (z_inc z k)).
Proof.
  intros [H1 H2 H3 H4] Hk. rewrite zrem_length in Hk by assumption.
  unfold in_src in *. split; unfold in_src; cbn; lia.
Qed.

Lemma lexes_skip s ps : Lexes s ps -> forall l c,
  exists ps', Lexes (skipn (span_len blank_rune s) s) ps' /\
    layout l c ps = layout l (c + span_len blank_rune s) ps' /\
    ends_before (fun c => ~ is_blank c) (skipn (span_len blank_rune s) s).
Proof.
  intros H. induction H; intros l0 c0.
  2: { cbn [span_len]. rewrite (proj2 (blank_rune_spec c) H).
       destruct (IHLexes l0 (c0 + 1)) as (ps' & L & E & N). exists ps'. cbn [skipn].
       repeat split; auto. cbn [layout piece_text length]. rewrite E. f_equal. lia. }
  all: match goal with |- exists _, Lexes (skipn (span_len _ ?s) _) _ /\ layout _ _ ?ps = _ /\ _ =>
         assert (Hs : ends_before (fun c => blank_rune (byte c) = false) s) end.
  all: try (exact I || reflexivity).
  all: try (cbn; match goal with H : Forall _ (_ :: _) |- _ => inversion H; subst end;
            apply not_true_is_false; rewrite blank_rune_spec; unfold is_delim in *; tauto).
  all: match goal with Hs : ends_before _ ?s |- _ =>
         assert (Hk : span_len blank_rune s = 0)
           by (destruct s as [|x s']; [reflexivity|]; cbn in Hs |- *; rewrite Hs; reflexivity) end;
       rewrite Hk; cbn [skipn]; eexists; (split; [econstructor; eassumption|]);
       rewrite Nat.add_0_r; (split; [reflexivity|]);
       revert Hs; apply ends_before_impl; intros a Ha Hb; apply blank_rune_spec in Hb; congruence.
Qed.

(** After the blanks, the reader is chosen by the next bytes. *)
Definition starts_comment (s : str) : bool :=
  match s with
  | c :: d :: _ => Ascii.eqb c c_slash && Ascii.eqb d c_slash
  | _ => false
  end.

Lemma z_rune_at_off z n : zi z + n <= length (zsrc z) ->
  z_rune_at z (zi z + n) = Ret (decode_rune (skipn n (zrem z))).
Proof.
  intros H. unfold z_rune_at, zrem. rewrite skipn_plus.
  destruct (Nat.leb_spec (zi z + n) (length (zsrc z))); [reflexivity|lia].
Qed.

Definition dispatch (z : lexer) : res lexer :=
  match zrem z with
  | [] => Ret z
  | c :: _ =>
    if starts_comment (zrem z) then read_comment (z_fuel z) z
    else if Ascii.eqb c c_lf || Ascii.eqb c c_cr then read_eol (z_fuel z) z
    else read_value (z_fuel z) z
  end.

Lemma z_read_dispatch z : ready z ->
  z_read z = dispatch (z_mark (z_inc z (span_len blank_rune (zrem z)))).
Proof.
  intros R. set (k := span_len blank_rune (zrem z)).
  assert (Hk : k <= length (zrem z)) by apply span_len_le.
  pose proof (ready_skip z k R Hk) as R1. set (z1 := z_mark (z_inc z k)) in *.
  assert (Hread : z_read z = if zi z1 <? length (zsrc z1) then
    letr cn := z_rune_at z1 (zi z1) in
    let '(c, n) := cn in
    letr nc := (if zi z1 + n <? length (zsrc z1)
                then mapr fst (z_rune_at z1 (zi z1 + n)) else Ret 0%N) in
    if ((c =? r_slash) && (nc =? r_slash))%N then read_comment (z_fuel z1) z1
    else if ((c =? r_lf) || (c =? r_cr))%N then read_eol (z_fuel z1) z1
    else read_value (z_fuel z1) z1
  else Ret z1).
  { unfold z_read. destruct (Nat.eqb_spec (zi z) (length (zsrc z))) as [E|E].
    - assert (Hr : zrem z = []). { unfold zrem. apply skipn_all2. lia. }
      assert (Hz : z1 = z). { unfold z1, k. rewrite Hr. cbn [span_len]. rewrite z_inc_0. destruct R. destruct z; cbn in *; subst; reflexivity. }
      rewrite Hz. destruct (Nat.ltb_spec (zi z) (length (zsrc z))); [lia|reflexivity].
    - unfold read_tokens. rewrite skip_whitespace_spec.
      + reflexivity.
      + apply R.
      + apply R.
      + rewrite zrem_length by apply R. unfold z_fuel. lia. }
  rewrite Hread; clear Hread. unfold dispatch.
  destruct (zrem z1) as [|c s] eqn:E.
  - apply zrem_nil in E; [|apply R1]. destruct (Nat.ltb_spec (zi z1) (length (zsrc z1))); [lia|reflexivity].
  - pose proof (zrem_cons _ _ _ E) as Hlt.
    destruct (Nat.ltb_spec (zi z1) (length (zsrc z1))); [|lia].
    rewrite z_rune_at_rem, E by apply R1. cbn [bindr].
    assert (Hlen : length (zsrc z1) = zi z1 + length (c :: s)).
    { rewrite <- E, zrem_length by apply R1. lia. }
    destruct (decode_cases c s) as [[D Hc]|(r & n & D & Hr & Hh & Hn & Hall)]; rewrite D.
    + to_ascii. unfold starts_comment. destruct s as [|d s].
      * destruct (Nat.ltb_spec (zi z1 + 1) (length (zsrc z1))); [cbn [length] in Hlen; lia|].
        cbn [bindr]. replace (0 =? byte c_slash)%N with false by reflexivity. rewrite andb_false_r. reflexivity.
      * destruct (Nat.ltb_spec (zi z1 + 1) (length (zsrc z1))); [|cbn [length] in Hlen; lia].
        rewrite z_rune_at_off by lia. rewrite E. cbn [skipn mapr bindr].
        replace (fst (decode_rune (d :: s)) =? byte c_slash)%N with (Ascii.eqb d c_slash); [reflexivity|].
        destruct (decode_cases d s) as [[D' Hc']|(r & n & D' & Hr & Hh & Hn & Hall)]; rewrite D'; cbn [fst].
        -- symmetry; apply byte_eqb.
        -- unfold high in Hh. destruct (Ascii.eqb_spec d c_slash) as [->|]; [exfalso; apply Hh; reflexivity|].
           symmetry; apply N.eqb_neq. cbn. lia.
    + assert (Hx : c <> c_slash /\ c <> c_lf /\ c <> c_cr).
      { unfold high in Hh. repeat split; intros ->; apply Hh; reflexivity. }
      destruct Hx as (X1 & X2 & X3).
      replace (starts_comment (c :: s)) with false
        by (unfold starts_comment; destruct s; [reflexivity|]; apply Ascii.eqb_neq in X1; rewrite X1; reflexivity).
      apply Ascii.eqb_neq in X2, X3. rewrite X2, X3. cbn [orb].
      replace (r =? r_slash)%N with false by (unfold r_slash; cbn; lia).
      replace ((r =? r_lf) || (r =? r_cr))%N with false by (unfold r_lf, r_cr; cbn; lia).
      cbn [andb].
      destruct (Nat.ltb_spec (zi z1 + n) (length (zsrc z1))); [|reflexivity].
      rewrite z_rune_at_off by lia. reflexivity.
Qed.

Lemma slice_rem z a m : in_src z -> a + m <= length (zrem z) ->
  slice (zsrc z) (zi z + a) (zi z + a + m) = Ret (firstn m (skipn a (zrem z))).
Proof.
  intros H Hm. rewrite zrem_length in Hm by assumption. unfold in_src in H. unfold slice, zrem.
  replace ((zi z + a <=? zi z + a + m) && (zi z + a + m <=? length (zsrc z))) with true
    by (symmetry; apply andb_true_iff; split; apply Nat.leb_le; lia).
  rewrite skipn_plus. do 2 f_equal. lia.
Qed.

(** What one [read] from a ready state does when the next bytes are [ps]. *)
Definition read_outcome (z : lexer) (ps : list piece) (z' : lexer) : Prop :=
  ztsi z' = ztsi z /\ zsrc z' = zsrc z /\
  match ps with
  | [] => z' = z
  | POpen _ :: _ => zi z' = length (zsrc z') /\ zts z' = zts z /\
                    zdiag z' = zdiag z ++ snd (layout (zl z) (zcol z) ps)
  | _ :: ps' => exists tok,
      ready z' /\ Lexes (zrem z') ps' /\ zts z' = zts z ++ [tok] /\ zdiag z' = zdiag z /\
      layout (zl z) (zcol z) ps =
        (tok :: fst (layout (zl z') (zcol z') ps'), snd (layout (zl z') (zcol z') ps'))
  end.

(** [z_emit] of [n] bytes from a ready state. *)
Lemma emit_spec z n t : ready z -> n <= length (zrem z) ->
  exists z', z_emit (z_inc z n) t = Ret z' /\ ready z' /\ zrem z' = skipn n (zrem z) /\
    ztsi z' = ztsi z /\ zsrc z' = zsrc z /\ zdiag z' = zdiag z /\
    zts z' = zts z ++ [Token (firstn n (zrem z)) (zl z) (zcol z) (zcol z + n) t] /\
    match t with TokEol => zl z' = S (zl z) /\ zcol z' = 0 | _ => zl z' = zl z /\ zcol z' = zcol z + n end.
Proof.
  intros R Hn. pose proof (rd_p _ R) as Hp. pose proof (rd_lb _ R) as Hlb.
  pose proof (rd_in _ R) as Hin. pose proof (rd_li _ R) as Hli. unfold in_src in Hin.
  unfold z_emit. cbn [zsrc z_inc zp zi]. rewrite Hp.
  pose proof (slice_rem z 0 n Hin Hn) as Hsl. rewrite Nat.add_0_r in Hsl. rewrite Hsl. cbn [bindr skipn].
  assert (Hlen := zrem_length z Hin).
  destruct t; (eexists; split; [reflexivity|]); (split; [split; unfold in_src; cbn; lia|]);
    (split; [unfold zrem; cbn [zi zsrc z_mark z_append z_newline z_inc]; rewrite skipn_plus; reflexivity|]);
    cbn [ztsi zsrc zdiag zts zl z_mark z_append z_newline z_inc zi zp zlb]; unfold zcol;
    cbn [ztsi zsrc zdiag zts zl z_mark z_append z_newline z_inc zi zp zlb];
    rewrite ?Hp; repeat split; try lia; do 2 f_equal; f_equal; lia.
Qed.

Lemma firstn_exact {A} (w r : list A) n : n = length w -> firstn n (w ++ r) = w.
Proof. intros ->. rewrite firstn_app, Nat.sub_diag, firstn_all. cbn. apply app_nil_r. Qed.
Lemma skipn_exact {A} (w r : list A) n : n = length w -> skipn n (w ++ r) = r.
Proof. intros ->. rewrite skipn_app, skipn_all, Nat.sub_diag. reflexivity. Qed.

Lemma eolc_noeol r : ends_before is_eolc r -> ends_before (fun c => noeol_rune (byte c) = false) r.
Proof.
  apply ends_before_impl. intros c H. unfold noeol_rune, is_eolc in *. to_ascii.
  apply negb_false_iff, orb_true_iff. rewrite !Ascii.eqb_eq. tauto.
Qed.

Lemma delim_term r : ends_before is_delim r -> ends_before (fun c => negb (is_terminating (byte c)) = false) r.
Proof.
  apply ends_before_impl. intros c H. unfold is_terminating, is_delim, is_blank, is_eolc in *. to_ascii.
  apply negb_false_iff. rewrite !orb_true_iff. rewrite !Ascii.eqb_eq. tauto.
Qed.

Lemma dispatch_spec z ps : ready z -> Lexes (zrem z) ps ->
  ends_before (fun c => ~ is_blank c) (zrem z) ->
  exists z', dispatch z = Ret z' /\ read_outcome z ps z'.
Proof.
  intros R HL Hnb. pose proof (rd_in _ R) as Hin.
  assert (Hlen := zrem_length z Hin).
  remember (zrem z) as s eqn:Es.
  destruct HL as [|c r ps Hb HL|r ps HL|r ps HL|r ps Hr HL|w r ps Hw Hr HL|w r ps Hq Hl HL|w Hq|c w r ps Hc Hs Hw Hr HL];
    symmetry in Es; unfold dispatch; rewrite Es.
  - eexists; split; [reflexivity|]. split; auto.
  - exfalso. exact (Hnb Hb).
  - (* \n *)
    replace (starts_comment (c_lf :: r)) with false by (destruct r; reflexivity).
    replace (Ascii.eqb c_lf c_lf || Ascii.eqb c_lf c_cr) with true by reflexivity.
    unfold z_fuel. cbn [read_eol]. not_end z Es. rewrite z_rune_at_rem, Es by assumption.
    rewrite decode_ascii by reflexivity. cbn [bindr].
    replace (byte c_lf =? r_cr)%N with false by reflexivity.
    replace (byte c_lf =? r_lf)%N with true by reflexivity.
    destruct (emit_spec z 1 TokEol R) as (z' & E & R' & Hrem & H1 & H2 & H3 & H4 & H5 & H6).
    { rewrite Es; cbn; lia. }
    exists z'; split; [exact E|]. repeat split; auto.
    rewrite Es in Hrem, H4. cbn [skipn firstn] in Hrem, H4.
    eexists. split; [exact R'|]. rewrite Hrem. split; [exact HL|]. split; [exact H4|]. split; [assumption|].
    rewrite H5, H6. reflexivity.
  - (* \r\n *)
    replace (starts_comment (c_cr :: c_lf :: r)) with false by (destruct r; reflexivity).
    replace (Ascii.eqb c_cr c_lf || Ascii.eqb c_cr c_cr) with true by reflexivity.
    unfold z_fuel. cbn [read_eol]. not_end z Es. rewrite z_rune_at_rem, Es by assumption.
    rewrite decode_ascii by reflexivity. cbn [bindr].
    replace (byte c_cr =? r_cr)%N with true by reflexivity.
    cbn [length] in Hlen.
    destruct (Nat.ltb_spec (zi (z_inc z 1)) (length (zsrc (z_inc z 1)))) as [Hlt|Hge]; [|cbn in Hge; lia].
    rewrite z_rune_at_rem, zrem_inc, Es by (unfold in_src in *; cbn; lia). cbn [skipn].
    rewrite decode_ascii by reflexivity. cbn [bindr].
    replace (byte c_lf =? r_lf)%N with true by reflexivity. rewrite z_inc_inc.
    destruct (emit_spec z (1 + 1) TokEol R) as (z' & E & R' & Hrem & H1 & H2 & H3 & H4 & H5 & H6).
    { rewrite Es; cbn; lia. }
    exists z'; split; [exact E|]. repeat split; auto.
    rewrite Es in Hrem, H4. cbn [skipn firstn Nat.add] in Hrem, H4.
    eexists. split; [exact R'|]. rewrite Hrem. split; [exact HL|]. split; [exact H4|]. split; [assumption|].
    rewrite H5, H6. reflexivity.
  - (* lone \r *)
    replace (starts_comment (c_cr :: r)) with false by (destruct r; reflexivity).
    replace (Ascii.eqb c_cr c_lf || Ascii.eqb c_cr c_cr) with true by reflexivity.
    unfold z_fuel. cbn [read_eol]. not_end z Es. rewrite z_rune_at_rem, Es by assumption.
    rewrite decode_ascii by reflexivity. cbn [bindr].
    replace (byte c_cr =? r_cr)%N with true by reflexivity.
    cbn [length] in Hlen.
    destruct (emit_spec z 1 TokEol R) as (z' & E & R' & Hrem & H1 & H2 & H3 & H4 & H5 & H6).
    { rewrite Es; cbn; lia. }
    exists z'; split.
    + destruct (Nat.ltb_spec (zi (z_inc z 1)) (length (zsrc (z_inc z 1)))) as [Hlt|Hge]; [|exact E].
      rewrite z_rune_at_rem, zrem_inc, Es by (unfold in_src in *; cbn; lia). cbn [skipn].
      destruct r as [|d r]; [cbn in Hlen, Hlt; lia|].
      destruct (decode_cases d r) as [[D Hc]|(x & n & D & Hx & Hh & Hn & Hall)]; rewrite D; cbn [bindr].
      * rewrite r_lf_b, byte_eqb. change (d <> c_lf) in Hr. apply Ascii.eqb_neq in Hr. rewrite Hr. exact E.
      * replace (x =? r_lf)%N with false by (unfold r_lf; cbn; lia). exact E.
    + repeat split; auto.
      rewrite Es in Hrem, H4. cbn [skipn firstn Nat.add] in Hrem, H4.
      eexists. split; [exact R'|]. rewrite Hrem. split; [exact HL|]. split; [exact H4|]. split; [assumption|].
      rewrite H5, H6. reflexivity.
  - (* comment *)
    replace (starts_comment _) with true by reflexivity.
    unfold z_fuel. cbn [length] in Hlen.
    destruct (length (zsrc z)) as [|k] eqn:Hk; [unfold in_src in Hin; lia|].
    cbn [read_comment]. not_end z Es. rewrite z_rune_at_rem, Es by assumption.
    rewrite decode_ascii by reflexivity. cbn [bindr].
    replace (zi z - zp z <? 2) with true by (pose proof (rd_p _ R); lia).
    replace (byte c_slash =? r_slash)%N with true by reflexivity. cbn [negb].
    assert (Es1 : zrem (z_inc z 1) = c_slash :: w ++ r) by (rewrite zrem_inc, Es; reflexivity).
    not_end (z_inc z 1) Es1. rewrite z_rune_at_rem, Es1 by (apply in_src_inc; rewrite ?Es; cbn; auto; lia).
    rewrite decode_ascii by reflexivity. cbn [bindr].
    replace (zi (z_inc z 1) - zp (z_inc z 1) <? 2) with true by (pose proof (rd_p _ R); cbn; lia).
    replace (byte c_slash =? r_slash)%N with true by reflexivity. cbn [negb].
    rewrite z_inc_inc. cbn [Nat.add].
    assert (Es2 : zrem (z_inc z 2) = w ++ r) by (rewrite zrem_inc, Es; reflexivity).
    rewrite read_comment_spec2.
    2: apply in_src_inc; rewrite ?Es; cbn; auto; lia.
    2: cbn; pose proof (rd_p _ R); lia.
    2: rewrite Es2; lia.
    rewrite Es2, span_len_app; [|revert Hw; apply Forall_impl; intros a; apply noeol_rune_spec|apply eolc_noeol; assumption].
    rewrite z_inc_inc. unfold finish_comment. cbn [zsrc zp zi z_inc].
    rewrite (rd_p _ R), Nat.add_assoc, slice_rem by (auto; rewrite Es; cbn; rewrite app_length; lia).
    cbn [bindr]. eexists; split; [reflexivity|].
    assert (Hwl : length (w ++ r) = length w + length r) by apply app_length.
    pose proof (rd_p _ R) as Hp. pose proof (rd_lb _ R) as Hlb. pose proof (rd_li _ R) as Hli.
    split; [reflexivity|]. split; [reflexivity|].
    rewrite Es. cbn [skipn]. rewrite firstn_exact by reflexivity.
    eexists. split; [|split; [|split; [reflexivity|split; [reflexivity|]]]].
    + split; unfold in_src; cbn; lia.
    + replace (zrem _) with r; [exact HL|].
      change (r = zrem (z_inc z (2 + length w))). rewrite zrem_inc, Es. cbn. symmetry; apply skipn_exact; reflexivity.
    + cbn [layout piece_text length fst snd]. unfold zcol. cbn [zl zi zlb z_mark z_append z_inc zp]. rewrite Hp.
      replace (zi z + (2 + length w) - zlb z) with (zi z - zlb z + S (S (length w))) by lia. reflexivity.
  - (* quoted string *)
    replace (starts_comment _) with false by (destruct w; reflexivity).
    replace (Ascii.eqb c_quote c_lf || Ascii.eqb c_quote c_cr) with false by reflexivity.
    unfold read_value. rewrite z_rune_at_rem, Es by assumption.
    rewrite decode_ascii by reflexivity. cbn [bindr].
    replace (byte c_quote =? r_quote)%N with true by reflexivity.
    cbn [length] in Hlen.
    assert (Hwl : length (w ++ c_quote :: r) = length w + S (length r)) by apply app_length.
    assert (Es1 : zrem (z_inc z 1) = w ++ c_quote :: r) by (rewrite zrem_inc, Es; reflexivity).
    rewrite read_string_spec.
    2: apply in_src_inc; rewrite ?Es; cbn; auto; lia.
    2: rewrite Es1; unfold z_fuel; lia.
    rewrite Es1. change (byte c_quote) with r_quote. rewrite body_len_app.
    2: apply quotes_escaped_after; assumption.
    2: apply prev_bslash; assumption.
    rewrite z_inc_inc. unfold finish_string. cbn [zsrc zp zi z_inc].
    rewrite (rd_p _ R). replace (zi z + (1 + (length w + 1)) - 1) with (zi z + 1 + length w) by lia.
    rewrite slice_rem by (auto; rewrite Es; cbn; lia).
    cbn [bindr]. eexists; split; [reflexivity|].
    pose proof (rd_p _ R) as Hp. pose proof (rd_lb _ R) as Hlb. pose proof (rd_li _ R) as Hli.
    split; [reflexivity|]. split; [reflexivity|].
    rewrite Es. cbn [skipn]. rewrite firstn_exact by reflexivity.
    eexists. split; [|split; [|split; [reflexivity|split; [reflexivity|]]]].
    + split; unfold in_src; cbn; lia.
    + replace (zrem _) with r; [exact HL|].
      change (r = zrem (z_inc z (1 + (length w + 1)))). rewrite zrem_inc, Es. cbn [skipn Nat.add].
      replace (length w + 1) with (S (length w)) by lia.
      replace (w ++ c_quote :: r) with ((w ++ [c_quote]) ++ r) by (rewrite <- app_assoc; reflexivity).
      symmetry; apply skipn_exact. rewrite app_length; cbn; lia.
    + cbn [layout piece_text length fst snd]. unfold zcol. cbn [zl zi zlb z_mark z_append z_inc zp]. rewrite Hp.
      rewrite app_length. cbn [length].
      replace (zi z + (1 + (length w + 1)) - zlb z) with (zi z - zlb z + S (length w + 1)) by lia. reflexivity.
  - (* open string *)
    replace (starts_comment _) with false by (destruct w; reflexivity).
    replace (Ascii.eqb c_quote c_lf || Ascii.eqb c_quote c_cr) with false by reflexivity.
    unfold read_value. rewrite z_rune_at_rem, Es by assumption.
    rewrite decode_ascii by reflexivity. cbn [bindr].
    replace (byte c_quote =? r_quote)%N with true by reflexivity.
    cbn [length] in Hlen.
    assert (Es1 : zrem (z_inc z 1) = w) by (rewrite zrem_inc, Es; reflexivity).
    rewrite read_string_spec.
    2: apply in_src_inc; rewrite ?Es; cbn; auto; lia.
    2: rewrite Es1; unfold z_fuel; lia.
    rewrite Es1. change (byte c_quote) with r_quote.
    rewrite (proj2 (body_len_none r_quote w)) by (apply quotes_escaped_after; assumption).
    rewrite z_inc_inc. eexists; split; [reflexivity|].
    pose proof (rd_p _ R) as Hp. pose proof (rd_lb _ R) as Hlb. pose proof (rd_li _ R) as Hli.
    unfold in_src in Hin.
    repeat split; cbn [zi zsrc z_fail z_inc zts zdiag layout snd piece_text length zl zli]; try reflexivity; [lia|].
    rewrite Hli. reflexivity.
  - (* word *)
    replace (starts_comment (c :: w ++ r)) with false.
    2: { destruct w as [|d w]; cbn [app starts_comment].
         - destruct r as [|d r]; [reflexivity|]. cbn in Hr.
           assert (Hd : Ascii.eqb d c_slash = false).
           { apply Ascii.eqb_neq. intros ->. unfold is_delim, is_blank, is_eolc in Hr. intuition discriminate. }
           rewrite Hd, andb_false_r. reflexivity.
         - destruct (Ascii.eqb_spec c c_slash) as [->|]; [|reflexivity].
           destruct (Ascii.eqb_spec d c_slash) as [->|]; [|reflexivity].
           exfalso. apply (Hs w). reflexivity. }
    assert (Hnd : ~ is_delim c) by (inversion Hw; assumption).
    replace (Ascii.eqb c c_lf || Ascii.eqb c c_cr) with false.
    2: { symmetry. apply orb_false_iff. rewrite !Ascii.eqb_neq. unfold is_delim, is_eolc in Hnd. tauto. }
    unfold read_value. rewrite z_rune_at_rem, Es by assumption.
    assert (Hword : read_word (z_fuel z) z = z_emit (z_inc z (length (c :: w))) TokValue).
    { rewrite read_word_spec; [|assumption|unfold z_fuel; rewrite Es; lia].
      rewrite Es. change (c :: w ++ r) with ((c :: w) ++ r).
      rewrite span_len_app; [reflexivity| |apply delim_term; assumption].
      revert Hw; apply Forall_impl; intros a. apply nonterm_spec. }
    destruct (emit_spec z (length (c :: w)) TokValue R) as (z' & E & R' & Hrem & H1 & H2 & H3 & H4 & H5 & H6).
    { rewrite Es; cbn; rewrite app_length; lia. }
    exists z'; split.
    + destruct (decode_cases c (w ++ r)) as [[D Hlow]|(x & n & D & Hx & Hh & Hn & Hall)]; rewrite D; cbn [bindr].
      * rewrite r_quote_b, byte_eqb. apply Ascii.eqb_neq in Hc. rewrite Hc, Hword. exact E.
      * replace (x =? r_quote)%N with false by (unfold r_quote; cbn; lia). rewrite Hword. exact E.
    + repeat split; auto.
      rewrite Es in Hrem, H4. change (c :: w ++ r) with ((c :: w) ++ r) in Hrem, H4.
      rewrite skipn_exact in Hrem by reflexivity. rewrite firstn_exact in H4 by reflexivity.
      eexists. split; [exact R'|]. rewrite Hrem. split; [exact HL|]. split; [exact H4|]. split; [assumption|].
      rewrite H5, H6. reflexivity.
Qed.

(** * The lexer as a whole *)

(** [T] and [E] are all the tokens and errors of [z]'s source; [z] has produced a prefix. *)
Inductive lexing (T : list token) (E : list lexer_error) (z : lexer) : Prop :=
| lexing_more ps : ready z -> Lexes (zrem z) ps ->
    T = zts z ++ fst (layout (zl z) (zcol z) ps) ->
    E = zdiag z ++ snd (layout (zl z) (zcol z) ps) -> lexing T E z
| lexing_done : zi z = length (zsrc z) -> T = zts z -> E = zdiag z -> lexing T E z.

Lemma read_lexing T E z : lexing T E z ->
  exists z', z_read z = Ret z' /\ lexing T E z' /\ ztsi z' = ztsi z /\ zsrc z' = zsrc z /\
    ((exists t, zts z' = zts z ++ [t]) \/ (zts z' = zts z /\ zts z' = T /\ zdiag z' = E)).
Proof.
  intros [ps R HL HT HE | Hd HT HE].
  - rewrite z_read_dispatch by assumption.
    destruct (lexes_skip _ _ HL (zl z) (zcol z)) as (ps' & HL' & Hlay & Hnb).
    set (k := span_len blank_rune (zrem z)) in *.
    assert (Hk : k <= length (zrem z)) by apply span_len_le.
    assert (Hrem : zrem (z_mark (z_inc z k)) = skipn k (zrem z)).
    { change (zrem (z_mark (z_inc z k))) with (zrem (z_inc z k)). apply zrem_inc. }
    assert (Hcol : zcol (z_mark (z_inc z k)) = zcol z + k).
    { unfold zcol; cbn. pose proof (rd_lb _ R). lia. }
    rewrite <- Hrem in HL', Hnb.
    destruct (dispatch_spec _ _ (ready_skip z k R Hk) HL' Hnb) as (z' & Hz & Htsi & Hsrc & Hout).
    exists z'. split; [exact Hz|].
    cbn [ztsi zsrc zl zts zdiag z_mark z_inc] in Htsi, Hsrc, Hout. rewrite Hcol in Hout.
    rewrite Hlay in HT, HE.
    destruct ps' as [|p ps'].
    + subst z'. cbn in HT, HE. rewrite app_nil_r in HT, HE.
      inversion HL' as [Hnil| | | | | | | |]. symmetry in Hnil.
      split; [|split; [assumption|split; [assumption|right; auto]]].
      apply lexing_done; auto. apply zrem_nil; [apply ready_skip; assumption|assumption].
    + assert (Hgen : (exists tok,
        ready z' /\ Lexes (zrem z') ps' /\ zts z' = zts z ++ [tok] /\ zdiag z' = zdiag z /\
        layout (zl z) (zcol z + k) (p :: ps') =
        (tok :: fst (layout (zl z') (zcol z') ps'), snd (layout (zl z') (zcol z') ps'))) \/
        (zi z' = length (zsrc z') /\ zts z' = zts z /\ fst (layout (zl z) (zcol z + k) (p :: ps')) = [] /\
                    zdiag z' = zdiag z ++ snd (layout (zl z) (zcol z + k) (p :: ps')))).
      { destruct p; try (left; exact Hout). right. destruct Hout as (? & ? & ?). auto. }
      clear Hout. destruct Hgen as [(tok & R' & HL2 & H1 & H2 & H3)|(H1 & H2 & H3 & H4)].
      * rewrite H3 in HT, HE. cbn [fst snd] in HT, HE.
        split; [|split; [assumption|split; [assumption|left; eauto]]].
        apply (lexing_more _ _ _ ps'); auto.
        -- rewrite H1, <- app_assoc. exact HT.
        -- rewrite H2. exact HE.
      * rewrite H3, app_nil_r in HT.
        split; [|split; [assumption|split; [assumption|right]]].
        -- apply lexing_done; congruence.
        -- repeat split; congruence.
  - exists z. unfold z_read. rewrite Hd, Nat.eqb_refl.
    repeat split; auto. apply lexing_done; auto.
Qed.

Lemma new_lexer_ready src : ready (new_lexer src).
Proof. split; unfold in_src; cbn; lia. Qed.

Lemma new_lexer_lexing src ps : Lexes src ps ->
  lexing (fst (layout 0 0 ps)) (snd (layout 0 0 ps)) (new_lexer src).
Proof. intros H. apply (lexing_more _ _ _ ps); auto. apply new_lexer_ready. Qed.

Lemma lexing_prefix T E z : lexing T E z -> exists T', T = zts z ++ T'.
Proof. intros [ps R HL HT HE | Hd HT HE]; [eauto|]. exists []. rewrite app_nil_r. assumption. Qed.

Lemma lexing_set_tsi T E z n : lexing T E z -> lexing T E (z_set_tsi z n).
Proof.
  intros [ps R HL HT HE | Hd HT HE].
  - apply (lexing_more _ _ _ ps); auto. destruct R; split; assumption.
  - apply lexing_done; auto.
Qed.

(** * Cursor (Scan / Return / Curr) *)

(** [c = None]: nothing scanned yet.  [c = Some n]: on token [n]. *)
Definition cursor_inv (T : list token) (E : list lexer_error) (c : option nat) (z : lexer) : Prop :=
  lexing T E z /\
  match c with
  | None => ztsi z = 0 /\ zts z = []
  | Some n => ztsi z = n /\ n <= length T /\
     (n < length (zts z) \/ (n = length T /\ zts z = T /\ zdiag z = E))
  end.

Definition scan_cursor (T : list token) (c : option nat) : option nat :=
  match c with
  | None => Some 0
  | Some n => Some (Nat.min (S n) (length T))
  end.

Lemma scan_spec T E c z : cursor_inv T E c z ->
  exists z', z_scan z = Ret (z', match scan_cursor T c with Some n => n <? length T | None => false end) /\
    cursor_inv T E (scan_cursor T c) z' /\ zsrc z' = zsrc z.
Proof.
  intros [HL Hc]. unfold z_scan.
  destruct c as [n|]; cbn [scan_cursor].
  - destruct Hc as (Hn & HnT & Hcase).
    destruct Hcase as [Hlt|(HnT' & HtsT & HdE)].
    + rewrite Hn. destruct (Nat.ltb_spec n (length (zts z))) as [_|]; [|lia].
      cbn [zts ztsi z_set_tsi].
      destruct (lexing_prefix _ _ _ HL) as [T' HT'].
      assert (HlenT : length T = length (zts z) + length T') by (rewrite HT'; apply app_length).
      rewrite Nat.min_l by lia.
      destruct (Nat.eqb_spec (length (zts z)) (S n)) as [He|He].
      * destruct (read_lexing T E (z_set_tsi z (S n)) (lexing_set_tsi _ _ _ _ HL)) as (z' & Hr & HL' & Htsi & Hsrc & Hcase).
        cbn in Htsi, Hsrc, Hcase. exists z'. rewrite Hr. cbn [bindr].
        destruct (lexing_prefix _ _ _ HL') as [T2 HT2].
        assert (HlenT2 : length T = length (zts z') + length T2) by (rewrite HT2; apply app_length).
        destruct Hcase as [[t Ht]|(H1 & H2 & H3)].
        -- assert (Hl : length (zts z') = S (S n)) by (rewrite Ht, app_length; cbn; lia).
           rewrite Htsi. destruct (Nat.ltb_spec (S n) (length (zts z'))); [|lia].
           destruct (Nat.ltb_spec (S n) (length T)); [|lia].
           repeat split; auto; try lia.
        -- assert (Hl : length T = S n) by (rewrite <- H2, H1; lia).
           rewrite Htsi. rewrite H2, Hl.
           repeat split; auto; try lia.
      * cbn [bindr ztsi zts z_set_tsi]. eexists. split; [|split; [|]].
        -- destruct (Nat.ltb_spec (S n) (length (zts z))), (Nat.ltb_spec (S n) (length T)); try lia. reflexivity.
        -- split; [apply lexing_set_tsi; assumption|]. cbn. repeat split; lia.
        -- reflexivity.
    + rewrite Hn, HtsT. destruct (Nat.ltb_spec n (length T)) as [|_]; [lia|].
      rewrite Hn, HtsT, HnT', Nat.eqb_refl.
      destruct (read_lexing T E z HL) as (z' & Hr & HL' & Htsi & Hsrc & Hcase).
      exists z'. rewrite Hr. cbn [bindr]. rewrite Nat.min_r by lia.
      destruct (lexing_prefix _ _ _ HL') as [T2 HT2].
      assert (HlenT2 : length T = length (zts z') + length T2) by (rewrite HT2; apply app_length).
      destruct Hcase as [[t Ht]|(H1 & H2 & H3)].
      * exfalso. rewrite Ht, app_length, HtsT in HlenT2. cbn in HlenT2. lia.
      * rewrite Htsi, H2, Hn, HnT'. split; [reflexivity|]. split; [|assumption].
        split; [assumption|]. repeat split; auto; try lia.
  - destruct Hc as [Ht Hts]. rewrite Ht, Hts. cbn [length Nat.ltb Nat.leb]. rewrite Hts, Ht. cbn [length Nat.eqb].
    destruct (read_lexing T E z HL) as (z' & Hr & HL' & Htsi & Hsrc & Hcase).
    exists z'. rewrite Hr. cbn [bindr].
    destruct (lexing_prefix _ _ _ HL') as [T2 HT2].
    assert (HlenT2 : length T = length (zts z') + length T2) by (rewrite HT2; apply app_length).
    destruct Hcase as [[t Htt]|(H1 & H2 & H3)].
    + rewrite Htsi, Ht. assert (Hl : length (zts z') = 1) by (rewrite Htt, Hts; reflexivity).
      rewrite Hl. split; [destruct (length T); [lia|reflexivity]|]. split; [|assumption]. split; [assumption|].
      repeat split; try lia; congruence.
    + rewrite Htsi, Ht, H2. split; [reflexivity|]. split; [|assumption]. split; [assumption|].
      assert (T = []) by congruence. split; [congruence|]. split; [lia|]. right. split; [rewrite H; reflexivity|]. auto.
Qed.

Lemma return_spec T E c z : cursor_inv T E c z ->
  z_return z = (fst (z_return z), match c with Some (S _) => true | _ => false end) /\
  cursor_inv T E (match c with Some (S n) => Some n | c => c end) (fst (z_return z)) /\
  zsrc (fst (z_return z)) = zsrc z.
Proof.
  intros [HL Hc]. unfold z_return. destruct c as [[|n]|].
  - destruct Hc as (Hn & ?). rewrite Hn. cbn. repeat split; auto; tauto.
  - destruct Hc as (Hn & Hle & Hcase). rewrite Hn. cbn. split; [reflexivity|]. split; [|reflexivity].
    split; [apply lexing_set_tsi; assumption|]. cbn. split; [reflexivity|]. split; [lia|].
    destruct Hcase as [?|(Hcase1 & Hcase2 & _)]; [left; lia|]. left. rewrite Hcase2. lia.
  - destruct Hc as [Ht Hts]. rewrite Ht. cbn. repeat split; auto.
Qed.

Lemma curr_spec T E c z : cursor_inv T E c z ->
  z_curr z = Ret (match c with Some n => nth_error T n | None => None end).
Proof.
  intros [HL Hc]. unfold z_curr. destruct c as [n|].
  - destruct Hc as (Hn & Hle & Hcase). rewrite Hn.
    destruct (lexing_prefix _ _ _ HL) as [T' HT'].
    destruct Hcase as [Hlt|(H1 & H2 & _)].
    + destruct (Nat.eqb_spec (length (zts z)) n); [lia|]. unfold index.
      rewrite HT', nth_error_app1 by assumption.
      destruct (nth_error (zts z) n) eqn:En; [reflexivity|]. apply nth_error_None in En. lia.
    + rewrite H2, H1, Nat.eqb_refl. unfold zero_token. f_equal. symmetry. apply nth_error_None. lia.
  - destruct Hc as [Ht Hts]. rewrite Ht, Hts. reflexivity.
Qed.

Lemma new_cursor src ps : Lexes src ps ->
  cursor_inv (fst (layout 0 0 ps)) (snd (layout 0 0 ps)) None (new_lexer src).
Proof. intros H. split; [apply new_lexer_lexing; assumption|]. split; reflexivity. Qed.

(** * Scanning to the end *)

Lemma firstn_S_nth {A} n (l : list A) x : nth_error l n = Some x -> firstn (S n) l = firstn n l ++ [x].
Proof. revert l; induction n as [|n IH]; intros [|y l] H; cbn in *; try discriminate; [congruence|]. f_equal. apply IH; assumption. Qed.

Lemma scan_all_from T E n z fuel acc : cursor_inv T E (Some n) z ->
  length T - n < fuel -> acc = firstn (S n) T ->
  exists z', scan_all fuel z acc = Ret (z', T) /\ zdiag z' = E /\ zts z' = T.
Proof.
  revert n z acc; induction fuel as [|fuel IH]; intros n z acc Hc Hf Hacc; [lia|].
  cbn [scan_all]. destruct (scan_spec _ _ _ _ Hc) as (z' & Hs & Hc' & Hsrc). rewrite Hs. cbn [bindr scan_cursor] in *.
  destruct (Nat.ltb_spec (Nat.min (S n) (length T)) (length T)) as [Hlt|Hge].
  - rewrite Nat.min_l in * by lia. rewrite (curr_spec _ _ _ _ Hc'). cbn [bindr].
    destruct (nth_error T (S n)) as [t|] eqn:En; [|apply nth_error_None in En; lia].
    apply (IH (S n)); [assumption|lia|]. rewrite (firstn_S_nth _ _ _ En). congruence.
  - exists z'. destruct Hc' as [HL' Hcc]. rewrite Nat.min_r in Hcc by lia.
    destruct Hcc as (H1 & H2 & Hcase).
    destruct (lexing_prefix _ _ _ HL') as [T' HT'].
    assert (HlenT : length T = length (zts z') + length T') by (rewrite HT'; apply app_length).
    destruct Hcase as [?|(_ & H3 & H4)]; [lia|].
    split; [|auto]. rewrite Hacc. rewrite firstn_all2 by lia. reflexivity.
Qed.

Lemma layout_length ps : forall l c s, Lexes s ps -> length (fst (layout l c ps)) <= length s.
Proof.
  intros l c s H. revert l c. induction H; intros l0 c0; cbn [layout fst length piece_text]; rewrite ?app_length; cbn [length];
    try (match goal with |- context [layout ?a ?b ps] => specialize (IHLexes a b) end); lia.
Qed.

Lemma scan_all_none T E z fuel : cursor_inv T E None z -> length T < fuel -> 0 < fuel ->
  exists z', scan_all (S fuel) z [] = Ret (z', T) /\ zdiag z' = E /\ zts z' = T.
Proof.
  intros Hc Hf Hf0. cbn [scan_all].
  destruct (scan_spec _ _ _ _ Hc) as (z' & Hs & Hc' & Hsrc). rewrite Hs. cbn [bindr scan_cursor] in *.
  destruct (Nat.ltb_spec 0 (length T)) as [Hlt|Hge].
  - rewrite (curr_spec _ _ _ _ Hc'). cbn [bindr].
    destruct (nth_error T 0) as [t|] eqn:En; [|apply nth_error_None in En; lia].
    apply (scan_all_from T E 0); [assumption|lia|]. rewrite (firstn_S_nth _ _ _ En). reflexivity.
  - exists z'. destruct T; [|cbn in Hge; lia]. destruct Hc' as [HL' (H1 & H2 & Hcase)].
    destruct (lexing_prefix _ _ _ HL') as [T' HT']. symmetry in HT'. apply app_eq_nil in HT' as [Hz _].
    destruct Hcase as [?|(_ & H3 & H4)]; [rewrite Hz in *; cbn in *; lia|]. auto.
Qed.

Lemma scan_all_fuel fuel z acc r : scan_all fuel z acc = Ret r -> scan_all (S fuel) z acc = Ret r.
Proof.
  revert z acc; induction fuel as [|fuel IH]; intros z acc H; [discriminate|].
  cbn [scan_all] in H. cbn [scan_all]. destruct (z_scan z) as [[z' ok]| |]; cbn [bindr] in *; try discriminate.
  destruct ok; [|assumption]. destruct (z_curr z') as [[t|]| |]; cbn [bindr] in *; try discriminate.
  apply IH in H. cbn [scan_all] in H. exact H.
Qed.

Lemma tokenize_spec src ps : Lexes src ps -> tokenize src = Ret (layout 0 0 ps).
Proof.
  intros H. unfold tokenize.
  destruct (scan_all_none _ _ _ (S (length src)) (new_cursor src ps H)) as (z' & Hs & Hd & Ht).
  - pose proof (layout_length ps 0 0 src H). lia.
  - lia.
  - rewrite Hs. cbn. rewrite Hd. rewrite <- surjective_pairing. reflexivity.
Qed.
