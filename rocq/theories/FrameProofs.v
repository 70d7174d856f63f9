From Verif Require Import Base Strconv Literals LiteralsProofs Codec CodecProofs Query Lsp Dbg Frame FrameSpec.

(* ------------------------------------------------------------------------------------------ *)
(* characters *)

Lemma byte_of c d : byte c = byte d -> c = d.
Proof.
  unfold byte. intros E. rewrite <- (ascii_N_embedding c), <- (ascii_N_embedding d), E. reflexivity.
Qed.
Lemma byte_small c : (byte c < 256)%N.
Proof. unfold byte. apply N_ascii_bounded. Qed.
Lemma byte_ascii n : (n < 256)%N -> byte (ascii_of_N n) = n.
Proof. intros H. unfold byte. apply N_ascii_embedding. exact H. Qed.
Lemma ascii_byte c : ascii_of_N (byte c) = c.
Proof. apply ascii_N_embedding. Qed.
Lemma eqb_byte c d : Ascii.eqb c d = (byte c =? byte d)%N.
Proof.
  destruct (Ascii.eqb_spec c d) as [->|N]; [symmetry; apply N.eqb_refl|].
  symmetry. apply N.eqb_neq. intros E. apply N. apply byte_of. exact E.
Qed.

Lemma visible_not_blank c : visible c -> blank c = false.
Proof.
  intros [A _]. unfold blank. rewrite !eqb_byte. change (byte " ") with 32%N. change (byte c_ht) with 9%N.
  destruct (N.eqb_spec (byte c) 32); [lia|]. destruct (N.eqb_spec (byte c) 9); [lia|]. reflexivity.
Qed.
Lemma visible_not_lf c : visible c -> c <> c_lf.
Proof. intros [A _] ->. change (byte c_lf) with 10%N in A. lia. Qed.

Lemma name_punct c : In c (bs "!#$%&'*+-.^_`|~") -> (33 <= byte c <= 126)%N /\ byte c <> 58%N.
Proof.
  cbn. intros I. repeat (destruct I as [<-|I]; [cbv; split; [split|]; congruence|]). destruct I.
Qed.
Lemma name_visible c : name_char c -> visible c /\ c <> ":"%char.
Proof.
  intros [H|H].
  - split; [split; lia|]. intros ->. change (byte ":") with 58%N in H. lia.
  - apply name_punct in H as [A B]. split; [split; lia|]. intros ->. apply B. reflexivity.
Qed.
Lemma field_byte_name c : field_byte c = true <-> name_char c.
Proof.
  unfold field_byte, name_char, in_chars.
  change (byte "a") with 97%N. change (byte "z") with 122%N. change (byte "A") with 65%N.
  change (byte "Z") with 90%N. change (byte "0") with 48%N. change (byte "9") with 57%N.
  rewrite !Bool.orb_true_iff, !Bool.andb_true_iff, !N.leb_le, existsb_exists. split.
  - intros [[[H|H]|H]|[x [I E]]]; [left; lia..|]. right. apply Ascii.eqb_eq in E. subst. exact I.
  - intros [H|I]; [|right; exists c; split; [exact I|apply Ascii.eqb_refl]]. left. lia.
Qed.
Lemma digit_visible c : is_digit c -> visible c.
Proof. intros [d [A E]]. split; lia. Qed.

(* ------------------------------------------------------------------------------------------ *)
(* names up to case *)

Lemma upper_byte c : byte (upper_char c) = (if (97 <=? byte c) && (byte c <=? 122) then byte c - 32 else byte c)%N.
Proof.
  unfold upper_char, in_chars. change (byte "a") with 97%N. change (byte "z") with 122%N.
  destruct (N.leb_spec 97 (byte c)), (N.leb_spec (byte c) 122); cbn [andb]; try reflexivity.
  apply byte_ascii. lia.
Qed.
Lemma lower_byte c : byte (lower_char c) = (if (65 <=? byte c) && (byte c <=? 90) then byte c + 32 else byte c)%N.
Proof.
  unfold lower_char, in_chars. change (byte "A") with 65%N. change (byte "Z") with 90%N.
  destruct (N.leb_spec 65 (byte c)), (N.leb_spec (byte c) 90); cbn [andb]; try reflexivity.
  apply byte_ascii. lia.
Qed.

Ltac cases_leb :=
  repeat match goal with
  | |- context [(?a <=? ?b)%N] => destruct (N.leb_spec a b); cbn [andb]
  end.

Lemma same_char_upper c d : same_char c d <-> upper_char c = upper_char d.
Proof.
  split.
  - intros H. apply byte_of. rewrite !upper_byte. destruct H as [->|[H|H]]; [reflexivity|..]; cases_leb; lia.
  - intros E. apply (f_equal byte) in E. rewrite !upper_byte in E. unfold same_char.
    destruct (N.eq_dec (byte c) (byte d)) as [F|F]; [left; apply byte_of; exact F|right]. revert E. cases_leb; lia.
Qed.
Lemma same_char_lower c d : same_char c d <-> lower_char c = lower_char d.
Proof.
  split.
  - intros H. apply byte_of. rewrite !lower_byte. destruct H as [->|[H|H]]; [reflexivity|..]; cases_leb; lia.
  - intros E. apply (f_equal byte) in E. rewrite !lower_byte in E. unfold same_char.
    destruct (N.eq_dec (byte c) (byte d)) as [F|F]; [left; apply byte_of; exact F|right]. revert E. cases_leb; lia.
Qed.
Lemma same_char_dash c d : same_char c d -> Ascii.eqb c "-" = Ascii.eqb d "-".
Proof.
  intros H. rewrite !eqb_byte. change (byte "-") with 45%N.
  destruct H as [->|[H|H]]; [reflexivity|..]; destruct (N.eqb_spec (byte c) 45), (N.eqb_spec (byte d) 45); lia.
Qed.
Lemma same_char_name c d : same_char c d -> name_char c -> name_char d.
Proof. intros [->|[H|H]] N; [exact N|left; lia|left; lia]. Qed.
Lemma same_char_sym c d : same_char c d -> same_char d c.
Proof. unfold same_char. intros [->|[H|H]]; [left; reflexivity|right; right; lia|right; left; lia]. Qed.

Lemma canon_same a : forall up b, canon up a = canon up b <-> same_name a b.
Proof.
  induction a as [|c a IH]; intros up [|d b].
  - split; [constructor|reflexivity].
  - split; [discriminate|intros H; inversion H].
  - split; [discriminate|intros H; inversion H].
  - cbn [canon]. split.
    + intros E. injection E as E F.
      assert (S : same_char c d) by (destruct up; [apply same_char_upper|apply same_char_lower]; exact E).
      constructor; [exact S|]. rewrite (same_char_dash c d S) in F. apply IH in F. exact F.
    + intros H. inversion H as [|? ? ? ? S F]; subst. f_equal.
      * destruct up; [apply same_char_upper|apply same_char_lower]; exact S.
      * rewrite (same_char_dash c d S). apply IH. exact F.
Qed.

Lemma canonical_name k : Forall name_char k -> canonical k = canon true k.
Proof.
  intros H. unfold canonical. replace (forallb field_byte k) with true; [reflexivity|].
  symmetry. apply forallb_forall. intros c I. apply field_byte_name. rewrite Forall_forall in H. apply H. exact I.
Qed.
Lemma same_names k l : same_name k l -> Forall name_char k -> Forall name_char l.
Proof.
  induction 1 as [|c d a b S F IH]; intros N; [constructor|]. inversion N; subst.
  constructor; [eapply same_char_name; eassumption|auto].
Qed.
Lemma same_name_sym k l : same_name k l -> same_name l k.
Proof. induction 1; constructor; auto using same_char_sym. Qed.
Lemma length_name_chars : Forall name_char (bs "Content-Length").
Proof.
  apply Forall_forall. intros c I. apply field_byte_name.
  assert (A : forallb field_byte (bs "Content-Length") = true) by reflexivity.
  rewrite forallb_forall in A. apply A. exact I.
Qed.
Lemma length_name n : is_length n -> n <> [] /\ Forall name_char n /\ canonical n = bs "Content-Length".
Proof.
  intros H. assert (N : Forall name_char n).
  { apply (same_names (bs "Content-Length")); [apply same_name_sym; exact H|apply length_name_chars]. }
  split; [intros ->; inversion H|]. split; [exact N|].
  rewrite (canonical_name n N). change (bs "Content-Length") with (canon true (bs "Content-Length")).
  apply canon_same. exact H.
Qed.
Lemma not_length_name n : Forall name_char n -> ~ is_length n -> canonical n <> bs "Content-Length".
Proof.
  intros N H E. apply H. rewrite (canonical_name n N) in E.
  change (bs "Content-Length") with (canon true (bs "Content-Length")) in E. apply canon_same in E. exact E.
Qed.

(* ------------------------------------------------------------------------------------------ *)
(* lines *)

Lemma cut_app x a b : ~ In x a -> cut x (a ++ x :: b) = Some (a, b).
Proof.
  induction a as [|c a IH]; intros N; cbn [app cut].
  - rewrite Ascii.eqb_refl. reflexivity.
  - destruct (Ascii.eqb_spec c x) as [->|E]; [exfalso; apply N; left; reflexivity|].
    rewrite IH; [reflexivity|]. intros I. apply N. right. exact I.
Qed.
Lemma cut_some x s a b : cut x s = Some (a, b) -> s = a ++ x :: b /\ ~ In x a.
Proof.
  revert a b. induction s as [|c s IH]; intros a b E; [discriminate|]. cbn [cut] in E.
  destruct (Ascii.eqb_spec c x) as [->|N].
  - injection E as <- <-. split; [reflexivity|intros []].
  - destruct (cut x s) as [[a' b']|]; [|discriminate]. injection E as <- <-.
    destruct (IH a' b' eq_refl) as [-> H]. split; [reflexivity|]. intros [E|I]; [apply N; exact E|apply H; exact I].
Qed.
Lemma drop_cr_end l : drop_cr (l ++ [c_cr]) = l.
Proof.
  induction l as [|c l IH]; [reflexivity|].
  change ((c :: l) ++ [c_cr]) with (c :: (l ++ [c_cr])).
  destruct (l ++ [c_cr]) as [|d r] eqn:E; [destruct l; discriminate|].
  change (drop_cr (c :: d :: r)) with (c :: drop_cr (d :: r)). rewrite IH. reflexivity.
Qed.
Lemma read_line_crlf l r : ~ In c_lf l -> read_line (l ++ crlf ++ r) = Some (l, r).
Proof.
  intros N. unfold read_line. destruct (l ++ crlf ++ r) as [|c s] eqn:E; [destruct l; discriminate|]. rewrite <- E.
  change (crlf ++ r) with (c_cr :: c_lf :: r). replace (l ++ c_cr :: c_lf :: r) with ((l ++ [c_cr]) ++ c_lf :: r)
    by (rewrite <- app_assoc; reflexivity).
  rewrite cut_app.
  - rewrite drop_cr_end. reflexivity.
  - rewrite in_app_iff. intros [I|[I|[]]]; [apply N; exact I|discriminate].
Qed.

Lemma trim_left_id c s : blank c = false -> trim_left (c :: s) = c :: s.
Proof. intros H. cbn [trim_left]. rewrite H. reflexivity. Qed.
Lemma trim_ends c m d : blank c = false -> blank d = false -> trim (c :: m ++ [d]) = c :: m ++ [d].
Proof.
  intros A B. unfold trim. rewrite (trim_left_id c _ A).
  replace (rev (c :: m ++ [d])) with (d :: rev (c :: m)) by (cbn [rev]; rewrite rev_app_distr; reflexivity).
  rewrite (trim_left_id d _ B). change (rev (d :: rev (c :: m))) with (rev (rev (c :: m)) ++ [d]).
  rewrite rev_involutive. reflexivity.
Qed.
Lemma trim_blank_end c m d : blank c = false -> blank d = false -> trim (c :: m ++ [d; " "%char]) = c :: m ++ [d].
Proof.
  intros A B. unfold trim. rewrite (trim_left_id c _ A).
  replace (rev (c :: m ++ [d; " "%char])) with (" "%char :: d :: rev (c :: m))
    by (cbn [rev]; rewrite rev_app_distr; reflexivity).
  change (trim_left (" "%char :: d :: rev (c :: m))) with (trim_left (d :: rev (c :: m))).
  rewrite (trim_left_id d _ B). change (rev (d :: rev (c :: m))) with (rev (rev (c :: m)) ++ [d]).
  rewrite rev_involutive. reflexivity.
Qed.

(* a value is empty, or its ends are visible *)
Lemma value_ends v : field_value v -> v = [] \/
  (exists c m, v = c :: m /\ visible c) /\ (exists m d, v = m ++ [d] /\ visible d).
Proof.
  intros [|c V|c d m V W M]; [left; reflexivity|right|right].
  - split; [exists c, []; auto|exists [], c; auto].
  - split; [exists c, (m ++ [d]); auto|exists (c :: m), d; auto].
Qed.
Lemma value_no_lf v : field_value v -> ~ In c_lf v.
Proof.
  intros [|c V|c d m V W M].
  - intros [].
  - intros [E|[]]. apply (visible_not_lf c V). exact E.
  - intros [E|I]; [apply (visible_not_lf c V); exact E|]. apply in_app_iff in I as [I|[E|[]]].
    + rewrite Forall_forall in M. destruct (M _ I) as [X|X]; [apply (visible_not_lf _ X); reflexivity|discriminate].
    + apply (visible_not_lf d W). exact E.
Qed.

Record plain_field (f : str * str) : Prop := Plain {
  pf_name : fst f <> []; pf_chars : Forall name_char (fst f); pf_value : field_value (snd f) }.

Lemma name_first n : n <> [] -> Forall name_char n -> exists c m, n = c :: m /\ blank c = false.
Proof.
  intros N H. destruct n as [|c m]; [congruence|]. exists c, m. split; [reflexivity|].
  inversion H; subst. apply visible_not_blank. apply name_visible. assumption.
Qed.

(* one line of a header *)
Lemma field_line n v : n <> [] -> Forall name_char n -> field_value v ->
  exists l w, trim (n ++ bs ": " ++ v) = l /\ cut ":" l = Some (n, w) /\ trim_left w = v.
Proof.
  intros N H V. destruct (name_first n N H) as [c [m [-> B]]].
  assert (C : ~ In ":"%char (c :: m)).
  { intros I. rewrite Forall_forall in H. apply H in I. apply name_visible in I as [_ I]. congruence. }
  destruct (value_ends v V) as [->|[[x [y [E X]]] [y' [d [F D]]]]].
  - exists ((c :: m) ++ [":"%char]), []. split; [|split; [apply cut_app; exact C|reflexivity]].
    rewrite app_nil_r. change (bs ": ") with [":"%char; " "%char].
    change ((c :: m) ++ [":"%char; " "%char]) with (c :: m ++ [":"%char; " "%char]).
    apply (trim_blank_end c m ":"%char B). reflexivity.
  - exists ((c :: m) ++ ":"%char :: " "%char :: v), (" "%char :: v). split; [|split; [apply cut_app; exact C|]].
    + change (bs ": ") with [":"%char; " "%char]. rewrite F.
      replace ((c :: m) ++ [":"%char; " "%char] ++ y' ++ [d]) with (c :: (m ++ ":"%char :: " "%char :: y') ++ [d])
        by (cbn [app]; rewrite <- app_assoc; reflexivity).
      replace ((c :: m) ++ ":"%char :: " "%char :: y' ++ [d]) with (c :: (m ++ ":"%char :: " "%char :: y') ++ [d])
        by (cbn [app]; rewrite <- app_assoc; reflexivity).
      apply trim_ends; [exact B|apply visible_not_blank; exact D].
    + rewrite E. cbn [trim_left]. change (blank " ") with true. cbv iota.
      apply trim_left_id. apply visible_not_blank. exact X.
Qed.

Lemma continued_stop f acc c s : blank c = false -> continued f acc (c :: s) = (acc, c :: s).
Proof. intros B. destruct f; [reflexivity|]. cbn [continued]. rewrite B. reflexivity. Qed.

Lemma fields_start fs rest : Forall plain_field fs ->
  exists c s, concat (map field_text fs) ++ crlf ++ rest = c :: s /\ blank c = false.
Proof.
  intros [|f l P _].
  - exists c_cr, (c_lf :: rest). split; reflexivity.
  - destruct P as [N H V]. destruct (name_first _ N H) as [c [m [E B]]].
    exists c. eexists. split; [|exact B]. cbn [map concat]. unfold field_text at 1. rewrite E. cbn [app]. reflexivity.
Qed.

Lemma canonical_nonempty k : k <> [] -> canonical k <> [].
Proof. unfold canonical. destruct k; [congruence|]. destruct (forallb _ _); cbn; congruence. Qed.

Lemma fields_read fs : forall fuel acc rest, Forall plain_field fs -> length fs < fuel ->
  read_fields fuel (concat (map field_text fs) ++ crlf ++ rest) acc =
  Ret (Header (acc ++ map (fun f => (canonical (fst f), snd f)) fs), rest).
Proof.
  induction fs as [|[n v] fs IH]; intros [|fuel] acc rest P L; cbn [length] in L; try lia.
  - cbn [map concat app]. cbn [read_fields]. change (crlf ++ rest) with ([] ++ crlf ++ rest).
    rewrite read_line_crlf by (intros []). rewrite app_nil_r. reflexivity.
  - inversion P as [|? ? [N H V] Q]; subst. cbn [fst snd] in *.
    destruct (field_line n v N H V) as [l [w [E [C W]]]].
    cbn [map concat]. unfold field_text at 1. cbn [fst snd]. rewrite <- !app_assoc.
    replace (n ++ bs ": " ++ v ++ crlf ++ concat (map field_text fs) ++ crlf ++ rest) with
      ((n ++ bs ": " ++ v) ++ crlf ++ concat (map field_text fs) ++ crlf ++ rest) by (rewrite <- !app_assoc; reflexivity).
    cbn [read_fields]. rewrite read_line_crlf.
    + destruct (n ++ bs ": " ++ v) as [|c0 s0] eqn:E0; [destruct n; discriminate|]. rewrite <- E0 in *.
      assert (C0 : cut ":" (n ++ bs ": " ++ v) = Some (n, bs " " ++ v)).
      { change (bs ": " ++ v) with (":"%char :: bs " " ++ v). apply cut_app.
        intros I. rewrite Forall_forall in H. apply H in I. apply name_visible in I as [_ I]. congruence. }
      rewrite C0. destruct (fields_start fs rest Q) as [c [s [S B]]]. rewrite S, (continued_stop _ _ c s B), E, C, W, <- S.
      destruct (canonical n) as [|k0 k] eqn:K; [exfalso; apply (canonical_nonempty n N); exact K|]. rewrite <- K.
      rewrite IH; [|exact Q|lia]. rewrite <- app_assoc. reflexivity.
    + intros I. apply in_app_iff in I as [I|I].
      * rewrite Forall_forall in H. apply H in I. apply name_visible in I as [I _]. apply (visible_not_lf _ I). reflexivity.
      * apply in_app_iff in I as [I|I]; [|apply (value_no_lf v V); exact I]. cbn in I. destruct I as [I|[I|[]]]; discriminate.
Qed.

Lemma header_read fs rest : Forall plain_field fs ->
  read_header (concat (map field_text fs) ++ crlf ++ rest) =
  Ret (Header (map (fun f => (canonical (fst f), snd f)) fs), rest).
Proof.
  intros P. destruct (fields_start fs rest P) as [c [s [S B]]]. unfold read_header. rewrite S, B, <- S.
  rewrite fields_read; [reflexivity|exact P|].
  assert (A : forall l : list (str * str), length l <= length (concat (map field_text l))).
  { induction l as [|x l IH]; [cbn; lia|]. cbn [map concat length]. rewrite app_length. unfold field_text at 1.
    rewrite !app_length. cbn [crlf length bs list_ascii_of_string]. lia. }
  specialize (A fs). rewrite !app_length. lia.
Qed.

(* ------------------------------------------------------------------------------------------ *)
(* the length *)

Lemma visible_value v : Forall visible v -> field_value v.
Proof.
  intros H. destruct v as [|c v]; [constructor|]. inversion H as [|? ? A B]; subst.
  destruct (rev v) as [|d r] eqn:E.
  - apply (f_equal (@rev ascii)) in E. rewrite rev_involutive in E. subst. constructor. exact A.
  - apply (f_equal (@rev ascii)) in E. rewrite rev_involutive in E. cbn [rev] in E. subst.
    apply Forall_app in B as [B D]. inversion D; subst. constructor; [assumption..|].
    eapply Forall_impl; [|exact B]. cbn. auto.
Qed.

Lemma atoi_numeral v n : is_numeral v n -> (n < 2 ^ 63)%N -> atoi v = Some (Z.of_N n).
Proof.
  intros [N [D E]] L. unfold atoi, parse_int. destruct v as [|c r]; [congruence|].
  inversion D as [|? ? [d [A B]] _]; subst.
  assert (X : Ascii.eqb c "-" = false /\ Ascii.eqb c "+" = false).
  { rewrite !eqb_byte. change (byte "-") with 45%N. change (byte "+") with 43%N.
    split; apply N.eqb_neq; lia. }
  destruct X as [X Y]. rewrite X, Y. cbn [orb].
  assert (P : parse_uint (c :: r) 10 64 = Some (decimal 0 (c :: r))).
  { unfold parse_uint. change (10 =? 0)%N with false. cbv iota beta.
    assert (V : digits_val false 10 0 (c :: r) = Some (decimal 0 (c :: r))) by (apply digits_val_ten; auto).
    rewrite V. destruct (N.leb_spec (2 ^ 64) (decimal 0 (c :: r))).
    - exfalso. change (2 ^ 64)%N with 18446744073709551616%N in *. change (2 ^ 63)%N with 9223372036854775808%N in *. lia.
    - reflexivity. }
  rewrite P. change (2 ^ (64 - 1))%N with (2 ^ 63)%N. destruct (N.leb_spec (2 ^ 63) (decimal 0 (c :: r))); [lia|reflexivity].
Qed.

(* ------------------------------------------------------------------------------------------ *)
(* one message *)

Lemma ok_plain f : field_ok f -> plain_field f.
Proof. intros [A [B [C _]]]. constructor; assumption. Qed.
Lemma oks_plain fs : Forall field_ok fs -> Forall plain_field fs.
Proof. intros H. eapply Forall_impl; [|exact H]. exact ok_plain. Qed.
Lemma length_plain n v k : is_length n -> is_numeral v k -> plain_field (n, v).
Proof.
  intros L [_ [D _]]. apply length_name in L as [A [B _]]. constructor; [exact A|exact B|].
  apply visible_value. eapply Forall_impl; [|exact D]. exact digit_visible.
Qed.

Lemma get_skips fs gs : Forall field_ok fs ->
  get_field (bs "Content-Length") (map (fun f => (canonical (fst f), snd f)) fs ++ gs) =
  get_field (bs "Content-Length") gs.
Proof.
  induction 1 as [|f fs [_ [C [_ L]]] _ IH]; [reflexivity|]. cbn [map app]. unfold get_field in *. cbn [find fst].
  change (canonical (bs "Content-Length")) with (bs "Content-Length") in *.
  destruct (seqb_spec (canonical (fst f)) (bs "Content-Length")) as [E|E]; [|exact IH].
  exfalso. apply (not_length_name (fst f) C L E).
Qed.

Lemma header_text fs n v gs rest :
  concat (map field_text fs) ++ field_text (n, v) ++ concat (map field_text gs) ++ crlf ++ rest =
  concat (map field_text (fs ++ (n, v) :: gs)) ++ crlf ++ rest.
Proof. rewrite map_app, concat_app. cbn [map concat]. rewrite <- !app_assoc. reflexivity. Qed.

Lemma length_read fs n v gs k : Forall field_ok fs -> is_length n -> is_numeral v k ->
  get_field (bs "Content-Length") (map (fun f => (canonical (fst f), snd f)) (fs ++ (n, v) :: gs)) = v.
Proof.
  intros F L V. rewrite map_app, (get_skips fs _ F). cbn [map fst snd]. unfold get_field. cbn [find fst].
  apply length_name in L as [_ [_ E]]. change (canonical (bs "Content-Length")) with (bs "Content-Length").
  rewrite E, seqb_refl. reflexivity.
Qed.

Lemma head_read fs n v gs k rest : Forall field_ok fs -> Forall field_ok gs -> is_length n -> is_numeral v k ->
  exists hs, read_header (concat (map field_text fs) ++ field_text (n, v) ++ concat (map field_text gs) ++ crlf ++ rest)
             = Ret (Header hs, rest) /\ get_field (bs "Content-Length") hs = v.
Proof.
  intros F G L V. rewrite header_text. eexists. split; [apply header_read|].
  - apply Forall_app. split; [apply oks_plain; exact F|]. constructor; [apply (length_plain n v k L V)|apply oks_plain; exact G].
  - apply (length_read fs n v gs k F L V).
Qed.

Lemma fits_atoi v b : is_numeral v (N.of_nat (length b)) -> fits b -> atoi v = Some (Z.of_nat (length b)).
Proof.
  intros V F. rewrite (atoi_numeral v _ V), nat_N_Z; [reflexivity|]. unfold fits in F.
  change (2 ^ 48)%Z with 281474976710656%Z in F. change (2 ^ 63)%N with 9223372036854775808%N. lia.
Qed.
Lemma fits_alloc b : fits b -> ((Z.of_nat (length b) <? 0) || (max_alloc <? Z.of_nat (length b)))%Z = false.
Proof.
  unfold fits, max_alloc. intros F. destruct (Z.ltb_spec (Z.of_nat (length b)) 0); [lia|].
  destruct (Z.ltb_spec (2 ^ 48) (Z.of_nat (length b))); [lia|reflexivity].
Qed.

Lemma message_read m b rest : message_of m b -> fits b -> read_message (m ++ rest) = Ret (Body b, rest).
Proof.
  intros M F. destruct M as [fs gs n v b FF GG L V].
  destruct (head_read fs n v gs _ (b ++ rest) FF GG L V) as [hs [E G]].
  rewrite <- !app_assoc. unfold read_message. rewrite E. cbn [bindr]. rewrite G.
  rewrite (fits_atoi v b V F), (fits_alloc b F).
  destruct (Z.leb_spec (Z.of_nat (length b)) (Z.of_nat (length (b ++ rest)))) as [H|H].
  - rewrite Nat2Z.id, firstn_app, Nat.sub_diag, firstn_all, skipn_app, Nat.sub_diag, skipn_all, app_nil_r. reflexivity.
  - rewrite app_length in H. lia.
Qed.

(* ------------------------------------------------------------------------------------------ *)
(* junk *)

Lemma cut_none x s : ~ In x s -> cut x s = None.
Proof.
  induction s as [|c s IH]; intros N; [reflexivity|]. cbn [cut].
  destruct (Ascii.eqb_spec c x) as [->|E]; [exfalso; apply N; left; reflexivity|].
  rewrite IH; [reflexivity|]. intros I. apply N. right. exact I.
Qed.

Lemma junk_read j rest : junk j -> read_message (j ++ rest) = Ret (Failed, rest).
Proof.
  intros [l N C F|fs F].
  - rewrite <- app_assoc. unfold read_message, read_header.
    destruct (l ++ crlf ++ rest) as [|c s] eqn:E; [destruct l; discriminate|]. rewrite <- E.
    assert (R : read_line (l ++ crlf ++ rest) = Some (l, rest)) by (apply read_line_crlf; exact F).
    destruct (blank c).
    + rewrite R. reflexivity.
    + cbn [read_fields]. rewrite R. destruct l as [|d l]; [congruence|]. rewrite (cut_none _ _ C). reflexivity.
  - rewrite <- app_assoc. unfold read_message. rewrite header_read by (apply oks_plain; exact F). cbn [bindr].
    rewrite <- (app_nil_r (map _ fs)), (get_skips fs [] F). reflexivity.
Qed.

(* ------------------------------------------------------------------------------------------ *)
(* a message that is cut off *)

Definition no_header (r : res (header * str)) : Prop := r = Ret (NoHeader, []) \/ r = Ret (BadHeader, []).

Lemma read_line_last p : ~ In c_lf p -> p <> [] -> read_line p = Some (p, []).
Proof. intros N H. unfold read_line. destruct p as [|c p]; [congruence|]. rewrite (cut_none _ _ N). reflexivity. Qed.

Lemma no_lf_read fuel p acc : ~ In c_lf p -> length p < fuel -> no_header (read_fields fuel p acc).
Proof.
  intros N L. destruct fuel as [|fuel]; [lia|]. unfold no_header.
  destruct p as [|c p]; [left; reflexivity|]. destruct fuel as [|fuel]; [cbn in L; lia|]. cbn [read_fields].
  rewrite (read_line_last (c :: p) N) by discriminate.
  destruct (cut ":" (c :: p)) as [x|]; [|right; reflexivity]. cbn [length continued].
  destruct (cut ":" (trim (c :: p))) as [[k v]|]; [left|right]; reflexivity.
Qed.

Lemma app_split {A} (a b p q : list A) : a ++ b = p ++ q ->
  (exists m, a = p ++ m /\ m <> [] /\ q = m ++ b) \/ (exists m, p = a ++ m /\ b = m ++ q).
Proof.
  revert p. induction a as [|x a IH]; intros p E.
  - right. exists p. split; [reflexivity|exact E].
  - destruct p as [|y p].
    + left. exists (x :: a). split; [reflexivity|]. split; [discriminate|]. symmetry. exact E.
    + injection E as <- E. destruct (IH p E) as [[m [-> [N ->]]]|[m [-> ->]]].
      * left. exists m. auto.
      * right. exists m. auto.
Qed.

Lemma field_no_lf n v : Forall name_char n -> field_value v -> ~ In c_lf (n ++ bs ": " ++ v).
Proof.
  intros H V I. apply in_app_iff in I as [I|I].
  - rewrite Forall_forall in H. apply H in I. apply name_visible in I as [I _]. apply (visible_not_lf _ I). reflexivity.
  - apply in_app_iff in I as [I|I]; [|apply (value_no_lf v V); exact I]. cbn in I. destruct I as [I|[I|[]]]; discriminate.
Qed.

Lemma crlf_prefix x p m : ~ In c_lf x -> x ++ crlf = p ++ m -> m <> [] -> ~ In c_lf p.
Proof.
  intros N E M I. change crlf with ([c_cr] ++ [c_lf]) in E. rewrite app_assoc in E.
  destruct (app_split _ _ _ _ E) as [[k [F [_ _]]]|[k [-> G]]].
  - assert (J : In c_lf (x ++ [c_cr])) by (rewrite F; apply in_app_iff; left; exact I).
    apply in_app_iff in J as [J|[J|[]]]; [apply N; exact J|discriminate].
  - destruct k as [|c k].
    + rewrite app_nil_r in I. apply in_app_iff in I as [J|[J|[]]]; [apply N; exact J|discriminate].
    + injection G as <- G. symmetry in G. apply app_eq_nil in G as [_ G]. congruence.
Qed.

Lemma prefix_start fs p q : Forall plain_field fs -> concat (map field_text fs) ++ crlf = p ++ q ->
  forall f acc, continued f acc p = (acc, p).
Proof.
  intros P E f acc. destruct p as [|c p]; [destruct f; reflexivity|].
  apply continued_stop. destruct (fields_start fs [] P) as [d [s [S B]]]. rewrite app_nil_r, E in S.
  injection S as <- _. exact B.
Qed.

Lemma prefix_read fs : forall fuel acc p q, Forall plain_field fs -> length p < fuel ->
  concat (map field_text fs) ++ crlf = p ++ q -> q <> [] -> no_header (read_fields fuel p acc).
Proof.
  induction fs as [|[n v] fs IH]; intros fuel acc p q P L E Q.
  - apply no_lf_read; [|exact L]. apply (crlf_prefix [] p q); [intros []|exact E|exact Q].
  - inversion P as [|? ? [N H V] P']; subst. cbn [fst snd] in *. cbn [map concat] in E. rewrite <- app_assoc in E.
    pose proof (field_no_lf n v H V) as NL.
    assert (T : field_text (n, v) = (n ++ bs ": " ++ v) ++ crlf) by (unfold field_text; cbn [fst snd]; rewrite <- !app_assoc; reflexivity).
    destruct (app_split _ _ _ _ E) as [[m [F [M _]]]|[m [-> F]]].
    + apply no_lf_read; [|exact L]. rewrite T in F. apply (crlf_prefix _ p m NL F M).
    + destruct fuel as [|fuel]; [lia|]. rewrite T in L. rewrite !app_length in L. change (length crlf) with 2 in L. rewrite T, <- app_assoc. cbn [read_fields].
      rewrite read_line_crlf by exact NL.
      destruct (field_line n v N H V) as [l [w [E1 [C W]]]].
      destruct (n ++ bs ": " ++ v) as [|c0 s0] eqn:E0; [destruct n; discriminate|]. rewrite <- E0 in *.
      assert (C0 : cut ":" (n ++ bs ": " ++ v) = Some (n, bs " " ++ v)).
      { change (bs ": " ++ v) with (":"%char :: bs " " ++ v). apply cut_app.
        intros I. rewrite Forall_forall in H. apply H in I. apply name_visible in I as [_ I]. congruence. }
      rewrite C0, (prefix_start fs m q P' F), E1, C. apply (IH fuel _ m q P'); [lia|exact F|exact Q].
Qed.

Lemma cut_read p q b : message_of (p ++ q) b -> q <> [] -> fits b ->
  read_message p = Ret (Ended, []) \/ read_message p = Ret (Failed, []).
Proof.
  intros M Q F. remember (p ++ q) as s eqn:E. destruct M as [fs gs n v b FF GG L V].
  set (hs := fs ++ (n, v) :: gs) in *.
  assert (PF : Forall plain_field hs).
  { apply Forall_app. split; [apply oks_plain; exact FF|]. constructor; [apply (length_plain n v _ L V)|apply oks_plain; exact GG]. }
  rewrite header_text in E. fold hs in E. rewrite app_assoc in E.
  destruct (app_split _ _ _ _ E) as [[m [G [N _]]]|[m [-> G]]].
  - assert (R : no_header (read_header p)).
    { unfold read_header. destruct p as [|c p]; [left; reflexivity|].
      destruct (fields_start hs [] PF) as [d [s [S B]]]. rewrite app_nil_r, G in S. injection S as <- _. rewrite B.
      apply (prefix_read hs _ [] (c :: p) m PF); [lia|exact G|exact N]. }
    unfold read_message. destruct R as [->| ->]; cbn [bindr]; auto.
  - rewrite <- app_assoc. unfold read_message. rewrite (header_read hs m PF). cbn [bindr].
    pose proof (length_read fs n v gs _ FF L V) as LR. fold hs in LR. rewrite LR, (fits_atoi v b V F), (fits_alloc b F).
    destruct (Z.leb_spec (Z.of_nat (length b)) (Z.of_nat (length m))) as [H|H].
    + exfalso. rewrite G, app_length in H. destruct q; [congruence|]. cbn [length] in H. lia.
    + destruct m; auto.
Qed.

(* ------------------------------------------------------------------------------------------ *)
(* the whole input *)

Lemma message_nonempty m b : message_of m b -> m <> [].
Proof.
  intros [fs gs n v b' _ _ L _]. apply length_name in L as [N _]. intros E.
  apply app_eq_nil in E as [_ E]. apply app_eq_nil in E as [E _]. unfold field_text in E. cbn [fst] in E.
  apply app_eq_nil in E as [E _]. congruence.
Qed.
Lemma junk_nonempty j : junk j -> j <> [].
Proof. intros [l _ _ _|fs _] E; apply app_eq_nil in E as [_ E]; discriminate. Qed.

Lemma receive_nil fuel : 0 < fuel -> receive fuel [] = ([], Ret tt).
Proof. destruct fuel; [lia|reflexivity]. Qed.

Lemma stream_received s l : stream s l -> forall fuel, length s < fuel -> receive fuel s = (l, Ret tt).
Proof.
  induction 1 as [|m b s l M F _ IH|j s l J _ IH|p q b M F Q]; intros fuel L.
  - apply receive_nil. exact L.
  - destruct fuel as [|fuel]; [lia|]. cbn [receive]. rewrite (message_read m b s M F), IH; [reflexivity|].
    pose proof (message_nonempty m b M). destruct m; [congruence|]. rewrite app_length in L. cbn [length] in L. lia.
  - destruct fuel as [|fuel]; [lia|]. cbn [receive]. rewrite (junk_read j s J), IH; [reflexivity|].
    pose proof (junk_nonempty j J). destruct j; [congruence|]. rewrite app_length in L. cbn [length] in L. lia.
  - destruct fuel as [|fuel]; [lia|]. cbn [receive].
    destruct (cut_read p q b M Q F) as [E|E]; rewrite E; [reflexivity|].
    apply receive_nil. destruct p; [discriminate|]. cbn [length] in L. lia.
Qed.

Lemma framed_stream s l : framed s l -> Forall fits l -> stream s l.
Proof.
  induction 1 as [|m b s l M _ IH]; intros F; [constructor|]. inversion F; subst. apply stream_message; auto.
Qed.

(* ------------------------------------------------------------------------------------------ *)
(* what is sent *)

Lemma written_message b : message_of (write_body b) b.
Proof.
  assert (L : is_length (bs "Content-Length")).
  { unfold is_length, same_name. induction (bs "Content-Length"); constructor; [left; reflexivity|assumption]. }
  pose proof (Message_of [] [] (bs "Content-Length") _ b (Forall_nil _) (Forall_nil _) L (dec_numeral _)) as M.
  cbn [map concat app] in M. unfold field_text in M. cbn [fst snd] in M. rewrite <- !app_assoc in M. exact M.
Qed.
Lemma written_framed l : framed (concat (map write_body l)) l.
Proof. induction l as [|b l IH]; cbn [map concat]; [constructor|]. constructor; [apply written_message|exact IH]. Qed.

(* ------------------------------------------------------------------------------------------ *)
(* reading ends *)

Lemma read_line_shorter s l r : read_line s = Some (l, r) -> length r < length s.
Proof.
  unfold read_line. destruct s as [|c s]; [discriminate|]. destruct (cut c_lf (c :: s)) as [[a b]|] eqn:E; intros H; injection H as <- <-.
  - apply cut_some in E as [-> _]. rewrite app_length. cbn [length]. lia.
  - cbn [length]. lia.
Qed.
Lemma trim_left_shorter s : length (trim_left s) <= length s.
Proof. induction s as [|c s IH]; cbn [trim_left length]; [lia|]. destruct (blank c); cbn [length]; lia. Qed.
Lemma continued_shorter f : forall acc s a r, continued f acc s = (a, r) -> length r <= length s.
Proof.
  induction f as [|f IH]; intros acc s a r E; cbn [continued] in E; [injection E as _ <-; lia|].
  destruct s as [|c s]; [injection E as _ <-; lia|]. destruct (blank c); [|injection E as _ <-; lia].
  destruct (read_line (trim_left (c :: s))) as [[l r']|] eqn:R; [|injection E as _ <-; cbn; lia].
  apply IH in E. apply read_line_shorter in R. pose proof (trim_left_shorter (c :: s)). lia.
Qed.
Lemma fields_shorter fuel : forall s acc, length s < fuel ->
  exists h r, read_fields fuel s acc = Ret (h, r) /\ (h = NoHeader \/ length r < length s).
Proof.
  induction fuel as [|fuel IH]; intros s acc L; [lia|]. cbn [read_fields].
  destruct (read_line s) as [[l r]|] eqn:R; [|eexists _, _; split; [reflexivity|left; reflexivity]].
  apply read_line_shorter in R. destruct l as [|c l]; [eexists _, _; split; [reflexivity|right; exact R]|].
  destruct (cut ":" (c :: l)); [|eexists _, _; split; [reflexivity|right; exact R]].
  destruct (continued (length r) (trim (c :: l)) r) as [kv r'] eqn:C. apply continued_shorter in C.
  destruct (cut ":" kv) as [[k v]|]; [|eexists _, _; split; [reflexivity|right; lia]].
  destruct (IH r' (match canonical k with [] => acc | k => acc ++ [(k, trim_left v)] end)) as [h [r2 [E H]]]; [lia|].
  exists h, r2. split; [exact E|]. destruct H as [H|H]; [left; exact H|right; lia].
Qed.
Lemma header_shorter s : exists h r, read_header s = Ret (h, r) /\ (h = NoHeader \/ length r < length s).
Proof.
  unfold read_header. destruct s as [|c s]; [eexists _, _; split; [reflexivity|left; reflexivity]|].
  destruct (blank c); [|apply fields_shorter; lia].
  destruct (read_line (c :: s)) as [[l r]|] eqn:R; eexists _, _; (split; [reflexivity|]); [right|left; reflexivity].
  apply read_line_shorter in R. exact R.
Qed.
Lemma message_shorter s : read_message s = Panic \/
  exists x r, read_message s = Ret (x, r) /\ (x = Ended \/ length r < length s).
Proof.
  unfold read_message. destruct (header_shorter s) as [h [r [-> H]]]. cbn [bindr].
  destruct h as [fs| |].
  - destruct H as [H|H]; [discriminate|].
    destruct (atoi _) as [n|]; [|right; eexists _, _; split; [reflexivity|right; exact H]].
    destruct ((n <? 0) || (max_alloc <? n))%Z; [left; reflexivity|]. right.
    destruct (n <=? Z.of_nat (length r))%Z; eexists _, _; (split; [reflexivity|right]).
    + rewrite skipn_length. lia.
    + cbn [length]. lia.
  - destruct H as [H|H]; [discriminate|]. right. eexists _, _; split; [reflexivity|right; exact H].
  - right. eexists _, _; split; [reflexivity|left; reflexivity].
Qed.
Lemma receive_ends fuel : forall s, length s < fuel -> snd (receive fuel s) <> OutOfFuel.
Proof.
  induction fuel as [|fuel IH]; intros s L; [lia|]. cbn [receive].
  destruct (message_shorter s) as [->|[x [r [-> H]]]]; [discriminate|]. destruct x as [b| |].
  - destruct H as [H|H]; [discriminate|]. specialize (IH r). destruct (receive fuel r) as [l e]. apply IH. lia.
  - destruct H as [H|H]; [discriminate|]. apply IH. lia.
  - discriminate.
Qed.

(* ------------------------------------------------------------------------------------------ *)
(* lengths that crash *)

Lemma atoi_negative v n : is_numeral v n -> (0 < n <= 2 ^ 63)%N -> atoi ("-"%char :: v) = Some (- Z.of_N n)%Z.
Proof.
  intros [N [D E]] L. unfold atoi, parse_int. cbn [Ascii.eqb Bool.eqb orb].
  change (Ascii.eqb "-" "-") with true. cbv iota.
  assert (P : parse_uint v 10 64 = Some n).
  { destruct v as [|c r]; [congruence|]. unfold parse_uint. change (10 =? 0)%N with false. cbv iota beta.
    assert (V : digits_val false 10 0 (c :: r) = Some n) by (apply digits_val_ten; auto). rewrite V.
    destruct (N.leb_spec (2 ^ 64) n) as [H|H]; [|reflexivity].
    exfalso. change (2 ^ 64)%N with 18446744073709551616%N in *. change (2 ^ 63)%N with 9223372036854775808%N in *. lia. }
  cbn [orb]. rewrite P. change (2 ^ (64 - 1))%N with (2 ^ 63)%N. destruct (N.ltb_spec (2 ^ 63) n); [lia|reflexivity].
Qed.

Lemma deadly_read d rest : deadly d -> read_message (d ++ rest) = Panic.
Proof.
  intros [fs gs n v z F G L Z B]. rewrite <- !app_assoc, header_text.
  assert (V : Forall visible v).
  { destruct Z as [[k [K [E _]]]|[k [w [K [-> _]]]]]; [|constructor; [split; [cbv; discriminate|discriminate]|]];
      destruct K as [_ [D _]]; (eapply Forall_impl; [|exact D]; exact digit_visible). }
  unfold read_message. rewrite header_read.
  - cbn [bindr].
    assert (E : get_field (bs "Content-Length") (map (fun f => (canonical (fst f), snd f)) (fs ++ (n, v) :: gs)) = v).
    { rewrite map_app, (get_skips fs _ F). cbn [map fst snd]. unfold get_field. cbn [find fst].
      apply length_name in L as [_ [_ X]]. change (canonical (bs "Content-Length")) with (bs "Content-Length").
      rewrite X, seqb_refl. reflexivity. }
    rewrite E. clear E V.
    assert (A : atoi v = Some z).
    { destruct Z as [[k [K [-> R]]]|[k [w [K [-> [-> R]]]]]].
      - apply atoi_numeral; assumption.
      - apply atoi_negative; assumption. }
    rewrite A. replace ((z <? 0) || (max_alloc <? z))%Z with true; [reflexivity|].
    unfold max_alloc. destruct (Z.ltb_spec z 0); [reflexivity|]. destruct (Z.ltb_spec (2 ^ 48) z); [reflexivity|lia].
  - apply Forall_app. split; [apply oks_plain; exact F|]. constructor; [|apply oks_plain; exact G].
    apply length_name in L as [X [Y _]]. constructor; [exact X|exact Y|apply visible_value; exact V].
Qed.

Lemma deadly_received s l d rest : framed s l -> Forall fits l -> deadly d ->
  forall fuel, length s < fuel -> receive fuel (s ++ d ++ rest) = (l, Panic).
Proof.
  intros H. induction H as [|m b s l M _ IH]; intros F D fuel L; (destruct fuel as [|fuel]; [lia|]); cbn [receive].
  - cbn [app]. rewrite (deadly_read d rest D). reflexivity.
  - inversion F; subst. rewrite <- app_assoc, (message_read m b _ M) by assumption. rewrite IH; [reflexivity|assumption..|].
    pose proof (message_nonempty m b M). destruct m; [congruence|]. rewrite app_length in L. cbn [length] in L. lia.
Qed.
