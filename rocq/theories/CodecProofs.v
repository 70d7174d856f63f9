From Verif Require Import Base LexSpec Strconv Literals LiteralsProofs Codec.
From Coq Require Import ZifyBool ZifyNat ZifyN.
Ltac Zify.zify_post_hook ::= Z.div_mod_to_equations.

Lemma ascii_byte c : ascii_of_N (byte c) = c.
Proof. apply ascii_N_embedding. Qed.
Lemma byte_ascii n : (n < 256)%N -> byte (ascii_of_N n) = n.
Proof. intros H. apply N_ascii_embedding. exact H. Qed.

Lemma hex_val_char d : (d < 16)%N -> hex_val (hex_digit_char d) = Some d.
Proof.
  intros H. unfold hex_val, hex_digit_char, in_chars.
  change (byte "0") with 48%N. change (byte "9") with 57%N. change (byte "a") with 97%N.
  change (byte "f") with 102%N. change (byte "A") with 65%N. change (byte "F") with 70%N.
  destruct (N.ltb_spec d 10).
  - rewrite byte_ascii by lia.
    replace ((48 <=? 48 + d)%N && (48 + d <=? 57)%N) with true by lia. f_equal. lia.
  - rewrite byte_ascii by lia.
    replace ((48 <=? 87 + d)%N && (87 + d <=? 57)%N) with false by lia.
    replace ((97 <=? 87 + d)%N && (87 + d <=? 102)%N) with true by lia. f_equal. lia.
Qed.

Lemma hex_round_trip s : hex_decode (hex_encode s) = Some s.
Proof.
  induction s as [|c s IH]; [reflexivity|].
  cbn [hex_encode flat_map app hex_decode]. pose proof (byte_lt c).
  rewrite !hex_val_char by lia. fold (hex_encode s). rewrite IH.
  replace (16 * (byte c / 16) + byte c mod 16)%N with (byte c) by lia. rewrite ascii_byte. reflexivity.
Qed.

Lemma b64_val_char d : (d < 64)%N -> b64_val (b64_char d) = Some d.
Proof.
  intros H. destruct d as [|p]; [reflexivity|].
  do 6 (destruct p as [p|p|]; [| |reflexivity]); lia.
Qed.

Lemma b64_val_pad : b64_val "=" = None.
Proof. reflexivity. Qed.

Lemma list_ind3 (P : str -> Prop) :
  P [] -> (forall a, P [a]) -> (forall a b, P [a; b]) ->
  (forall a b c r, P r -> P (a :: b :: c :: r)) -> forall s, P s.
Proof.
  intros H0 H1 H2 H3. assert (K : forall n s, length s <= n -> P s).
  { induction n as [|n IH]; intros [|a [|b [|c r]]] L; cbn in L; auto; try lia. apply H3, IH. lia. }
  intros s. eapply K. reflexivity.
Qed.

Lemma b64_quanta_round_trip s : b64_quanta (b64_encode s) = Some s.
Proof.
  induction s as [|a|a b|a b c r IH] using list_ind3; [reflexivity| | |].
  - cbn [b64_encode b64_quanta]. pose proof (byte_lt a).
    rewrite !b64_val_char by lia. cbn [b64_val]. rewrite b64_val_pad. cbn.
    replace (byte a / 4 * 4 + (byte a mod 4) * 16 / 16)%N with (byte a) by lia.
    rewrite ascii_byte. reflexivity.
  - cbn [b64_encode b64_quanta]. pose proof (byte_lt a). pose proof (byte_lt b).
    rewrite !b64_val_char by lia. rewrite b64_val_pad.
    replace (byte a / 4 * 4 + ((byte a mod 4) * 16 + byte b / 16) / 16)%N with (byte a) by lia.
    replace ((((byte a mod 4) * 16 + byte b / 16) mod 16) * 16 + (byte b mod 16) * 4 / 4)%N with (byte b) by lia.
    rewrite !ascii_byte. reflexivity.
  - cbn [b64_encode b64_quanta]. pose proof (byte_lt a). pose proof (byte_lt b). pose proof (byte_lt c).
    rewrite !b64_val_char by lia. rewrite IH.
    replace (byte a / 4 * 4 + ((byte a mod 4) * 16 + byte b / 16) / 16)%N with (byte a) by lia.
    replace ((((byte a mod 4) * 16 + byte b / 16) mod 16) * 16 + ((byte b mod 16) * 4 + byte c / 64) / 4)%N with (byte b) by lia.
    replace ((((byte b mod 16) * 4 + byte c / 64) mod 4) * 64 + byte c mod 64)%N with (byte c) by lia.
    rewrite !ascii_byte. reflexivity.
Qed.

Definition b64_letter (c : ascii) : Prop := c = "="%char \/ exists d, (d < 64)%N /\ c = b64_char d.

Lemma b64_encode_letters s : Forall b64_letter (b64_encode s).
Proof.
  assert (P : b64_letter "=") by (left; reflexivity).
  assert (Q : forall d, (d < 64)%N -> b64_letter (b64_char d)) by (intros d H; right; eauto).
  induction s as [|a|a b|a b c r IH] using list_ind3; cbn [b64_encode]; [constructor| | |];
    try pose proof (byte_lt a); try pose proof (byte_lt b); try pose proof (byte_lt c);
    repeat (apply Forall_cons; [first [exact P | apply Q; lia]|]); try constructor; exact IH.
Qed.

Lemma b64_letter_word c : b64_letter c -> ~ is_delim c /\ c <> c_quote /\ c <> ":"%char /\ c <> c_lf /\ c <> c_cr.
Proof.
  intros [->|[d [H ->]]].
  - repeat split; try discriminate. intros [[E|E]|[E|E]]; discriminate.
  - destruct d as [|p]; [repeat split; try discriminate; intros [[E|E]|[E|E]]; discriminate|].
    do 6 (destruct p as [p|p|]; [| |repeat split; try discriminate; intros [[E|E]|[E|E]]; discriminate]); lia.
Qed.

Lemma b64_round_trip s : b64_decode (b64_encode s) = Some s.
Proof.
  unfold b64_decode. transitivity (b64_quanta (b64_encode s)); [|apply b64_quanta_round_trip]. f_equal.
  pose proof (b64_encode_letters s) as F. induction F as [|c l H F IH]; [reflexivity|].
  cbn [filter]. destruct (b64_letter_word c H) as [_ [_ [_ [N1 N2]]]].
  destruct (Ascii.eqb_spec c c_lf); [contradiction|]. destruct (Ascii.eqb_spec c c_cr); [contradiction|].
  cbn. f_equal. exact IH.
Qed.

(* decimal numbers *)
Lemma decimal_app a b n : decimal n (a ++ b) = decimal (decimal n a) b.
Proof. revert n. induction a as [|c a IH]; intros n; cbn; auto. Qed.

Lemma digit_char_digit d : (d < 10)%N -> is_digit (digit_char d).
Proof. intros H. exists d. split; [exact H|]. unfold digit_char. rewrite byte_ascii by lia. reflexivity. Qed.

Lemma dec_go_spec fuel : forall n acc, (n < 2 ^ N.of_nat fuel)%N -> 0 < fuel ->
  exists p, dec_go fuel n acc = p ++ acc /\ p <> [] /\ Forall is_digit p /\ decimal 0 p = n /\
    (n <> 0%N -> hd "0"%char p <> "0"%char).
Proof.
  induction fuel as [|fuel IH]; intros n acc H F; [lia|]. cbn [dec_go].
  destruct (N.ltb_spec n 10) as [L|L].
  - exists [digit_char n]. repeat split; [discriminate|repeat constructor; apply digit_char_digit; exact L| |].
    + cbn [decimal]. unfold digit_char. rewrite byte_ascii by lia. lia.
    + intros NZ. cbn [hd]. unfold digit_char. intros E. apply (f_equal byte) in E.
      rewrite byte_ascii in E by lia. change (byte "0") with 48%N in E. lia.
  - destruct (Nat.eq_dec fuel 0) as [->|NF]; [cbn in H; lia|].
    destruct (IH (n / 10)%N (digit_char (n mod 10) :: acc)) as [p [E [Np [Fp [Dp Hp]]]]].
    + rewrite Nat2N.inj_succ, N.pow_succ_r' in H.
      apply N.div_lt_upper_bound; [lia|]. eapply N.lt_le_trans; [exact H|]. apply N.mul_le_mono_r. lia.
    + lia.
    + exists (p ++ [digit_char (n mod 10)]). rewrite E, <- app_assoc. repeat split.
      * destruct p; discriminate.
      * apply Forall_app. split; [exact Fp|]. repeat constructor. apply digit_char_digit. lia.
      * rewrite decimal_app, Dp. cbn [decimal]. unfold digit_char. rewrite byte_ascii by lia. lia.
      * intros _. destruct p as [|c p]; [congruence|]. cbn [app hd]. apply Hp. lia.
Qed.

Lemma size_nat_bound n : (n < 2 ^ N.of_nat (S (N.size_nat n)))%N.
Proof.
  rewrite Nat2N.inj_succ, N.pow_succ_r'. pose proof (N.size_gt n) as H.
  replace (N.of_nat (N.size_nat n)) with (N.size n).
  - lia.
  - clear H. destruct n as [|p]; [reflexivity|]. cbn [N.size N.size_nat].
    induction p as [p IH|p IH|]; [| |reflexivity]; cbn [Pos.size Pos.size_nat];
      rewrite Nat2N.inj_succ, <- IH; reflexivity.
Qed.

Lemma dec_spec n : dec n <> [] /\ Forall is_digit (dec n) /\ decimal 0 (dec n) = n /\
  (n <> 0%N -> hd "0"%char (dec n) <> "0"%char).
Proof.
  unfold dec. destruct (dec_go_spec (S (N.size_nat n)) n []) as [p [E H]].
  - apply size_nat_bound.
  - lia.
  - rewrite E, app_nil_r. exact H.
Qed.

Lemma dec_numeral n : is_numeral (dec n) n.
Proof. destruct (dec_spec n) as [A [B [C _]]]. split; [exact A|split; [exact B|exact C]]. Qed.

Lemma read_uint8_dec n : (n < 256)%N -> read_uint8 (dec n) = Some n.
Proof. intros H. apply read_uint8_spec. split; [apply dec_numeral|exact H]. Qed.

Lemma read_int8_dec z : (-128 <= z < 128)%Z -> read_int8 (dec_z z) = Some z.
Proof.
  intros H. apply read_int8_spec. split; [|exact H]. unfold dec_z.
  destruct (Z.ltb_spec z 0).
  - exists (dec (Z.to_N (- z))), (Z.to_N (- z)). split; [apply dec_numeral|]. right. right. split; [reflexivity|lia].
  - exists (dec (Z.to_N z)), (Z.to_N z). split; [apply dec_numeral|]. left. split; [reflexivity|lia].
Qed.

Lemma digits_val_base0 s : forall b acc n,
  digits_val false b acc s = Some n -> digits_val true b acc s = Some n.
Proof.
  induction s as [|c s IH]; intros b acc n E; [exact E|]. cbn [digits_val andb] in *.
  destruct (digit_of c) as [d|] eqn:D; [|discriminate].
  destruct (Ascii.eqb_spec c "_") as [->|_]; [discriminate|].
  destruct (d <? b)%N; [|discriminate]. apply IH. exact E.
Qed.

Lemma digits_no_underscore s : Forall is_digit s -> has_underscore s = false.
Proof.
  induction 1 as [|c s [d [H1 H2]] F IH]; [reflexivity|]. unfold has_underscore in *. cbn [existsb].
  rewrite IH. destruct (Ascii.eqb_spec "_" c) as [<-|]; [|reflexivity].
  change (byte "_") with 95%N in H2. lia.
Qed.

Lemma parse_uint_dec n bits : (n < 2 ^ bits)%N -> parse_uint (dec n) 0 bits = Some n.
Proof.
  intros H. destruct (dec_spec n) as [A [B [C D]]].
  destruct (N.eq_dec n 0) as [->|NZ].
  { unfold parse_uint. change (dec 0) with ["0"%char]. cbn [prefix0 digits_val].
    change (Ascii.eqb "0" "0") with true. cbn.
    destruct (N.leb_spec (2 ^ bits) 0); [lia|reflexivity]. }
  unfold parse_uint. destruct (dec n) as [|c r] eqn:E; [congruence|].
  change (0 =? 0)%N with true. cbn [prefix0].
  destruct (Ascii.eqb_spec c "0") as [->|_]; [cbn in D; destruct (D NZ eq_refl)|].
  rewrite (digits_val_base0 (c :: r) 10 0 n).
  - destruct (N.leb_spec (2 ^ bits) n); [lia|].
    rewrite (digits_no_underscore (c :: r)) by exact B. reflexivity.
  - apply digits_val_ten. split; [exact B|exact C].
Qed.
