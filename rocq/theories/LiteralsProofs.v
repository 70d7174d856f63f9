From Verif Require Import Base LexSpec Strconv Literals.
From Coq Require Import ZifyBool ZifyNat ZifyN.

Lemma byte_lt c : (byte c < 256)%N.
Proof. unfold byte. apply N_ascii_bounded. Qed.

Lemma in_chars_spec lo hi c : in_chars lo hi c = true <-> (byte lo <= byte c <= byte hi)%N.
Proof. unfold in_chars. lia. Qed.

Lemma digit_of_ten c d : digit_of c = Some d /\ (d < 10)%N <-> is_digit c /\ d = (byte c - 48)%N.
Proof.
  unfold digit_of, is_digit.
  change (byte "0") with 48%N. change (byte "a") with 97%N. change (byte "A") with 65%N.
  destruct (in_chars "0" "9" c) eqn:E1.
  - apply in_chars_spec in E1. change (byte "0") with 48%N in E1. change (byte "9") with 57%N in E1.
    split.
    + intros [H1 H2]. injection H1 as <-. split; [|reflexivity]. exists (byte c - 48)%N. lia.
    + intros [[x [H1 H2]] ->]. split; [reflexivity|lia].
  - assert (N1 : ~ (48 <= byte c <= 57)%N).
    { intros H. apply (proj2 (in_chars_spec "0" "9" c)) in H. congruence. }
    split.
    + intros [H1 H2]. exfalso.
      destruct (in_chars "a" "z" c) eqn:E2; [injection H1 as <-; lia|].
      destruct (in_chars "A" "Z" c) eqn:E3; [injection H1 as <-; lia|discriminate].
    + intros [[x [H1 H2]] _]. exfalso. lia.
Qed.

Lemma digits_val_ten s : forall acc n,
  digits_val false 10 acc s = Some n <-> Forall is_digit s /\ decimal acc s = n.
Proof.
  induction s as [|c s IH]; intros acc n; cbn [digits_val decimal andb].
  - split; [intros H; injection H as ->; auto|intros [_ ->]; reflexivity].
  - destruct (digit_of c) as [d|] eqn:E.
    + destruct (N.ltb_spec d 10) as [H|H].
      * destruct (proj1 (digit_of_ten c d) (conj E H)) as [H1 ->].
        rewrite IH. replace (acc * 10 + (byte c - 48))%N with (10 * acc + (byte c - 48))%N by lia.
        split; intros [A B]; split; auto. inversion A; auto.
      * split; [discriminate|]. intros [A _]. inversion A as [|? ? D _]; subst. exfalso.
        destruct (proj2 (digit_of_ten c (byte c - 48)) (conj D eq_refl)) as [E' L].
        rewrite E in E'. injection E' as ->. lia.
    + split; [discriminate|]. intros [A _]. inversion A as [|? ? D _]; subst. exfalso.
      destruct (proj2 (digit_of_ten c (byte c - 48)) (conj D eq_refl)) as [E' L]. congruence.
Qed.

Lemma parse_uint_ten s bits n :
  parse_uint s 10 bits = Some n <-> is_numeral s n /\ (n < 2 ^ bits)%N.
Proof.
  unfold parse_uint, is_numeral. change (10 =? 0)%N with false. cbn [andb].
  destruct s as [|c s]; [split; [discriminate|intros [[H _] _]; congruence]|].
  destruct (digits_val false 10 0 (c :: s)) as [m|] eqn:E.
  - apply digits_val_ten in E. destruct E as [E1 E2].
    destruct (N.leb_spec (2 ^ bits) m) as [H|H].
    + split; [discriminate|]. intros [[_ [_ <-]] L]. rewrite E2 in L. lia.
    + split.
      * intros H'. injection H' as <-. repeat split; auto. discriminate.
      * intros [[_ [_ <-]] _]. congruence.
  - split; [discriminate|]. intros [[_ [A B]] _]. exfalso.
    assert (X : digits_val false 10 0 (c :: s) = Some n) by (apply digits_val_ten; auto). congruence.
Qed.

(* C55: 8-bit immediates *)
Theorem read_uint8_spec s n : read_uint8 s = Some n <-> is_numeral s n /\ (n < 256)%N.
Proof. exact (parse_uint_ten s 8 n). Qed.

Definition is_signed_numeral (s : str) (z : Z) : Prop :=
  exists d n, is_numeral d n /\
    ((s = d /\ z = Z.of_N n) \/ (s = "+"%char :: d /\ z = Z.of_N n) \/
     (s = "-"%char :: d /\ z = - Z.of_N n)%Z).

Lemma numeral_head c r n : is_numeral (c :: r) n -> is_digit c.
Proof. intros [_ [A _]]. inversion A; auto. Qed.

Theorem read_int8_spec s z : read_int8 s = Some z <-> is_signed_numeral s z /\ (-128 <= z < 128)%Z.
Proof.
  unfold read_int8, parse_int, is_signed_numeral.
  assert (Hm : ~ is_digit "-") by (intros [d [H1 H2]]; change (byte "-") with 45%N in H2; lia).
  assert (Hp : ~ is_digit "+") by (intros [d [H1 H2]]; change (byte "+") with 43%N in H2; lia).
  change (2 ^ (8 - 1))%N with 128%N.
  destruct s as [|c r].
  { split; [discriminate|]. intros [[d [n [[H _] [[<- _]|[[E _]|[E _]]]]]] _]; [|discriminate|discriminate].
    congruence. }
  destruct (Ascii.eqb_spec c "-") as [->|N1].
  - cbn [orb]. destruct (parse_uint r 10 8) as [n|] eqn:E.
    + apply parse_uint_ten in E. change (2 ^ 8)%N with 256%N in E. destruct E as [E L].
      destruct (N.ltb_spec 128 n) as [H|H].
      * split; [discriminate|]. intros [[d [m [Hn [[<- _]|[[Q _]|[Q ->]]]]]] B].
        -- apply numeral_head in Hn. contradiction.
        -- discriminate.
        -- injection Q as <-. destruct E as [_ [_ <-]]. destruct Hn as [_ [_ <-]]. lia.
      * split.
        -- intros Q. injection Q as <-. split; [exists r, n; split; [exact E|auto]|lia].
        -- intros [[d [m [Hn [[<- _]|[[Q _]|[Q ->]]]]]] B].
           ++ apply numeral_head in Hn. contradiction.
           ++ discriminate.
           ++ injection Q as <-. destruct E as [_ [_ <-]]. destruct Hn as [_ [_ <-]]. reflexivity.
    + split; [discriminate|]. intros [[d [m [Hn [[<- _]|[[Q _]|[Q ->]]]]]] B].
      * apply numeral_head in Hn. contradiction.
      * discriminate.
      * injection Q as <-. exfalso.
        assert (X : parse_uint r 10 8 = Some m).
        { apply parse_uint_ten. change (2 ^ 8)%N with 256%N. split; [exact Hn|lia]. }
        congruence.
  - cbn [orb]. destruct (Ascii.eqb_spec c "+") as [->|N2].
    + destruct (parse_uint r 10 8) as [n|] eqn:E.
      * apply parse_uint_ten in E. change (2 ^ 8)%N with 256%N in E. destruct E as [E L].
        destruct (N.leb_spec 128 n) as [H|H].
        -- split; [discriminate|]. intros [[d [m [Hn [[<- _]|[[Q ->]|[Q _]]]]]] B].
           ++ apply numeral_head in Hn. contradiction.
           ++ injection Q as <-. destruct E as [_ [_ <-]]. destruct Hn as [_ [_ <-]]. lia.
           ++ discriminate.
        -- split.
           ++ intros Q. injection Q as <-. split; [exists r, n; split; [exact E|auto]|lia].
           ++ intros [[d [m [Hn [[<- _]|[[Q ->]|[Q _]]]]]] B].
              ** apply numeral_head in Hn. contradiction.
              ** injection Q as <-. destruct E as [_ [_ <-]]. destruct Hn as [_ [_ <-]]. reflexivity.
              ** discriminate.
      * split; [discriminate|]. intros [[d [m [Hn [[<- _]|[[Q ->]|[Q _]]]]]] B].
        -- apply numeral_head in Hn. contradiction.
        -- injection Q as <-. exfalso.
           assert (X : parse_uint r 10 8 = Some m).
           { apply parse_uint_ten. change (2 ^ 8)%N with 256%N. split; [exact Hn|lia]. }
           congruence.
        -- discriminate.
    + destruct (parse_uint (c :: r) 10 8) as [n|] eqn:E.
      * apply parse_uint_ten in E. change (2 ^ 8)%N with 256%N in E. destruct E as [E L].
        destruct (N.leb_spec 128 n) as [H|H].
        -- split; [discriminate|]. intros [[d [m [Hn [[<- ->]|[[Q _]|[Q _]]]]]] B].
           ++ destruct E as [_ [_ <-]]. destruct Hn as [_ [_ <-]]. lia.
           ++ injection Q as -> _. congruence.
           ++ injection Q as -> _. congruence.
        -- split.
           ++ intros Q. injection Q as <-. split; [exists (c :: r), n; split; [exact E|auto]|lia].
           ++ intros [[d [m [Hn [[<- ->]|[[Q _]|[Q _]]]]]] B].
              ** destruct E as [_ [_ <-]]. destruct Hn as [_ [_ <-]]. reflexivity.
              ** injection Q as -> _. congruence.
              ** injection Q as -> _. congruence.
      * split; [discriminate|]. intros [[d [m [Hn [[<- ->]|[[Q _]|[Q _]]]]]] B].
        -- exfalso. assert (X : parse_uint (c :: r) 10 8 = Some m).
           { apply parse_uint_ten. change (2 ^ 8)%N with 256%N. split; [exact Hn|lia]. }
           congruence.
        -- injection Q as -> _. congruence.
        -- injection Q as -> _. congruence.
Qed.

(* ------------------------------------------------------------------------------------------ *)
Lemma digit_of_hex c d : digit_of c = Some d /\ (d < 16)%N <-> hex_digit c d.
Proof.
  unfold digit_of, hex_digit.
  pose proof (in_chars_spec "0" "9" c) as P1. pose proof (in_chars_spec "a" "z" c) as P2.
  pose proof (in_chars_spec "A" "Z" c) as P3.
  change (byte "0") with 48%N in *. change (byte "a") with 97%N in *. change (byte "A") with 65%N in *.
  change (byte "9") with 57%N in *. change (byte "z") with 122%N in *. change (byte "Z") with 90%N in *.
  destruct (in_chars "0" "9" c); [|destruct (in_chars "a" "z" c); [|destruct (in_chars "A" "Z" c)]].
  - destruct P1 as [P1 _]. specialize (P1 eq_refl). split.
    + intros [H1 H2]. injection H1 as <-. lia.
    + intros H. split; [f_equal; lia|lia].
  - destruct P2 as [P2 _]. specialize (P2 eq_refl). split.
    + intros [H1 H2]. injection H1 as <-. lia.
    + intros H. split; [f_equal; lia|lia].
  - destruct P3 as [P3 _]. specialize (P3 eq_refl). split.
    + intros [H1 H2]. injection H1 as <-. lia.
    + intros H. split; [f_equal; lia|lia].
  - split; [intros [H _]; discriminate|]. intros H. exfalso.
    assert (~ (48 <= byte c <= 57)%N) by (intros Q; apply P1 in Q; discriminate).
    assert (~ (97 <= byte c <= 122)%N) by (intros Q; apply P2 in Q; discriminate).
    assert (~ (65 <= byte c <= 90)%N) by (intros Q; apply P3 in Q; discriminate).
    lia.
Qed.

Lemma parse_hex_pair a b v :
  parse_uint [a; b] 16 8 = Some v <-> exists x y, hex_digit a x /\ hex_digit b y /\ v = (16 * x + y)%N.
Proof.
  unfold parse_uint. change (16 =? 0)%N with false. cbn [digits_val andb].
  change (2 ^ 8)%N with 256%N. split.
  - destruct (digit_of a) as [x|] eqn:Ea; [|discriminate].
    destruct (N.ltb_spec x 16) as [Hx|]; [|discriminate].
    destruct (digit_of b) as [y|] eqn:Eb; [|discriminate].
    destruct (N.ltb_spec y 16) as [Hy|]; [|discriminate].
    destruct (N.leb_spec 256 ((0 * 16 + x) * 16 + y)) as [H|H]; [discriminate|].
    intros E. injection E as <-. exists x, y.
    split; [apply digit_of_hex; auto|]. split; [apply digit_of_hex; auto|]. lia.
  - intros [x [y [Ha [Hb ->]]]]. apply digit_of_hex in Ha, Hb. destruct Ha as [-> Hx], Hb as [-> Hy].
    destruct (N.ltb_spec x 16); [|lia]. destruct (N.ltb_spec y 16); [|lia].
    destruct (N.leb_spec 256 ((0 * 16 + x) * 16 + y)); [lia|]. f_equal. lia.
Qed.

(* the loop on a body followed by more text *)
Lemma literal_loop_sound n : forall body tail acc v, length body = n ->
  literal_loop n (body ++ tail) false false acc = Ret (Some v) ->
  exists w, v = acc ++ w /\ denotes body w.
Proof.
  induction n as [n IH] using (well_founded_induction lt_wf).
  intros body tail acc v Hn E. destruct body as [|c body].
  { subst n. cbn in E. injection E as <-. exists []. rewrite app_nil_r. split; [reflexivity|constructor]. }
  cbn in Hn. destruct n as [|n]; [lia|]. injection Hn as Hn. cbn [literal_loop app negb andb] in E.
  rewrite andb_true_r in E.
  destruct (Ascii.eqb_spec c c_bslash) as [->|N1].
  - destruct body as [|c1 body]; [subst n; discriminate|]. cbn in Hn. destruct n as [|n]; [lia|].
    injection Hn as Hn. cbn [literal_loop app negb andb] in E. rewrite andb_false_r in E.
    assert (K : forall d, In (c1, d) [("n", c_lf); ("r", c_cr); ("t", c_tab); (c_bslash, c_bslash); (c_quote, c_quote)]%char ->
       literal_loop n (body ++ tail) false false (acc ++ [d]) = Ret (Some v) ->
       exists w, v = acc ++ w /\ denotes (c_bslash :: c1 :: body) w).
    { intros d I H. apply (IH n) in H; [|lia|exact Hn]. destruct H as [w [-> Hw]].
      exists (d :: w). rewrite <- app_assoc. split; [reflexivity|]. eapply den_esc; eauto. }
    destruct (Ascii.eqb_spec c1 "n") as [->|]; [eapply K; [|exact E]; cbn; auto|].
    destruct (Ascii.eqb_spec c1 "r") as [->|]; [eapply K; [|exact E]; cbn; auto|].
    destruct (Ascii.eqb_spec c1 "t") as [->|]; [eapply K; [|exact E]; cbn; auto|].
    destruct (Ascii.eqb_spec c1 c_bslash) as [->|]; [eapply K; [|exact E]; cbn; auto|].
    destruct (Ascii.eqb_spec c1 c_quote) as [->|]; [eapply K; [|exact E]; cbn; auto 6|].
    destruct (Ascii.eqb_spec c1 "x") as [->|]; [|discriminate].
    destruct body as [|a body]; [subst n; discriminate|]. cbn in Hn. destruct n as [|n]; [lia|].
    injection Hn as Hn. cbn [literal_loop app negb andb] in E. rewrite andb_true_r in E.
    destruct (Ascii.eqb_spec a c_bslash) as [->|Na]; [discriminate|].
    destruct n as [|n]; [discriminate|]. destruct body as [|b body]; [discriminate|].
    injection Hn as Hn. cbn [app] in E.
    destruct (parse_uint [a; b] 16 8) as [x|] eqn:Ex; [|discriminate].
    apply parse_hex_pair in Ex. destruct Ex as [x1 [y1 [Hx [Hy ->]]]].
    apply (IH n) in E; [|lia|exact Hn]. destruct E as [w [-> Hw]].
    exists (ascii_of_N (16 * x1 + y1) :: w). rewrite <- app_assoc. split; [reflexivity|].
    apply den_hex; auto.
  - apply (IH n) in E; [|lia|exact Hn]. destruct E as [w [-> Hw]].
    exists (c :: w). rewrite <- app_assoc. split; [reflexivity|]. constructor; auto.
Qed.

Lemma literal_loop_complete body v : denotes body v -> forall tail acc,
  literal_loop (length body) (body ++ tail) false false acc = Ret (Some (acc ++ v)).
Proof.
  induction 1 as [|c r v N D IH|c d r v I D IH|a b x y r v Ha Hb D IH]; intros tail acc.
  - cbn. rewrite app_nil_r. reflexivity.
  - cbn [length literal_loop app negb andb]. rewrite andb_true_r.
    destruct (Ascii.eqb_spec c c_bslash); [contradiction|]. rewrite IH, <- app_assoc. reflexivity.
  - cbn [length literal_loop app negb andb].
    change (Ascii.eqb c_bslash c_bslash) with true. cbn [andb]. rewrite andb_false_r.
    cbn in I. destruct I as [I|[I|[I|[I|[I|[]]]]]]; injection I as <- <-;
      match goal with |- _ = Ret (Some (acc ++ ?d :: v)) =>
        change (literal_loop (length r) (r ++ tail) false false (acc ++ [d]) = Ret (Some (acc ++ d :: v)))
      end; rewrite IH, <- app_assoc; reflexivity.
  - cbn [length literal_loop app negb andb].
    change (Ascii.eqb c_bslash c_bslash) with true. cbn [andb]. rewrite andb_false_r.
    change (Ascii.eqb "x" "n") with false. change (Ascii.eqb "x" "r") with false.
    change (Ascii.eqb "x" "t") with false. change (Ascii.eqb "x" c_bslash) with false.
    change (Ascii.eqb "x" c_quote) with false. change (Ascii.eqb "x" "x") with true.
    cbn [literal_loop negb andb]. rewrite andb_true_r.
    destruct (Ascii.eqb_spec a c_bslash) as [->|_].
    { exfalso. unfold hex_digit in Ha. change (byte c_bslash) with 92%N in Ha. lia. }
    rewrite (proj2 (parse_hex_pair a b (16 * x + y))) by (exists x, y; auto).
    rewrite IH, <- app_assoc. reflexivity.
Qed.

Lemma literal_loop_no_panic n : forall rest esc hex acc, n <= length rest ->
  exists r, literal_loop n rest esc hex acc = Ret r.
Proof.
  induction n as [n IH] using (well_founded_induction lt_wf).
  intros rest esc hex acc H. destruct n as [|n]; [cbn; eauto|].
  destruct rest as [|c rest]; [cbn in H; lia|]. cbn in H. cbn [literal_loop].
  destruct (Ascii.eqb c c_bslash && negb esc).
  { destruct hex; [eauto|]. apply IH; lia. }
  assert (K : forall d, exists r, (if hex then
                match n with
                | 0 => Ret None
                | S n'' =>
                    match rest with
                    | [] => Panic
                    | c2 :: r2 =>
                        match parse_uint [c; c2] 16 8 with
                        | Some v => literal_loop n'' r2 false false (acc ++ [ascii_of_N v])
                        | None => Ret None
                        end
                    end
                end
              else literal_loop n rest false false (acc ++ [d])) = Ret r).
  { intros d. destruct hex; [|apply IH; lia]. destruct n as [|n]; [eauto|].
    destruct rest as [|c2 r2]; [cbn in H; lia|]. cbn in H.
    destruct (parse_uint [c; c2] 16 8); [apply IH; lia|eauto]. }
  destruct esc; [|apply K].
  repeat match goal with |- context [if Ascii.eqb c ?x then _ else _] => destruct (Ascii.eqb c x); [first [apply K | apply IH; lia]|] end.
  eauto.
Qed.

(* C54 *)
Theorem literal_accepts body v :
  parse_string_literal (c_quote :: body ++ [c_quote]) = Ret (Some v) <-> denotes body v.
Proof.
  unfold parse_string_literal.
  assert (L : length (c_quote :: body ++ [c_quote]) = S (S (length body)))
    by (cbn; rewrite app_length; cbn; lia).
  rewrite L. cbn [index nth_error bindr].
  replace (index (c_quote :: body ++ [c_quote]) (S (S (length body)) - 1)) with (Ret c_quote).
  2:{ unfold index. replace (S (S (length body)) - 1) with (S (length body)) by lia. cbn [nth_error].
      rewrite nth_error_app2, Nat.sub_diag by lia. reflexivity. }
  cbn [bindr]. change (Ascii.eqb c_quote c_quote) with true. cbn [negb orb skipn].
  replace (S (S (length body)) - 2) with (length body) by lia. split.
  - intros E. destruct (literal_loop_sound (length body) body [c_quote] [] v eq_refl E) as [w [-> D]]. exact D.
  - intros D. rewrite (literal_loop_complete body v D [c_quote] []). reflexivity.
Qed.

Theorem literal_no_panic s : s <> [] -> exists r, parse_string_literal s = Ret r.
Proof.
  intros H. destruct s as [|c s]; [congruence|]. unfold parse_string_literal, index.
  cbn [nth_error bindr].
  destruct (nth_error (c :: s) (length (c :: s) - 1)) as [d|] eqn:E.
  - cbn [bindr]. destruct (_ || _); [eauto|].
    apply literal_loop_no_panic. cbn. lia.
  - apply nth_error_None in E. cbn in E. lia.
Qed.

(* anything else is rejected *)
Theorem literal_rejects s v :
  parse_string_literal s = Ret (Some v) ->
  s = [c_quote] \/ exists body, s = c_quote :: body ++ [c_quote].
Proof.
  unfold parse_string_literal, index. intros E.
  destruct s as [|c s]; [discriminate|]. cbn [nth_error bindr] in E.
  destruct s as [|d s] using rev_ind.
  - cbn in E. destruct (Ascii.eqb_spec c c_quote) as [->|]; [left; reflexivity|discriminate].
  - clear IHs. right. exists s.
    assert (L : length (c :: s ++ [d]) - 1 = S (length s)) by (cbn; rewrite app_length; cbn; lia).
    rewrite L in E. cbn [nth_error] in E. rewrite nth_error_app2, Nat.sub_diag in E by lia.
    cbn [nth_error bindr] in E.
    destruct (Ascii.eqb_spec c c_quote) as [->|]; [|discriminate].
    destruct (Ascii.eqb_spec d c_quote) as [->|]; [|discriminate]. reflexivity.
Qed.

Lemma denotes_unique body v : denotes body v -> forall v', denotes body v' -> v = v'.
Proof.
  intros D v' D'. apply literal_accepts in D, D'. congruence.
Qed.

Lemma hex_char_digit d : (d < 16)%N -> hex_digit (hex_char d) d.
Proof.
  intros H. unfold hex_char, hex_digit, byte. destruct (N.ltb_spec d 10); rewrite N_ascii_embedding by lia; lia.
Qed.

Theorem escape_round_trip v : denotes (escape_all v) v.
Proof.
  induction v as [|c v IH]; cbn [escape_all flat_map app]; [constructor|].
  pose proof (byte_lt c) as B.
  assert (E : c = ascii_of_N (16 * (byte c / 16) + byte c mod 16)).
  { rewrite <- N.div_mod' . unfold byte. rewrite ascii_N_embedding. reflexivity. }
  rewrite E at 3. apply den_hex; [| |exact IH]; apply hex_char_digit.
  - apply N.div_lt_upper_bound; lia.
  - apply N.mod_lt. lia.
Qed.

Theorem literal_round_trip v :
  parse_string_literal (c_quote :: escape_all v ++ [c_quote]) = Ret (Some v).
Proof. apply literal_accepts. apply escape_round_trip. Qed.

Theorem literal_needs_quotes s v : s <> [c_quote] ->
  parse_string_literal s = Ret (Some v) -> exists body, s = c_quote :: body ++ [c_quote] /\ denotes body v.
Proof.
  intros N E. destruct (literal_rejects s v E) as [->|[body ->]]; [congruence|].
  exists body. split; [reflexivity|]. apply literal_accepts. exact E.
Qed.
