(* Proofs for C87: strconv.ParseUint with base 0 accepts exactly the numerals of IntSpec.v. *)
From Verif Require Import Base Strconv Process IntSpec LiteralsProofs.
From Coq Require Import ZifyBool ZifyNat ZifyN.

Lemma digit_of_is b c d : (b <= 36)%N -> (digit_of c = Some d /\ (d < b)%N <-> digit_is b c d).
Proof.
  intros B. unfold digit_of, digit_is.
  change (byte "0") with 48%N. change (byte "a") with 97%N. change (byte "A") with 65%N.
  destruct (in_chars "0" "9" c) eqn:E1.
  { apply in_chars_spec in E1. change (byte "0") with 48%N in E1. change (byte "9") with 57%N in E1. split.
    - intros [H1 H2]. injection H1 as <-. lia.
    - intros [H1 [H2|H2]]; [|lia]. split; [f_equal; lia|assumption]. }
  assert (N1 : ~ (48 <= byte c <= 57)%N).
  { intros H. apply (proj2 (in_chars_spec "0" "9" c)) in H. congruence. }
  destruct (in_chars "a" "z" c) eqn:E2.
  { apply in_chars_spec in E2. change (byte "a") with 97%N in E2. change (byte "z") with 122%N in E2. split.
    - intros [H1 H2]. injection H1 as <-. lia.
    - intros [H1 [H2|H2]]; [lia|]. split; [f_equal; lia|assumption]. }
  assert (N2 : ~ (97 <= byte c <= 122)%N).
  { intros H. apply (proj2 (in_chars_spec "a" "z" c)) in H. congruence. }
  destruct (in_chars "A" "Z" c) eqn:E3.
  { apply in_chars_spec in E3. change (byte "A") with 65%N in E3. change (byte "Z") with 90%N in E3. split.
    - intros [H1 H2]. injection H1 as <-. lia.
    - intros [H1 [H2|H2]]; [lia|]. split; [f_equal; lia|assumption]. }
  assert (N3 : ~ (65 <= byte c <= 90)%N).
  { intros H. apply (proj2 (in_chars_spec "A" "Z" c)) in H. congruence. }
  split; [intros [H _]; discriminate|]. intros [H1 H2]. lia.
Qed.

(* the bases of a numeral, and whether letters are its digits *)
Definition based (hex : bool) (b : N) : Prop := (b = 16 /\ hex = true \/ (b <= 10)%N /\ hex = false)%N.

Lemma based_36 hex b : based hex b -> (b <= 36)%N.
Proof. intros [[-> _]|[H _]]; lia. Qed.

Definition digit_class (hex : bool) (c : ascii) : bool :=
  in_chars "0" "9" c || (hex && (in_chars "a" "f" c || in_chars "A" "F" c)).

Lemma digit_classed hex b c d : based hex b -> digit_is b c d -> digit_class hex c = true.
Proof.
  unfold digit_class, digit_is. intros B [H1 H2].
  assert (X : (48 <= byte c <= 57 \/ hex = true /\ (97 <= byte c <= 102 \/ 65 <= byte c <= 70))%N).
  { destruct B as [[-> ->]|[B ->]]; lia. }
  destruct X as [X|[-> X]].
  - apply (proj2 (in_chars_spec "0" "9" c)) in X. rewrite X. reflexivity.
  - destruct X as [X|X].
    + apply (proj2 (in_chars_spec "a" "f" c)) in X. rewrite X. cbn. apply Bool.orb_true_r.
    + apply (proj2 (in_chars_spec "A" "F" c)) in X. rewrite X. cbn. rewrite !Bool.orb_true_r. reflexivity.
Qed.

Lemma digit_no_underscore b c d : digit_is b c d -> (b <= 36)%N -> Ascii.eqb c "_" = false.
Proof.
  intros [H1 H2] B. destruct (Ascii.eqb_spec c "_") as [->|]; [|reflexivity]. exfalso.
  change (byte "_") with 95%N in H2. lia.
Qed.

Lemma positional_acc b l : forall a,
  fold_left (fun x d => x * b + d)%N l a = (a * b ^ N.of_nat (length l) + positional b l)%N.
Proof.
  induction l as [|d l IH]; intros a; cbn [fold_left length positional].
  - rewrite N.pow_0_r. lia.
  - rewrite IH, Nat2N.inj_succ, N.pow_succ_r'. lia.
Qed.
Lemma positional_fold b l : fold_left (fun x d => x * b + d)%N l 0%N = positional b l.
Proof. rewrite positional_acc. lia. Qed.

(* from the grammar to the reader *)
Lemma digits_read hex b s l : based hex b -> digits b s l -> forall a w, 
  digits_val true b a s = Some (fold_left (fun x d => x * b + d)%N l a) /\ underscores_ok hex w s = true.
Proof.
  intros B. pose proof (based_36 _ _ B) as B36.
  induction 1 as [c d H|c d s l H _ IH|c d s l H _ IH]; intros a w.
  - destruct (proj2 (digit_of_is b c d B36) H) as [Hc Hd]. apply N.ltb_lt in Hd.
    cbn [digits_val fold_left underscores_ok]. rewrite (digit_no_underscore _ _ _ H B36). cbn [andb].
    rewrite Hc, Hd. pose proof (digit_classed _ _ _ _ B H) as C. unfold digit_class in C. rewrite C. auto.
  - destruct (proj2 (digit_of_is b c d B36) H) as [Hc Hd]. apply N.ltb_lt in Hd.
    cbn [digits_val fold_left underscores_ok]. rewrite (digit_no_underscore _ _ _ H B36). cbn [andb].
    rewrite Hc, Hd. pose proof (digit_classed _ _ _ _ B H) as C. unfold digit_class in C. rewrite C. apply IH.
  - destruct (proj2 (digit_of_is b c d B36) H) as [Hc Hd]. apply N.ltb_lt in Hd.
    destruct (IH (a * b + d)%N SawUnderscore) as [I1 I2].
    cbn [digits_val fold_left underscores_ok]. rewrite (digit_no_underscore _ _ _ H B36). cbn [andb].
    rewrite Hc, Hd. pose proof (digit_classed _ _ _ _ B H) as C. unfold digit_class in C. rewrite C.
    change (Ascii.eqb "_" "_") with true. cbn [andb].
    replace (in_chars "0" "9" "_" || (hex && (in_chars "a" "f" "_" || in_chars "A" "F" "_"))) with false
      by (destruct hex; reflexivity).
    auto.
Qed.

(* from the reader to the grammar: what may stand behind a digit, and behind an underscore or at the
   beginning *)
Lemma read_digits hex b s : based hex b -> forall a n,
  digits_val true b a s = Some n ->
  (underscores_ok hex SawDigit s = true ->
     (s = [] /\ n = a) \/
     exists l, n = fold_left (fun x d => x * b + d)%N l a /\
       (digits b s l \/ exists s', s = "_"%char :: s' /\ digits b s' l)) /\
  (underscores_ok hex SawUnderscore s = true ->
     exists l, digits b s l /\ n = fold_left (fun x d => x * b + d)%N l a) /\
  (underscores_ok hex SawBegin s = true ->
     (s = [] /\ n = a) \/ exists l, digits b s l /\ n = fold_left (fun x d => x * b + d)%N l a).
Proof.
  intros B. pose proof (based_36 _ _ B) as B36.
  assert (K : forall s a n c d, digit_is b c d ->
      ((s = [] /\ n = (a * b + d)%N) \/
       exists l, n = fold_left (fun x d => x * b + d)%N l (a * b + d)%N /\
         (digits b s l \/ exists s', s = "_"%char :: s' /\ digits b s' l)) ->
      exists l, digits b (c :: s) l /\ n = fold_left (fun x d => x * b + d)%N l a).
  { intros s0 a n c d D [[-> ->]|[l [-> [H|[s' [-> H]]]]]].
    - exists [d]. split; [constructor; exact D|reflexivity].
    - exists (d :: l). split; [apply ds_next; assumption|reflexivity].
    - exists (d :: l). split; [apply ds_gap; assumption|reflexivity]. }
  induction s as [|c s IH]; intros a n H.
  - cbn in H. injection H as <-. split; [|split].
    + left. auto.
    + discriminate.
    + left. auto.
  - cbn [digits_val] in H. destruct (Ascii.eqb_spec c "_") as [->|NE].
    + cbn [andb] in H. cbn [underscores_ok]. 
      replace (in_chars "0" "9" "_" || (hex && (in_chars "a" "f" "_" || in_chars "A" "F" "_"))) with false
        by (destruct hex; reflexivity).
      change (Ascii.eqb "_" "_") with true. cbv iota. destruct (IH _ _ H) as [_ [IHu _]].
      split; [|split]; [|discriminate|discriminate]. intros U. right. destruct (IHu U) as [l [D ->]].
      exists l. split; [reflexivity|]. right. eauto.
    + rewrite Bool.andb_false_r in H. destruct (digit_of c) as [d|] eqn:Ed; [|discriminate].
      destruct (N.ltb_spec d b) as [L|L]; [|discriminate].
      pose proof (proj1 (digit_of_is b c d B36) (conj Ed L)) as D.
      pose proof (digit_classed _ _ _ _ B D) as C. unfold digit_class in C.
      destruct (IH _ _ H) as [IHd _]. cbn [underscores_ok]. rewrite C.
      split; [|split]; intros U; specialize (K _ a n c d D (IHd U)); destruct K as [l [K1 K2]].
      * right. exists l. auto.
      * eauto.
      * right. eauto.
Qed.

(* without underscores there is nothing to check *)
Lemma no_underscores hex b s : based hex b -> forall a n w, digits_val true b a s = Some n ->
  has_underscore s = false -> w <> SawUnderscore \/ s <> [] -> underscores_ok hex w s = true.
Proof.
  intros B. pose proof (based_36 _ _ B) as B36.
  induction s as [|c s IH]; intros a n w H U W.
  - destruct w; try reflexivity. destruct W; congruence.
  - cbn [digits_val] in H. cbn [has_underscore existsb] in U. apply Bool.orb_false_iff in U. destruct U as [U1 U2].
    rewrite Ascii.eqb_sym in U1. rewrite U1, Bool.andb_false_r in H.
    destruct (digit_of c) as [d|] eqn:Ed; [|discriminate].
    destruct (N.ltb_spec d b) as [L|L]; [|discriminate].
    pose proof (proj1 (digit_of_is b c d B36) (conj Ed L)) as D.
    pose proof (digit_classed _ _ _ _ B D) as C. unfold digit_class in C. cbn [underscores_ok]. rewrite C.
    apply (IH _ _ SawDigit H U2). left. discriminate.
Qed.

Lemma lower_is_spec x c : (97 <= byte x <= 122)%N -> lower_is x c = true <-> (byte c = byte x \/ byte c = byte x - 32)%N.
Proof.
  unfold lower_is. intros X. rewrite Bool.orb_true_iff, N.eqb_eq, Ascii.eqb_eq.
  split; (intros [H|H]; [left|right; lia]).
  - now subst.
  - unfold byte in H. apply (f_equal ascii_of_N) in H. rewrite !ascii_N_embedding in H. exact H.
Qed.

Lemma byte_inj c d : byte c = byte d -> c = d.
Proof. unfold byte. intros H. apply (f_equal ascii_of_N) in H. rewrite !ascii_N_embedding in H. exact H. Qed.

(* the letter of a base prefix *)
Definition letter_base (c : ascii) : option (bool * N) :=
  if lower_is "b" c then Some (false, 2%N) else if lower_is "o" c then Some (false, 8%N)
  else if lower_is "x" c then Some (true, 16%N) else None.

Lemma letter_base_spec c b : (exists hex, letter_base c = Some (hex, b)) <-> base_letter c b.
Proof.
  unfold letter_base, base_letter. split.
  - intros [hex H].
    destruct (lower_is "b" c) eqn:Eb.
    { injection H as _ <-. left. split; [|reflexivity]. apply (lower_is_spec "b" c) in Eb; [|vm_compute; split; discriminate].
      cbn [In]. destruct Eb as [E|E]; [left|right; left]; symmetry; apply byte_inj; exact E. }
    destruct (lower_is "o" c) eqn:Eo.
    { injection H as _ <-. right. left. split; [|reflexivity]. apply (lower_is_spec "o" c) in Eo; [|vm_compute; split; discriminate].
      cbn [In]. destruct Eo as [E|E]; [left|right; left]; symmetry; apply byte_inj; exact E. }
    destruct (lower_is "x" c) eqn:Ex; [|discriminate].
    { injection H as _ <-. right. right. split; [|reflexivity]. apply (lower_is_spec "x" c) in Ex; [|vm_compute; split; discriminate].
      cbn [In]. destruct Ex as [E|E]; [left|right; left]; symmetry; apply byte_inj; exact E. }
  - intros [[H ->]|[[H ->]|[H ->]]]; cbn [In] in H; destruct H as [<-|[<-|[]]]; eexists; reflexivity.
Qed.

Lemma letter_based c hex b : letter_base c = Some (hex, b) -> based hex b.
Proof.
  unfold letter_base, based.
  destruct (lower_is "b" c); [intros H; injection H as <- <-; right; split; [lia|reflexivity]|].
  destruct (lower_is "o" c); [intros H; injection H as <- <-; right; split; [lia|reflexivity]|].
  destruct (lower_is "x" c); [intros H; injection H as <- <-; left; auto|discriminate].
Qed.

Lemma letter_no_octal c hex b : letter_base c = Some (hex, b) -> forall a s, digits_val true 8 a (c :: s) = None.
Proof.
  intros H a s. assert (base_letter c b) as L by (apply letter_base_spec; eauto).
  destruct L as [[L _]|[[L _]|[L _]]]; cbn [In] in L; destruct L as [<-|[<-|[]]]; reflexivity.
Qed.

Lemma prefix0_letter c d r : letter_base c <> None ->
  exists hex b, letter_base c = Some (hex, b) /\ prefix0 ("0"%char :: c :: d :: r) = (b, d :: r) /\
    underscore_ok ("0"%char :: c :: d :: r) = underscores_ok hex SawDigit (d :: r).
Proof.
  unfold letter_base, prefix0, underscore_ok. change (Ascii.eqb "0" "0") with true. cbn [andb].
  intros H. destruct (lower_is "b" c) eqn:Eb.
  { assert (lower_is "x" c = false) as ->.
    { destruct (lower_is "x" c) eqn:E; [|reflexivity]. apply (lower_is_spec "x" c) in E; [|vm_compute; split; discriminate].
      apply (lower_is_spec "b" c) in Eb; [|vm_compute; split; discriminate].
      change (byte "x") with 120%N in E. change (byte "b") with 98%N in Eb. lia. }
    exists false, 2%N. cbn [orb]. split; [reflexivity|split; reflexivity]. }
  destruct (lower_is "o" c) eqn:Eo.
  { assert (lower_is "x" c = false) as ->.
    { destruct (lower_is "x" c) eqn:E; [|reflexivity]. apply (lower_is_spec "x" c) in E; [|vm_compute; split; discriminate].
      apply (lower_is_spec "o" c) in Eo; [|vm_compute; split; discriminate].
      change (byte "x") with 120%N in E. change (byte "o") with 111%N in Eo. lia. }
    exists false, 8%N. cbn [orb]. split; [reflexivity|split; reflexivity]. }
  destruct (lower_is "x" c); [|congruence]. exists true, 16%N. cbn [orb]. split; [reflexivity|split; reflexivity].
Qed.

(* the digits of a numeral: base, and where they begin *)
Definition body (s : str) : option (bool * N * bool * str) :=
  match s with
  | c :: r =>
      if Ascii.eqb c "0" then
        match r with
        | x :: ((_ :: _) as d) => match letter_base x with Some (hex, b) => Some (hex, b, true, d) | None => Some (false, 8%N, true, r) end
        | _ => Some (false, 8%N, true, r)
        end
      else Some (false, 10%N, false, s)
  | [] => None
  end.

Lemma body_based s hex b f d : body s = Some (hex, b, f, d) -> based hex b.
Proof.
  assert (based false 8) by (right; split; [lia|reflexivity]).
  unfold body. destruct s as [|c r]; [discriminate|]. destruct (Ascii.eqb c "0").
  - destruct r as [|x [|y r]]; try (intros E; injection E as <- <- _ _; assumption).
    destruct (letter_base x) as [[h b0]|] eqn:E.
    + intros H'. injection H' as <- <- _ _. exact (letter_based _ _ _ E).
    + intros H'. injection H' as <- <- _ _. assumption.
  - intros E. injection E as <- <- _ _. right. split; [lia|reflexivity].
Qed.

Lemma body_reader s hex b f d : body s = Some (hex, b, f, d) ->
  s <> [] /\ prefix0 s = (b, d) /\ 
  (underscore_ok s = underscores_ok hex (if f then SawDigit else SawBegin) d).
Proof.
  unfold body. destruct s as [|c r]; [discriminate|]. intros H. split; [discriminate|].
  destruct (Ascii.eqb_spec c "0") as [->|NE].
  - destruct r as [|x [|y r]].
    + injection H as <- <- <- <-. auto.
    + injection H as <- <- <- <-. split; [reflexivity|]. unfold underscore_ok. change (Ascii.eqb "0" "0") with true. cbn [andb].
      destruct (lower_is "b" x) eqn:Eb.
      { apply (lower_is_spec "b" x) in Eb; [|vm_compute; split; discriminate].
        destruct Eb as [E|E]; [change (byte "b") with (byte "b") in E|change (byte "b" - 32)%N with (byte "B") in E];
        apply byte_inj in E; subst x; reflexivity. }
      destruct (lower_is "o" x) eqn:Eo.
      { apply (lower_is_spec "o" x) in Eo; [|vm_compute; split; discriminate].
        destruct Eo as [E|E]; [|change (byte "o" - 32)%N with (byte "O") in E];
        apply byte_inj in E; subst x; reflexivity. }
      destruct (lower_is "x" x) eqn:Ex.
      { apply (lower_is_spec "x" x) in Ex; [|vm_compute; split; discriminate].
        destruct Ex as [E|E]; [|change (byte "x" - 32)%N with (byte "X") in E];
        apply byte_inj in E; subst x; reflexivity. }
      reflexivity.
    + destruct (letter_base x) as [[h b0]|] eqn:E.
      * injection H as <- <- <- <-. destruct (prefix0_letter x y r ltac:(congruence)) as [h' [b' [E' [P1 P2]]]].
        rewrite E in E'. injection E' as <- <-. auto.
      * injection H as <- <- <- <-. unfold letter_base in E. unfold prefix0, underscore_ok.
        change (Ascii.eqb "0" "0") with true. cbn [andb].
        destruct (lower_is "b" x); [discriminate|]. destruct (lower_is "o" x); [discriminate|]. destruct (lower_is "x" x); [discriminate|].
        cbn [orb]. split; reflexivity.
  - injection H as <- <- <- <-. unfold prefix0, underscore_ok. rewrite (proj2 (Ascii.eqb_neq c "0") NE). cbn [andb].
    split; [reflexivity|]. destruct r; reflexivity.
Qed.

Theorem parse_uint_numeral s n : parse_uint s 0 64 = Some n <-> number s n.
Proof.
  unfold number. destruct (body s) as [[[[hex b] f] d]|] eqn:E.
  2:{ destruct s as [|c r]; [|unfold body in E; destruct (Ascii.eqb c "0"); [|discriminate];
        destruct r as [|x [|y r]]; try discriminate; destruct (letter_base x) as [[? ?]|]; discriminate].
      split; [discriminate|]. intros [H _]. inversion H. }
  destruct (body_reader _ _ _ _ _ E) as [NE [P U]]. pose proof (body_based _ _ _ _ _ E) as B.
  assert (PU : parse_uint s 0 64 = match digits_val true b 0 d with
      | Some n => if (2 ^ 64 <=? n)%N then None else if has_underscore d && negb (underscore_ok s) then None else Some n
      | None => None end).
  { unfold parse_uint. change (0 =? 0)%N with true. cbv iota. rewrite P. cbn [andb]. destruct s; [congruence|reflexivity]. }
  rewrite PU, U. clear PU P U NE.
  split.
  - destruct (digits_val true b 0 d) as [m|] eqn:V; [|discriminate].
    destruct (N.leb_spec (2 ^ 64) m) as [L|L]; [discriminate|].
    destruct (has_underscore d && negb (underscores_ok hex (if f then SawDigit else SawBegin) d)) eqn:W; [discriminate|].
    intros H. injection H as <-. split; [|exact L].
    assert (O : underscores_ok hex (if f then SawDigit else SawBegin) d = true).
    { destruct (has_underscore d) eqn:Hu.
      - cbn [andb] in W. destruct (underscores_ok hex _ d); [reflexivity|discriminate].
      - apply (no_underscores hex b d B 0 m); auto. left. destruct f; discriminate. }
    destruct (read_digits hex b d B 0 m V) as [R1 [_ R3]]. clear W L.
    unfold body in E. destruct s as [|c r]; [discriminate|]. destruct (Ascii.eqb_spec c "0") as [->|NE].
    + assert (f = true) as ->.
      { destruct r as [|x [|y r]]; try (injection E as _ _ <- _; reflexivity).
        destruct (letter_base x) as [[? ?]|]; injection E as _ _ <- _; reflexivity. }
      specialize (R1 O).
      assert (Oct : forall r0, b = 8%N -> d = r0 -> numeral ("0"%char :: r0) m).
      { intros r0 -> ->. destruct R1 as [[-> ->]|[l [-> R1]]]; [constructor|]. rewrite positional_fold.
        destruct R1 as [R1|[s' [-> R1]]]; [apply nu_octal; exact R1|apply nu_octal_gap; exact R1]. }
      destruct r as [|x [|y r]].
      * injection E as _ Eb Ed. apply Oct; congruence.
      * injection E as _ Eb Ed. apply Oct; congruence.
      * destruct (letter_base x) as [[h b0]|] eqn:X.
        -- injection E as -> -> <-. assert (base_letter x b) as BL by (apply letter_base_spec; eauto).
           destruct R1 as [[F _]|[l [-> R1]]]; [discriminate|]. rewrite positional_fold.
           destruct R1 as [R1|[s' [Es R1]]]; [apply nu_base; assumption|]. rewrite Es. apply nu_base_gap; assumption.
        -- injection E as _ Eb Ed. apply Oct; congruence.
    + injection E as <- <- <- <-. destruct (R3 O) as [[F _]|[l [D ->]]]; [discriminate|].
      rewrite positional_fold. apply nu_dec; assumption.
  - intros [H L].
    assert (K : digits_val true b 0 d = Some n /\ underscores_ok hex (if f then SawDigit else SawBegin) d = true).
    { destruct H as [|c s l NE D|s l D|s l D|c b' s l BL D|c b' s l BL D].
      - injection E as <- <- <- <-. split; reflexivity.
      - unfold body in E. rewrite (proj2 (Ascii.eqb_neq c "0") NE) in E. injection E as <- <- <- <-.
        rewrite <- (positional_fold 10 l). exact (digits_read false 10 _ l B D 0%N SawBegin).
      - assert (X : Some (hex, b, f, d) = Some (false, 8%N, true, s)).
        { rewrite <- E. unfold body. change (Ascii.eqb "0" "0") with true. cbv iota.
          destruct s as [|x [|y r]]; try reflexivity. destruct (letter_base x) as [[h b0]|] eqn:X; [|reflexivity]. exfalso.
          assert (B8 : based false 8) by (right; split; [lia|reflexivity]).
          destruct (digits_read false 8 _ l B8 D 0%N SawBegin) as [R _].
          rewrite (letter_no_octal _ _ _ X) in R. discriminate. }
        injection X as -> -> -> ->. rewrite <- (positional_fold 8 l). exact (digits_read false 8 _ l B D 0%N SawDigit).
      - assert (X : Some (hex, b, f, d) = Some (false, 8%N, true, "_"%char :: s)).
        { rewrite <- E. unfold body. change (Ascii.eqb "0" "0") with true. cbv iota. destruct s; reflexivity. }
        injection X as -> -> -> ->. rewrite <- (positional_fold 8 l).
        cbn [digits_val underscores_ok andb]. exact (digits_read false 8 _ l B D 0%N SawUnderscore).
      - apply letter_base_spec in BL. destruct BL as [h X].
        assert (Y : Some (hex, b, f, d) = Some (h, b', true, s)).
        { rewrite <- E. unfold body. change (Ascii.eqb "0" "0") with true. cbv iota. rewrite X. destruct s; [inversion D|reflexivity]. }
        injection Y as -> -> -> ->. rewrite <- (positional_fold b' l). exact (digits_read h b' _ l B D 0%N SawDigit).
      - apply letter_base_spec in BL. destruct BL as [h X].
        assert (Y : Some (hex, b, f, d) = Some (h, b', true, "_"%char :: s)).
        { rewrite <- E. unfold body. change (Ascii.eqb "0" "0") with true. cbv iota. rewrite X. reflexivity. }
        injection Y as -> -> -> ->. rewrite <- (positional_fold b' l).
        destruct (digits_read h b' _ l B D 0%N SawUnderscore) as [R1 R2].
        cbn [digits_val underscores_ok andb]. split; [exact R1|]. destruct h; exact R2. }
    destruct K as [-> ->]. cbn [negb]. rewrite Bool.andb_false_r. destruct (N.leb_spec (2 ^ 64) n); [lia|reflexivity].
Qed.
