(* Proofs about the complaints (Complaints.v). *)
From Verif Require Import Base LexSpec Lexer Expr Linter Fields Strconv Literals LiteralsProofs Codec OpTable Process ProcessSpec
  ProcessProofs ErrorSpec ErrorProofs LspProofs Complaints ComplaintSpec.
From Coq Require Import Lia.

(* ------------------------------------------------------------------------------------------ *)
(* numbers *)
Lemma digits_grow base0 base s : (1 <= base)%N -> forall n m, digits_val base0 base n s = Some m -> (n <= m)%N.
Proof.
  intros B. induction s as [|c r IH]; intros n m E; cbn [digits_val] in E.
  - injection E as <-. lia.
  - destruct (base0 && Ascii.eqb c "_"); [auto|]. destruct (digit_of c) as [d|]; [|discriminate].
    destruct (d <? base)%N; [|discriminate]. apply IH in E. nia.
Qed.

Lemma digits_error_none base0 base max s : forall n, (n < max)%N -> digits_error base0 base max n s = None ->
  exists m, digits_val base0 base n s = Some m /\ (m < max)%N.
Proof.
  induction s as [|c r IH]; intros n L E; cbn [digits_val digits_error] in *; [eauto|].
  destruct (base0 && Ascii.eqb c "_"); [auto|]. destruct (digit_of c) as [d|]; [|discriminate].
  destruct (d <? base)%N; [|discriminate]. destruct (N.leb_spec max (n * base + d)); [discriminate|]. auto.
Qed.

Lemma digits_error_some base0 base max s e : (1 <= base)%N -> forall n, digits_error base0 base max n s = Some e ->
  forall m, digits_val base0 base n s = Some m -> (max <= m)%N.
Proof.
  intros B. induction s as [|c r IH]; intros n E m V; cbn [digits_val digits_error] in *; [discriminate|].
  destruct (base0 && Ascii.eqb c "_"); [eauto|]. destruct (digit_of c) as [d|]; [|discriminate].
  destruct (d <? base)%N; [|discriminate]. destruct (N.leb_spec max (n * base + d)); [|eauto].
  apply digits_grow in V; lia.
Qed.

Lemma prefix0_base s : (1 <= fst (prefix0 s))%N.
Proof.
  unfold prefix0. destruct s as [|c r]; [cbn; lia|]. destruct (Ascii.eqb c "0"); [|cbn; lia].
  destruct r as [|c1 [|c2 r]]; try (cbn; lia). destruct (lower_is "b" c1); [cbn; lia|].
  destruct (lower_is "o" c1); [cbn; lia|]. destruct (lower_is "x" c1); cbn; lia.
Qed.

Lemma uint_error_none s base bits : uint_error s base bits = None -> exists n, parse_uint s base bits = Some n.
Proof.
  unfold uint_error, parse_uint. destruct s as [|c r]; [discriminate|].
  match goal with |- context [if (base =? 0)%N then prefix0 ?x else ?y] => destruct (if (base =? 0)%N then prefix0 x else y) as [b d] end.
  destruct (digits_error (base =? 0)%N b (2 ^ bits) 0 d) as [e|] eqn:E; [discriminate|].
  assert (Z : (0 < 2 ^ bits)%N) by (assert (2 ^ bits <> 0)%N by (apply N.pow_nonzero; lia); lia).
  destruct (digits_error_none _ _ _ _ 0%N Z E) as [m [-> L]].
  destruct (N.leb_spec (2 ^ bits) m); [lia|]. destruct (_ && _ && _); [discriminate|]. eauto.
Qed.
Lemma uint_error_some s base bits e : uint_error s base bits = Some e -> parse_uint s base bits = None.
Proof.
  unfold uint_error, parse_uint. destruct s as [|c r]; [reflexivity|].
  match goal with |- context [if (base =? 0)%N then prefix0 ?x else ?y] => destruct (if (base =? 0)%N then prefix0 x else y) as [b d] eqn:P end.
  assert (B : (1 <= b)%N).
  { destruct (N.eqb_spec base 0).
    - pose proof (prefix0_base (c :: r)) as Q. rewrite P in Q. exact Q.
    - injection P as <- <-. lia. }
  destruct (digits_error (base =? 0)%N b (2 ^ bits) 0 d) as [e'|] eqn:E.
  - intros _. destruct (digits_val (base =? 0)%N b 0 d) as [m|] eqn:V; [|reflexivity].
    pose proof (digits_error_some _ _ _ _ _ B _ E _ V) as Q. destruct (N.leb_spec (2 ^ bits) m); [reflexivity|lia].
  - destruct (digits_val (base =? 0)%N b 0 d); [|reflexivity]. destruct (_ <=? _)%N; [reflexivity|].
    destruct (_ && _ && _); [reflexivity|discriminate].
Qed.
Lemma int_error_none s base bits : int_error s base bits = None -> exists n, parse_int s base bits = Some n.
Proof.
  unfold int_error, parse_int. destruct s as [|c r]; [discriminate|].
  set (d := if Ascii.eqb c "-" || Ascii.eqb c "+" then r else c :: r).
  destruct (uint_error d base bits) eqn:E; [discriminate|]. destruct (uint_error_none _ _ _ E) as [n ->].
  destruct (Ascii.eqb c "-"); match goal with |- context [if ?b then _ else _] => destruct b end; try discriminate; eauto.
Qed.
Lemma int_error_some s base bits e : int_error s base bits = Some e -> parse_int s base bits = None.
Proof.
  unfold int_error, parse_int. destruct s as [|c r]; [reflexivity|].
  set (d := if Ascii.eqb c "-" || Ascii.eqb c "+" then r else c :: r).
  destruct (uint_error d base bits) eqn:E; [rewrite (uint_error_some _ _ _ _ E); reflexivity|].
  destruct (parse_uint d base bits) as [n|]; [|reflexivity].
  destruct (Ascii.eqb c "-"); match goal with |- context [if ?b then _ else _] => destruct b end; try discriminate; reflexivity.
Qed.

(* a value that is too large *)
Lemma digits_range base0 base max r : forall s n, numeral base0 base s n -> digits_error base0 base max n r = Some NumRange ->
  exists u w m, r = u ++ w /\ numeral base0 base (s ++ u) m /\ (max <= m)%N.
Proof.
  induction r as [|c r IH]; intros s n H E; cbn [digits_error] in E; [discriminate|].
  destruct base0.
  - cbn [andb] in E. destruct (Ascii.eqb_spec c "_") as [->|Q].
    + destruct (IH (s ++ ["_"%char]) n (NumUnder _ _ _ _ eq_refl H) E) as [u [w [m [-> [A B]]]]].
      exists ("_"%char :: u), w, m. split; [reflexivity|]. rewrite <- app_assoc in A. auto.
    + destruct (digit_of c) as [d|] eqn:D; [|discriminate]. destruct (N.ltb_spec d base); [|discriminate].
      pose proof (NumDigit _ _ _ _ _ _ H D ltac:(assumption)) as H'. destruct (N.leb_spec max (n * base + d)).
      * exists [c], r, (n * base + d)%N. auto.
      * destruct (IH _ _ H' E) as [u [w [m [-> [A B]]]]]. exists (c :: u), w, m. split; [reflexivity|].
        rewrite <- app_assoc in A. auto.
  - cbn [andb] in E. destruct (digit_of c) as [d|] eqn:D; [|discriminate]. destruct (N.ltb_spec d base); [|discriminate].
    pose proof (NumDigit _ _ _ _ _ _ H D ltac:(assumption)) as H'. destruct (N.leb_spec max (n * base + d)).
    * exists [c], r, (n * base + d)%N. auto.
    * destruct (IH _ _ H' E) as [u [w [m [-> [A B]]]]]. exists (c :: u), w, m. split; [reflexivity|].
      rewrite <- app_assoc in A. auto.
Qed.

(* ------------------------------------------------------------------------------------------ *)
(* literals *)
Lemma loop_error_spec : forall n rest esc hex acc, n <= length rest ->
  match loop_error n rest esc hex with
  | Some _ => literal_loop n rest esc hex acc = Ret None
  | None => exists v, literal_loop n rest esc hex acc = Ret (Some v)
  end.
Proof.
  assert (H : forall m n, n <= m -> forall rest esc hex acc, n <= length rest ->
    match loop_error n rest esc hex with
    | Some _ => literal_loop n rest esc hex acc = Ret None
    | None => exists v, literal_loop n rest esc hex acc = Ret (Some v)
    end); [|intros n; exact (H n n (le_n n))].
  induction m as [|m IH]; intros n Ln rest esc hex acc L.
  - replace n with 0 by lia. cbn. destruct (esc || hex); eauto.
  - destruct n as [|n]; [cbn; destruct (esc || hex); eauto|]. destruct rest as [|c r]; [cbn in L; lia|].
    cbn [length] in L. cbn [loop_error literal_loop].
    assert (P : forall d, match (if hex then match n with 0 => Some LHexEnd | S n'' => match r with [] => None | c2 :: r2 =>
                       match uint_error [c; c2] 16 8 with Some e => Some (LHexNum [c; c2] e) | None => loop_error n'' r2 false false end end end
                     else loop_error n r false false) with
                | Some _ => (if hex then match n with 0 => Ret None | S n'' => match r with [] => Panic | c2 :: r2 =>
                       match parse_uint [c; c2] 16 8 with Some v => literal_loop n'' r2 false false (acc ++ [ascii_of_N v]) | None => Ret None end end end
                     else literal_loop n r false false (acc ++ [d])) = Ret None
                | None => exists v, (if hex then match n with 0 => Ret None | S n'' => match r with [] => Panic | c2 :: r2 =>
                       match parse_uint [c; c2] 16 8 with Some v => literal_loop n'' r2 false false (acc ++ [ascii_of_N v]) | None => Ret None end end end
                     else literal_loop n r false false (acc ++ [d])) = Ret (Some v)
                end).
    { intros d. destruct hex.
      - destruct n as [|n'']; [reflexivity|]. destruct r as [|c2 r2]; [cbn in L; lia|]. cbn [length] in L.
        destruct (uint_error [c; c2] 16 8) as [e|] eqn:E; [rewrite (uint_error_some _ _ _ _ E); reflexivity|].
        destruct (uint_error_none _ _ _ E) as [v ->]. apply IH; lia.
      - apply IH; lia. }
    destruct (Ascii.eqb c c_bslash && negb esc).
    + destruct hex; [reflexivity|]. apply IH; lia.
    + destruct esc.
      * destruct (Ascii.eqb c "n"); [apply P|]. destruct (Ascii.eqb c "r"); [apply P|]. destruct (Ascii.eqb c "t"); [apply P|].
        destruct (Ascii.eqb c c_bslash); [apply P|]. destruct (Ascii.eqb c c_quote); [apply P|]. cbn [orb].
        destruct (Ascii.eqb c "x"); [apply IH; lia|reflexivity].
      * apply P.
Qed.

Lemma string_error_spec s : 1 < length s ->
  match string_error s with
  | Some _ => parse_string_literal s = Ret None
  | None => exists v, parse_string_literal s = Ret (Some v)
  end.
Proof.
  intros L. unfold string_error, parse_string_literal, index.
  destruct (nth_error s 0) as [a|] eqn:A; [|apply nth_error_None in A; lia].
  destruct (nth_error s (length s - 1)) as [b|] eqn:B; [|apply nth_error_None in B; lia].
  cbn [bindr]. destruct (_ || _); [reflexivity|]. apply loop_error_spec. rewrite skipn_length. lia.
Qed.

(* ------------------------------------------------------------------------------------------ *)
(* operands *)
Lemma library_spec {A} (o : option A) : library o = None <-> o <> None.
Proof. destruct o; cbn; split; congruence. Qed.

Lemma parens_error_spec enc p q a decode :
  bs p = q ++ ["("%char] -> ~ In "("%char q -> ~ In ")"%char (bs p) -> has_prefix p a = true ->
  forall r : list str,
  (parens_error enc a decode = None <->
   obind (between_parens a) (fun x => obind (decode x) (fun v => Some (v : str, r))) <> None).
Proof.
  intros Ep Nq Np Hp r0. destruct (has_prefix_split _ _ Hp) as [r Er].
  assert (Eo : index_of "(" a = Some (length q)).
  { rewrite Er, Ep, <- app_assoc, index_of_app_notin by exact Nq. cbn. f_equal. lia. }
  assert (Ec : index_of ")" a = option_map (fun n => length (bs p) + n) (index_of ")" r)).
  { rewrite Er. apply index_of_app_notin. exact Np. }
  assert (Lp : length (bs p) = S (length q)) by (rewrite Ep, app_length; cbn; lia).
  unfold between_parens, parens_error. rewrite Eo, Ec.
  destruct (index_of ")" r) as [n|] eqn:En; cbn [option_map obind]; [|split; congruence].
  pose proof (index_of_lt _ _ _ En) as Hn.
  assert (La : length a = length (bs p) + length r) by (rewrite Er, app_length; reflexivity).
  replace (length q <? length (bs p) + n) with true by lia. cbn [obind].
  unfold slice. replace ((length q + 1 <=? length (bs p) + n) && (length (bs p) + n <=? length a)) with true by lia.
  destruct (decode _); cbn [library obind]; split; congruence.
Qed.

Lemma bytes_error_spec en a r : bytes_error en a r = None <->
  byte_operand en a r <> None \/ (encoding a = true /\ r = []).
Proof.
  assert (Z : forall p, In p ["base32("; "b32("; "base64("; "b64("; "0x"] -> has_prefix p a = true -> forall X : Prop,
    (X <-> X \/ encoding a = true /\ r = [])).
  { intros p I Hp X. rewrite (prefix_encoding p a I Hp). intuition congruence. }
  unfold bytes_error, byte_operand.
  destruct (has_prefix "base32(" a) eqn:P1.
  { cbn [orb]. rewrite <- (Z "base32(" ltac:(cbn; tauto) P1). apply (parens_error_spec _ "base32(" (bs "base32")); cbn; intuition discriminate. }
  destruct (has_prefix "b32(" a) eqn:P2.
  { cbn [orb]. rewrite <- (Z "b32(" ltac:(cbn; tauto) P2). apply (parens_error_spec _ "b32(" (bs "b32")); cbn; intuition discriminate. }
  cbn [orb]. destruct (has_prefix "base64(" a) eqn:P3.
  { cbn [orb]. rewrite <- (Z "base64(" ltac:(cbn; tauto) P3). apply (parens_error_spec _ "base64(" (bs "base64")); cbn; intuition discriminate. }
  destruct (has_prefix "b64(" a) eqn:P4.
  { cbn [orb]. rewrite <- (Z "b64(" ltac:(cbn; tauto) P4). apply (parens_error_spec _ "b64(" (bs "b64")); cbn; intuition discriminate. }
  cbn [orb]. destruct (has_prefix "0x" a) eqn:P5.
  { rewrite <- (Z "0x" ltac:(cbn; tauto) P5). destruct (hex_decode _); cbn; split; congruence. }
  unfold encoding.
  destruct (seqb a (bs "base32") || seqb a (bs "b32")).
  { destruct r as [|l r]; [cbn; intuition congruence|]. destruct (b32_decode en l); cbn; intuition congruence. }
  destruct (seqb a (bs "base64") || seqb a (bs "b64")).
  { destruct r as [|l r]; [cbn; intuition congruence|]. destruct (b64_decode l); cbn; intuition congruence. }
  cbn [orb]. destruct (Nat.ltb_spec 1 (length a)) as [L|L]; cbn [andb].
  - pose proof (string_error_spec a L) as Q. unfold string_error in *.
    destruct (nth_error a 0) as [x|] eqn:A; [|apply nth_error_None in A; lia].
    destruct (nth_error a (length a - 1)) as [y|] eqn:B; [|apply nth_error_None in B; lia].
    destruct (Ascii.eqb x c_quote), (Ascii.eqb y c_quote); cbn [andb negb orb] in *;
      try (rewrite Q; intuition congruence).
    destruct (loop_error _ _ _ _); [rewrite Q; intuition congruence|]. destruct Q as [v ->]. intuition congruence.
  - destruct (parse_string_literal a) as [[v|]| |]; intuition congruence.
Qed.

Lemma quoted_ends a : quoted a = true <-> exists x y, nth_error a 0 = Some x /\ nth_error a (length a - 1) = Some y /\
  Ascii.eqb x c_quote = true /\ Ascii.eqb y c_quote = true.
Proof.
  unfold quoted. destruct a as [|c r]; [cbn; split; [discriminate|intros (x & y & Q & _); discriminate]|].
  assert (E : nth_error (c :: r) (length (c :: r) - 1) = Some (last (c :: r) c)).
  { destruct (exists_last (l := c :: r) ltac:(discriminate)) as [w [z Ew]]. rewrite Ew.
    rewrite last_last, app_length. cbn [length]. replace (length w + 1 - 1) with (length w) by lia.
    rewrite nth_error_app2, Nat.sub_diag by lia. reflexivity. }
  rewrite E. cbn [nth_error]. split.
  - intros H. apply andb_prop in H. eauto 6.
  - intros (x & y & A1 & B1 & A & B). injection A1 as <-. assert (Ey : y = last (c :: r) c) by congruence.
    rewrite <- Ey, A, B. reflexivity.
Qed.

Lemma field_error_spec specs v s : field_error specs v s = None <-> fst_of (read_field specs v s) <> None.
Proof.
  unfold field_error, read_field. destruct (spec_by_name specs s) as [[f sp]|].
  - destruct (v <? f_version sp)%N; cbn; split; congruence.
  - unfold read_uint8. destruct (uint_error s 10 8) as [e|] eqn:E; [rewrite (uint_error_some _ _ _ _ E)|destruct (uint_error_none _ _ _ E) as [n ->]];
      cbn; split; congruence.
Qed.
Lemma txn_field_error_spec k v s : txn_field_error k v s = None <-> fst_of (read_txn_field k v s) <> None.
Proof.
  unfold txn_field_error, read_txn_field. destruct (spec_by_name txnFieldSpecs s) as [[f sp]|].
  - destruct k; repeat match goal with |- context [if ?b then _ else _] => destruct b end; cbn; split; congruence.
  - unfold read_uint8. destruct (uint_error s 10 8) as [e|] eqn:E; [rewrite (uint_error_some _ _ _ _ E)|destruct (uint_error_none _ _ _ E) as [n ->]];
      cbn; split; congruence.
Qed.
Lemma uint_spec f s b n : of_num f (uint_error s b n) = None <-> parse_uint s b n <> None.
Proof.
  destruct (uint_error s b n) as [e|] eqn:E; [rewrite (uint_error_some _ _ _ _ E)|destruct (uint_error_none _ _ _ E) as [m ->]];
    cbn; split; congruence.
Qed.

(* the errors are there exactly where the values are not *)
Theorem operand_error_spec en v k a r : operand_error en v k a r = None <->
  operand en v k a r <> None \/ (k = IBytes /\ encoding a = true /\ r = []).
Proof.
  destruct k; cbn [operand_error operand operand_value];
    try (match goal with |- _ <-> obind ?o _ <> None \/ _ =>
      transitivity (o <> None); [|destruct o; cbn; intuition congruence] end);
    try apply field_error_spec; try apply txn_field_error_spec; try apply uint_spec.
  - destruct (int_error a 10 8) as [e|] eqn:E; unfold read_int8;
      [rewrite (int_error_some _ _ _ _ E)|destruct (int_error_none _ _ _ E) as [m ->]]; cbn; split; congruence.
  - unfold const_error, read_const_int. destruct (lookup txn_type_map a); [cbn; split; congruence|].
    destruct (lookup on_completion_map a); [cbn; split; congruence|]. apply uint_spec.
  - rewrite bytes_error_spec. intuition.
  - split; congruence.
  - destruct (addr_ok en a); split; congruence.
  - pose proof (quoted_ends a) as Q. destruct (nth_error a 0) as [x|].
    + destruct (nth_error a (length a - 1)) as [y|].
      * destruct (Ascii.eqb x c_quote) eqn:Ex, (Ascii.eqb y c_quote) eqn:Ey; cbn [negb orb].
        1: rewrite (proj2 Q) by eauto 8; split; congruence.
        all: destruct (quoted a); [|split; congruence]; destruct (proj1 Q eq_refl) as (x' & y' & [= <-] & [= <-] & A & B); congruence.
      * destruct (quoted a); [|split; congruence]. destruct (proj1 Q eq_refl) as (x' & y' & _ & A & _); discriminate.
    + destruct (quoted a); [|split; congruence]. destruct (proj1 Q eq_refl) as (x' & y' & A & _); discriminate.
Qed.

(* ------------------------------------------------------------------------------------------ *)
(* where the error is *)
Lemma error_fault en v k a r c : operand_error en v k a r = Some c ->
  exists t b, at_fault k a r = t :: b /\ operand en v k a r = None /\ operand_fault k a r = (length b, RValue).
Proof.
  intros E. pose proof (proj2 (operand_error_spec en v k a r)) as Q. rewrite E in Q.
  assert (O : operand en v k a r = None).
  { destruct (operand en v k a r) as [x|] eqn:O; [|reflexivity]. exfalso.
    assert (Q' : Some c = None) by (apply Q; left; intros H; discriminate H). discriminate Q'. }
  assert (Z : k <> IBytes -> exists t b, at_fault k a r = t :: b /\ operand en v k a r = None /\ operand_fault k a r = (length b, RValue)).
  { intros Nk. exists a, r. destruct k; try (split; [reflexivity|split; [exact O|reflexivity]]). congruence. }
  destruct k; try (apply Z; discriminate). clear Z. cbn [at_fault operand_fault]. unfold byte_fault.
  destruct (encoding a) eqn:En; [|exists a, r; auto]. destruct r as [|l r]; [|exists l, r; auto].
  assert (Q' : Some c = None) by (apply Q; right; auto). discriminate Q'.
Qed.

Lemma fault_error en v k a r m : operand en v k a r = None -> operand_fault k a r = (m, RValue) ->
  exists c t b, operand_error en v k a r = Some c /\ at_fault k a r = t :: b /\ m = length b.
Proof.
  intros O F. destruct (operand_error en v k a r) as [c|] eqn:E.
  - destruct (error_fault _ _ _ _ _ _ E) as [t [b [A [_ F']]]]. exists c, t, b. split; [reflexivity|]. split; [exact A|congruence].
  - apply operand_error_spec in E. destruct E as [E|[-> [E ->]]]; [congruence|]. cbn [operand_fault] in F. unfold byte_fault in F.
    rewrite E in F. discriminate.
Qed.

(* the bytes of a list up to one that is refused *)
Lemma bytes_stop en n : forall l m, length l <= n -> bytes_of en l = None -> bytes_wrong en l = (m, RValue) ->
  exists u a r xs, l = u ++ a :: r /\ bytes_of en u = Some xs /\ byte_operand en a r = None /\ byte_fault a r = (m, RValue).
Proof.
  induction n as [|n IH]; intros [|a r] m L; try discriminate; [cbn in L; lia|].
  rewrite bytes_of_cons, bytes_wrong_cons. destruct (byte_operand en a r) as [[x r']|] eqn:E; cbn [obind fst snd]; intros B F.
  - destruct (bytes_of en r') as [xs|] eqn:Er; [discriminate|]. pose proof (byte_operand_shrinks _ _ _ _ _ E). cbn in L.
    destruct (byte_operand_cut _ _ _ _ _ E) as [w [-> Ew]].
    destruct (IH r' m ltac:(lia) Er F) as [u [a' [s [xs [-> [U [O W]]]]]]].
    exists (a :: w ++ u), a', s, (x :: xs). split; [cbn; rewrite <- app_assoc; reflexivity|]. split; [|auto].
    rewrite bytes_of_cons, Ew. cbn [obind fst snd]. rewrite U. reflexivity.
  - exists [], a, r, []. auto.
Qed.
Lemma bytes_stopped en : forall n u xs a r, length u <= n -> bytes_of en u = Some xs -> byte_operand en a r = None ->
  bytes_of en (u ++ a :: r) = None /\ bytes_wrong en (u ++ a :: r) = byte_fault a r.
Proof.
  induction n as [|n IH]; intros [|y u] xs a r L B O; try (cbn in L; lia); cbn [app].
  1, 2: rewrite bytes_of_cons, bytes_wrong_cons, O; auto.
  rewrite bytes_of_cons in B. destruct (byte_operand en y u) as [[x r']|] eqn:E; [|discriminate]. cbn [obind fst snd] in B.
  pose proof (byte_operand_shrinks _ _ _ _ _ E). cbn in L. destruct (byte_operand_cut _ _ _ _ _ E) as [w [-> Ew]].
  destruct (bytes_of en r') as [ys|] eqn:Er; [|discriminate].
  rewrite <- app_assoc, bytes_of_cons, bytes_wrong_cons, Ew. cbn [obind fst snd].
  destruct (IH r' ys a r ltac:(lia) Er O) as [-> ->]. auto.
Qed.
Lemma bytes_split_unique en n : forall u u' a r a' r' xs xs', length u <= n -> u ++ a :: r = u' ++ a' :: r' ->
  bytes_of en u = Some xs -> bytes_of en u' = Some xs' -> byte_operand en a r = None -> byte_operand en a' r' = None ->
  a = a' /\ r = r'.
Proof.
  assert (Z : forall x u a r xs, bytes_of en (x :: u) = Some xs -> byte_operand en x (u ++ a :: r) <> None).
  { intros x u a r xs B. rewrite bytes_of_cons in B. destruct (byte_operand en x u) as [[y z]|] eqn:E; [|discriminate].
    destruct (byte_operand_cut _ _ _ _ _ E) as [w [-> Ew]]. rewrite <- app_assoc, Ew. discriminate. }
  induction n as [|n IH]; intros [|x u] [|x' u'] a r a' r' xs xs' L E B B' O O'; try (cbn in L; lia); cbn [app] in E.
  1, 3: injection E as -> ->; auto.
  1, 2: injection E as -> ->; exfalso; exact (Z _ _ _ _ _ B' O).
  1: { injection E as -> <-. exfalso. exact (Z _ _ _ _ _ B O'). }
  injection E as -> E. rewrite bytes_of_cons in B, B'.
  destruct (byte_operand en x' u) as [[y z]|] eqn:E1; [|discriminate]. destruct (byte_operand en x' u') as [[y' z']|] eqn:E2; [|discriminate].
  cbn [obind fst snd] in *. pose proof (byte_operand_shrinks _ _ _ _ _ E1). cbn in L.
  destruct (byte_operand_cut _ _ _ _ _ E1) as [w [-> W1]]. destruct (byte_operand_cut _ _ _ _ _ E2) as [w' [-> W2]].
  rewrite <- !app_assoc in E. pose proof (W1 (z ++ a :: r)) as Q1. rewrite E, W2 in Q1. injection Q1 as _ Q1.
  destruct (bytes_of en z) as [ys|] eqn:Bz; [|discriminate]. destruct (bytes_of en z') as [ys'|] eqn:Bz'; [|discriminate].
  eapply (IH z z'); [lia|symmetry; exact Q1|exact Bz|exact Bz'|exact O|exact O'].
Qed.

Lemma ints_stop l : forall m, all_ints l = None -> ints_fault l = (m, RValue) ->
  exists u a r xs, l = u ++ a :: r /\ all_ints u = Some xs /\ parse_uint a 0 64 = None /\ m = length r.
Proof.
  induction l as [|a r IH]; intros m; [discriminate|]. cbn [all_ints ints_fault].
  destruct (parse_uint a 0 64) as [x|] eqn:E; cbn [obind]; intros A F.
  - destruct (all_ints r) as [xs|]; [discriminate|]. destruct (IH m eq_refl F) as [u [a' [s [xs [-> [U [O W]]]]]]].
    exists (a :: u), a', s, (x :: xs). cbn [all_ints app]. rewrite E, U. auto.
  - exists [], a, r, []. injection F as <-. auto.
Qed.
Lemma ints_stopped u xs a r : all_ints u = Some xs -> parse_uint a 0 64 = None ->
  all_ints (u ++ a :: r) = None /\ ints_fault (u ++ a :: r) = (length r, RValue).
Proof.
  revert xs. induction u as [|y u IH]; intros xs A O; cbn [app all_ints ints_fault] in *; [rewrite O; auto|].
  destruct (parse_uint y 0 64) as [x|]; [|discriminate]. cbn [obind] in *. destruct (all_ints u) as [ys|]; [|discriminate].
  destruct (IH ys eq_refl O) as [-> ->]. auto.
Qed.
Lemma ints_split_unique u : forall u' a r a' r' xs xs', u ++ a :: r = u' ++ a' :: r' ->
  all_ints u = Some xs -> all_ints u' = Some xs' -> parse_uint a 0 64 = None -> parse_uint a' 0 64 = None -> a = a' /\ r = r'.
Proof.
  induction u as [|x u IH]; intros [|x' u'] a r a' r' xs xs' E A A' O O'; cbn [app all_ints] in *; injection E as -> E.
  - auto.
  - rewrite O in A'. discriminate.
  - rewrite O' in A. discriminate.
  - destruct (parse_uint x' 0 64); [|discriminate]. cbn [obind] in *. destruct (all_ints u) as [ys|] eqn:Eu; [|discriminate].
    destruct (all_ints u') as [ys'|] eqn:Eu'; [|discriminate]. eapply IH; eauto.
Qed.

Lemma int_operand en v a r : operand en v IInt a r = None <-> parse_uint a 0 64 = None.
Proof. cbn [operand operand_value]. destruct (parse_uint a 0 64); cbn; split; congruence. Qed.

(* a fault is an operand that is refused *)
Lemma fault_read en v p : forall args m, assemble en v p args = None -> prog_fault en v p args = (m, RValue) ->
  exists k n a r c t b, read_as en v p args k n a r /\ operand_error en v k a r = Some c /\ at_fault k a r = t :: b /\ m = length b.
Proof.
  induction p as [e|x p IH|o x p IH|k nm f IH|nm f IH|nm f IH|nm f IH|nm f IH]; intros args m A F; cbn [assemble prog_fault] in A, F.
  - discriminate.
  - destruct (IH _ _ A F) as (k & n & a & r & c & t & b & R & Q). exists k, n, a, r, c, t, b. split; [constructor; exact R|exact Q].
  - destruct (IH _ _ A F) as (k & n & a & r & c & t & b & R & Q). exists k, n, a, r, c, t, b. split; [constructor; exact R|exact Q].
  - destruct args as [|a r]; [discriminate|]. destruct (operand en v k a r) as [[x r']|] eqn:E; cbn [obind fst snd] in A, F.
    + destruct (IH _ _ _ A F) as (k' & n & a' & r0 & c & t & b & R & Q). exists k', n, a', r0, c, t, b.
      split; [econstructor; eassumption|exact Q].
    + destruct (fault_error _ _ _ _ _ _ E F) as (c & t & b & Q). exists k, nm, a, r, c, t, b. split; [constructor|exact Q].
  - destruct args as [|a r]; [destruct (nothing_value _ _ _ _ A F)|]. destruct (read_uint8 a) as [x|] eqn:E; cbn [obind] in A, F.
    + destruct (IH _ _ _ A F) as (k' & n & a' & r0 & c & t & b & R & Q). exists k', n, a', r0, c, t, b.
      split; [econstructor; eassumption|exact Q].
    + assert (O : operand en v IUint8 a r = None) by (cbn [operand operand_value]; rewrite E; reflexivity).
      destruct (fault_error _ _ _ _ _ _ O F) as (c & t & b & Q). exists IUint8, nm, a, r, c, t, b. split; [constructor|exact Q].
  - destruct (all_ints args) as [xs|] eqn:E; cbn [obind] in A; [destruct (nothing_value _ _ _ _ A F)|].
    destruct (ints_stop _ _ E F) as (u & a & r & xs & -> & U & O & ->).
    destruct (fault_error en v IInt a r (length r) (proj2 (int_operand _ _ _ _) O) eq_refl) as (c & t & b & Q).
    exists IInt, nm, a, r, c, t, b. split; [econstructor; exact U|exact Q].
  - destruct (all_bytes en (length args) args) as [xs|] eqn:E; cbn [obind] in A; [destruct (nothing_value _ _ _ _ A F)|].
    destruct (bytes_stop en (length args) args m (le_n _) E F) as (u & a & r & xs & -> & U & O & W).
    destruct (fault_error en v IBytes a r m O W) as (c & t & b & Q).
    exists IBytes, nm, a, r, c, t, b. split; [econstructor; exact U|exact Q].
  - destruct (nothing_value _ _ _ _ A F).
Qed.

Lemma read_fault en v p args k n a r c : read_as en v p args k n a r -> operand_error en v k a r = Some c ->
  exists t b, at_fault k a r = t :: b /\ assemble en v p args = None /\ prog_fault en v p args = (length b, RValue).
Proof.
  intros R E. destruct (error_fault _ _ _ _ _ _ E) as [t [b [A [O F]]]]. exists t, b. split; [exact A|]. clear A E.
  induction R; cbn [assemble prog_fault].
  - rewrite O. auto.
  - cbn [operand operand_value] in O. destruct (read_uint8 a); [discriminate|]. cbn [obind]. cbn [operand_fault] in F. auto.
  - apply int_operand in O. destruct (ints_stopped u xs a r H O) as [-> ->]. auto.
  - destruct (bytes_stopped en (length u) u xs a r (le_n _) H O) as [B W]. unfold bytes_of, bytes_wrong in B, W. rewrite B, W. auto.
  - auto.
  - auto.
  - rewrite H. cbn [obind fst snd]. auto.
  - rewrite H. cbn [obind]. auto.
Qed.

Lemma read_unique en v p args k n a r k' n' a' r' : read_as en v p args k n a r -> operand en v k a r = None ->
  read_as en v p args k' n' a' r' -> operand en v k' a' r' = None -> k = k' /\ n = n' /\ a = a' /\ r = r'.
Proof.
  intros R. revert k' n' a' r'. induction R; intros k' n' a' r' O R' O'; inversion R'; subst;
    repeat match goal with
    | H : existT _ _ _ = existT _ _ _ |- _ => apply Eqdep_dec.inj_pair2_eq_dec in H; [|decide equality]
    end; subst; auto; try congruence.
  all: try (cbn [operand operand_value] in O; match goal with H : read_uint8 _ = Some _ |- _ => rewrite H in O end; discriminate).
  all: try (cbn [operand operand_value] in O'; match goal with H : read_uint8 _ = Some _ |- _ => rewrite H in O' end; discriminate).
  - apply int_operand in O, O'. destruct (ints_split_unique u0 u a' r' a r xs0 xs); auto.
  - destruct (bytes_split_unique en (length u0) u0 u a' r' a r xs0 xs (le_n _)); auto.
  - assert (Q : (x, args) = (x0, args0)) by congruence. injection Q as Q1 Q2. subst. apply IHR; assumption.
  - assert (Q : x = x0) by congruence. subst. apply IHR; assumption.
Qed.

(* ------------------------------------------------------------------------------------------ *)
(* lines *)
Lemma op_texts o u p args : kind_of (o :: u) = LOp p args -> args = texts u.
Proof.
  intros E. pose proof (kind_args (o :: u)) as K. rewrite E in K. destruct K as [x [y [Q ->]]]. congruence.
Qed.

Theorem said_mistake en v u t b c : said en v u t b c -> mistake en v (u ++ t :: b) t RValue.
Proof.
  intros S. destruct S.
  - cbn [app]. apply MPragmaNumber; [assumption|assumption|]. eapply uint_error_some. eassumption.
  - destruct (read_fault _ _ _ _ _ _ _ _ _ H0 H1) as [t' [b' [A [N F]]]].
    assert (b' = texts b) by congruence. subst b'. apply (marks_mistake en v _ (length (texts b), RValue)).
    + unfold line_fault. cbn [app]. rewrite H. rewrite N, F. reflexivity.
    + split; [reflexivity|]. cbn [fst]. unfold texts. rewrite map_length. apply nth_behind.
Qed.

Lemma at_fault_suffix en v p args k n a r : read_as en v p args k n a r -> exists w, args = w ++ at_fault k a r.
Proof.
  intros R. assert (Q : exists w, args = w ++ a :: r).
  { induction R.
    - exists []. reflexivity.
    - exists []. reflexivity.
    - exists u. reflexivity.
    - exists u. reflexivity.
    - exact IHR.
    - exact IHR.
    - destruct IHR as [w ->]. destruct (operand_cut _ _ _ _ _ _ _ H) as [w' [-> _]]. exists (a0 :: w' ++ w). cbn. rewrite <- app_assoc. reflexivity.
    - destruct IHR as [w ->]. exists (a0 :: w). reflexivity. }
  destruct Q as [w ->]. destruct k; try (exists w; reflexivity). cbn [at_fault]. destruct (encoding a); [|exists w; reflexivity].
  exists (w ++ [a]). rewrite <- app_assoc. reflexivity.
Qed.

Theorem mistake_said en v l t : mistake en v l t RValue -> exists u b c, l = u ++ t :: b /\ said en v u t b c.
Proof.
  intros M. destruct (mistake_marks _ _ _ _ _ M) as [f [L [S P]]].
  inversion M as [| | | | |o a x r K V U| | | |o u x b p K G W N]; subst.
  - destruct (uint_error (tok_v t) 0 64) as [e|] eqn:E; [|destruct (uint_error_none _ _ _ E) as [n Q]; congruence].
    exists [o; a], r, (Complaint IInt "version value" (CUint (tok_v t) e)). split; [reflexivity|]. constructor; assumption.
  - unfold line_fault in L. rewrite K in L.
    assert (A : assemble en v p (texts (u ++ t :: b)) = None).
    { unfold texts. rewrite map_app. cbn [map]. apply N. }
    rewrite A in L. injection L as L. destruct f as [m rs]. cbn [fst snd] in S, P. subst rs.
    destruct (fault_read _ _ _ _ _ A L) as (k & n & a & r & c & t' & b' & R & E & Q & ->).
    destruct (at_fault_suffix _ _ _ _ _ _ _ _ R) as [w Ew]. rewrite Q in Ew.
    destruct (texts_split _ _ _ _ Ew) as [u1 [t1 [b1 [E1 [<- [<- <-]]]]]].
    unfold texts in P. rewrite map_length in P. rewrite E1 in *. change (o :: u1 ++ t1 :: b1) with ((o :: u1) ++ t1 :: b1) in P.
    rewrite nth_behind in P. injection P as ->.
    exists (o :: u1), b1, (Complaint k n c). split; [reflexivity|]. econstructor; eassumption.
Qed.

Theorem said_unique en v u t b c u' t' b' c' : said en v u t b c -> said en v u' t' b' c' -> u ++ t :: b = u' ++ t' :: b' ->
  u = u' /\ t = t' /\ b = b' /\ c = c'.
Proof.
  intros S S' E. destruct S as [o a t b e K V U|o u t b p k n a r c K R U Q], S' as [o' a' t' b' e' K' V' U'|o' u' t' b' p' k' n' a' r' c' K' R' U' Q'].
  - injection E as -> -> -> ->. rewrite U in U'. injection U' as ->. auto.
  - exfalso. change ((o' :: u') ++ t' :: b') with (o' :: u' ++ t' :: b') in E. rewrite <- E in K'. cbn [app] in K'. congruence.
  - exfalso. change ((o :: u) ++ t :: b) with (o :: u ++ t :: b) in E. rewrite E in K. cbn [app] in K. congruence.
  - cbn [app] in E. injection E as -> E. rewrite <- E in *. rewrite K in K'. injection K' as <-.
    destruct (error_fault _ _ _ _ _ _ U) as [x [y [_ [O _]]]]. destruct (error_fault _ _ _ _ _ _ U') as [x' [y' [_ [O' _]]]].
    destruct (read_unique _ _ _ _ _ _ _ _ _ _ _ _ R O R' O') as [<- [<- [<- <-]]].
    rewrite U in U'. injection U' as <-. rewrite Q in Q'. injection Q' as _ Q'.
    assert (L : length b = length b') by (rewrite <- (map_length tok_v b), <- (map_length tok_v b'); unfold texts in Q'; congruence).
    assert (Lu : length u = length u') by (apply (f_equal (@length _)) in E; rewrite !app_length in E; cbn [length] in E; lia).
    assert (Eu : u = u' /\ t :: b = t' :: b').
    { apply (f_equal (firstn (length u))) in E as E1. rewrite !firstn_app, Nat.sub_diag, firstn_all in E1.
      replace (length u - length u') with 0 in E1 by lia. rewrite Lu, firstn_all in E1. cbn [firstn] in E1. rewrite !app_nil_r in E1.
      subst u'. apply app_inv_head in E. auto. }
    destruct Eu as [-> Eu]. injection Eu as -> ->. auto.
Qed.

(* ------------------------------------------------------------------------------------------ *)
(* versions *)
Lemma field_mono specs v w s x : (v <= w)%N -> read_field specs v s = Some x -> read_field specs w s = Some x.
Proof.
  unfold read_field. intros L. destruct (spec_by_name specs s) as [[f sp]|]; [|auto].
  destruct (N.ltb_spec v (f_version sp)); [discriminate|]. destruct (N.ltb_spec w (f_version sp)); [lia|auto].
Qed.
Lemma txn_field_mono k v w s x : (v <= w)%N -> read_txn_field k v s = Some x -> read_txn_field k w s = Some x.
Proof.
  unfold read_txn_field. intros L. destruct (spec_by_name txnFieldSpecs s) as [[f sp]|]; [|auto].
  assert (A : (if (v <? f_version sp)%N then None else Some (f, true)) = Some x -> (if (w <? f_version sp)%N then None else Some (f, true)) = Some x).
  { destruct (N.ltb_spec v (f_version sp)); [discriminate|]. destruct (N.ltb_spec w (f_version sp)); [lia|auto]. }
  destruct k; auto. destruct (f_itx sp =? 0)%N; [discriminate|].
  destruct (N.ltb_spec v (f_itx sp)); [discriminate|]. destruct (N.ltb_spec w (f_itx sp)); [lia|auto].
Qed.
Lemma fst_mono (o o' : option (N * bool)) : (forall x, o = Some x -> o' = Some x) -> forall y, fst_of o = Some y -> fst_of o' = Some y.
Proof. intros H y. destruct o as [x|]; [|discriminate]. rewrite (H x eq_refl). auto. Qed.

(* what is accepted stays accepted in later versions *)
Lemma operand_mono en v w k a r x : (v <= w)%N -> operand en v k a r = Some x -> operand en w k a r = Some x.
Proof.
  intros L. destruct k; cbn [operand operand_value]; auto;
    match goal with |- obind ?o _ = _ -> obind ?o' _ = _ =>
      assert (H : forall y, o = Some y -> o' = Some y) by
        (apply fst_mono; intros; first [eapply field_mono; eassumption|eapply txn_field_mono; eassumption]);
      destruct o as [y|]; [rewrite (H y eq_refl); auto|discriminate] end.
Qed.
Lemma read_mono en v w p args k n a r : (v <= w)%N -> read_as en v p args k n a r -> read_as en w p args k n a r.
Proof.
  intros L R. induction R; try (econstructor; eassumption).
  econstructor; [|eassumption]. eapply operand_mono; eassumption.
Qed.

Definition too_new (c : cause) : bool := match c with CTooNew _ _ => true | _ => false end.
Lemma num_not_new f o c : (forall e, too_new (f e) = false) -> of_num f o = Some c -> too_new c = false.
Proof. intros H. destruct o; [|discriminate]. cbn. intros [= <-]. apply H. Qed.
Lemma library_not_new {A} (o : option A) c : library o = Some c -> too_new c = false.
Proof. destruct o; [discriminate|]. intros [= <-]. reflexivity. Qed.
Lemma bytes_not_new en a r c : bytes_error en a r = Some c -> too_new c = false.
Proof.
  unfold bytes_error, parens_error.
  repeat match goal with
  | |- context [if ?b then _ else _] => destruct b
  | |- context [match ?o with _ => _ end] => destruct o
  end; try discriminate; try (intros [= <-]; reflexivity); apply library_not_new.
Qed.

(* a name that is too new is accepted from the version on that is told *)
Lemma error_version en v k a r need got : operand_error en v k a r = Some (CTooNew need got) ->
  got = v /\ (v < need)%N /\ k <> IBytes /\ k <> IInt /\ k <> IUint8 /\
  forall w, operand_error en w k a r = if (w <? need)%N then Some (CTooNew need w) else None.
Proof.
  assert (F : forall specs, field_error specs v a = Some (CTooNew need got) ->
    got = v /\ (v < need)%N /\ forall w, field_error specs w a = if (w <? need)%N then Some (CTooNew need w) else None).
  { intros specs. unfold field_error. destruct (spec_by_name specs a) as [[f sp]|]; [|destruct (uint_error a 10 8); discriminate].
    destruct (N.ltb_spec v (f_version sp)); [|discriminate]. intros [= <- <-]. auto. }
  assert (T : forall k, txn_field_error k v a = Some (CTooNew need got) ->
    got = v /\ (v < need)%N /\ forall w, txn_field_error k w a = if (w <? need)%N then Some (CTooNew need w) else None).
  { intros k'. unfold txn_field_error. destruct (spec_by_name txnFieldSpecs a) as [[f sp]|]; [|destruct (uint_error a 10 8); discriminate].
    assert (Z : (if (v <? f_version sp)%N then Some (CTooNew (f_version sp) v) else None) = Some (CTooNew need got) ->
      got = v /\ (v < need)%N /\ forall w, (if (w <? f_version sp)%N then Some (CTooNew (f_version sp) w) else None) = if (w <? need)%N then Some (CTooNew need w) else None).
    { destruct (N.ltb_spec v (f_version sp)); [|discriminate]. intros [= <- <-]. auto. }
    destruct k'; try exact Z; clear Z.
    - destruct (f_itx sp =? 0)%N; [discriminate|]. destruct (N.ltb_spec v (f_itx sp)); [|discriminate]. intros [= <- <-]. auto.
    - destruct (f_array sp); discriminate. }
  destruct k; cbn [operand_error]; intros E;
    try (destruct (F _ E) as [-> [Q1 Q2]]; repeat split; try discriminate; assumption);
    try (destruct (T _ E) as [-> [Q1 Q2]]; repeat split; try discriminate; assumption);
    exfalso; try (apply num_not_new in E; [discriminate|reflexivity]).
  - apply bytes_not_new in E. discriminate.
  - discriminate.
  - destruct (addr_ok en a); discriminate.
  - destruct (nth_error a 0); [|discriminate]. destruct (nth_error a (length a - 1)); [|discriminate]. destruct (_ || _); discriminate.
Qed.

(* and no version helps where none is told *)
Lemma error_forever en v k a r c : operand_error en v k a r = Some c -> too_new c = false ->
  forall w, operand_error en w k a r = Some c.
Proof.
  assert (F : forall specs, field_error specs v a = Some c -> too_new c = false -> forall w, field_error specs w a = Some c).
  { intros specs. unfold field_error. destruct (spec_by_name specs a) as [[f sp]|]; [|auto].
    destruct (v <? f_version sp)%N; [|discriminate]. intros [= <-]. discriminate. }
  assert (T : forall k, txn_field_error k v a = Some c -> too_new c = false -> forall w, txn_field_error k w a = Some c).
  { intros k'. unfold txn_field_error. destruct (spec_by_name txnFieldSpecs a) as [[f sp]|]; [|auto].
    assert (Z : (if (v <? f_version sp)%N then Some (CTooNew (f_version sp) v) else None) = Some c -> too_new c = false ->
      forall w, (if (w <? f_version sp)%N then Some (CTooNew (f_version sp) w) else None) = Some c).
    { destruct (v <? f_version sp)%N; [|discriminate]. intros [= <-]. discriminate. }
    destruct k'; try exact Z; [|auto].
    destruct (f_itx sp =? 0)%N; [auto|]. destruct (v <? f_itx sp)%N; [|discriminate]. intros [= <-]. discriminate. }
  destruct k; cbn [operand_error]; auto.
Qed.

Lemma later_complaint en v p args k n a r x rest k' n' a' r' :
  k <> IBytes -> k <> IInt -> k <> IUint8 -> read_as en v p args k n a r -> operand en v k a r = Some (x, rest) ->
  read_as en v p args k' n' a' r' -> operand en v k' a' r' = None -> length (a' :: r') <= length rest.
Proof.
  intros K1 K2 K3 R O R' O'. revert x O. induction R; intros y O; try congruence; inversion R'; subst;
    repeat match goal with
    | H : existT _ _ _ = existT _ _ _ |- _ => apply Eqdep_dec.inj_pair2_eq_dec in H; [|decide equality]
    end; subst; try congruence; auto.
  - assert (Q : (x, args) = (y, rest)) by congruence. injection Q as Q1 Q2. subst.
    match goal with H : read_as _ _ (f y) rest _ _ _ _ |- _ => clear - H; revert H end.
    intros H. remember (f y) as q. clear Heqq. clear - H.
    assert (Q : exists w, rest = w ++ a' :: r').
    { induction H.
      - exists []. reflexivity.
      - exists []. reflexivity.
      - exists u. reflexivity.
      - exists u. reflexivity.
      - exact IHread_as.
      - exact IHread_as.
      - destruct IHread_as as [w ->]. destruct (operand_cut _ _ _ _ _ _ _ H) as [w' [-> _]]. exists (a0 :: w' ++ w). cbn. rewrite <- app_assoc. reflexivity.
      - destruct IHread_as as [w ->]. exists (a0 :: w). reflexivity. }
    destruct Q as [w ->]. rewrite app_length. lia.
  - eapply IHR; eassumption.
  - eapply IHR; eassumption.
  - match goal with H1 : operand _ _ ?k ?a ?r = Some ?p, H2 : operand _ _ ?k ?a ?r = Some ?q |- _ =>
      assert (Q : p = q) by congruence; injection Q as Q1 Q2; subst end.
    eapply IHR; eassumption.
  - cbn [operand operand_value] in O'. match goal with H : read_uint8 _ = Some _ |- _ => rewrite H in O' end. discriminate.
  - match goal with H1 : read_uint8 ?k = Some ?p, H2 : read_uint8 ?k = Some ?q |- _ => assert (Q : p = q) by congruence; subst end.
    eapply IHR; eassumption.
Qed.

Theorem said_version en v u t b k n need got : said en v u t b (Complaint k n (CTooNew need got)) ->
  got = v /\ (v < need)%N /\
  (forall w, (v <= w < need)%N -> said en w u t b (Complaint k n (CTooNew need w))) /\
  (forall w u' t' b' c', (need <= w)%N -> u ++ t :: b = u' ++ t' :: b' -> said en w u' t' b' c' -> length u < length u').
Proof.
  intros S. inversion S as [|o u0 t0 b0 p k0 n0 a r c K R U Q]; subst.
  destruct (error_version _ _ _ _ _ _ _ U) as [-> [L [K1 [K2 [K3 W]]]]]. split; [reflexivity|]. split; [exact L|].
  assert (A : a :: r = tok_v t :: texts b) by (destruct k; try exact Q; congruence). injection A as -> ->.
  split.
  - intros w Lw. econstructor; [exact K|eapply read_mono; [|exact R]; lia| |exact Q].
    rewrite W. destruct (N.ltb_spec w need); [reflexivity|lia].
  - intros w u' t' b' c' Lw E S'. destruct S' as [o' a' t' b' e' K' V' U'|o' u' t' b' p' k' n' a' r' c' K' R' U' Q'].
    { exfalso. change ((o :: u0) ++ t :: b) with (o :: u0 ++ t :: b) in E. rewrite E in K. cbn [app] in K. congruence. }
    cbn [app] in E. injection E as -> E. rewrite E in *. rewrite K in K'. injection K' as <-.
    pose proof (W w) as Ew. destruct (N.ltb_spec w need); [lia|]. apply operand_error_spec in Ew.
    destruct Ew as [Ew|[? _]]; [|congruence].
    destruct (operand en w k (tok_v t) (texts b)) as [[x rest]|] eqn:O; [|congruence].
    destruct (error_fault _ _ _ _ _ _ U') as [x' [y' [_ [O' _]]]].
    assert (Lvw : (v <= w)%N) by lia.
    pose proof (later_complaint en w p _ k n _ _ x rest k' n' a' r' K1 K2 K3 (read_mono _ v w _ _ _ _ _ _ Lvw R) O R' O') as Le.
    assert (Er : rest = texts b).
    { destruct (operand_cut _ _ _ _ _ _ _ O) as [z [Ez Ez']]. specialize (Ez' (texts b)).
      destruct k; cbn [operand] in O; try congruence;
        (destruct (operand_value _ _ _ _); [|discriminate]; cbn [obind] in O; injection O as _ O; congruence). }
    subst rest. assert (Lf : length (at_fault k' a' r') <= length (a' :: r')).
    { destruct k'; try apply le_n. cbn [at_fault]. destruct (encoding a'); cbn [length]; lia. }
    rewrite Q' in Lf. unfold texts in Lf, Le. cbn [length] in Lf, Le. rewrite !map_length in *.
    apply (f_equal (@length _)) in E. rewrite !app_length in E. cbn [length] in *. lia.
Qed.

Theorem said_forever en v u t b c : said en v u t b c -> too_new (c_cause c) = false ->
  forall w, (v <= w)%N -> said en w u t b c.
Proof.
  intros S F w L. destruct S; [constructor; assumption|]. cbn [c_cause] in F.
  econstructor; [eassumption|eapply read_mono; eassumption|eapply error_forever; eassumption|assumption].
Qed.

(* ------------------------------------------------------------------------------------------ *)
(* numbers that are too large *)
Lemma numeral_error base0 base max s n : numeral base0 base s n -> (0 < max)%N -> forall r,
  (if (max <=? n)%N then Some NumRange else digits_error base0 base max n r) = digits_error base0 base max 0 (s ++ r).
Proof.
  intros H Z. induction H as [|s n c d H IH D L|s n B H IH]; intros r.
  - destruct (N.leb_spec max 0); [lia|reflexivity].
  - rewrite <- app_assoc, <- IH. cbn [app digits_error]. replace (base0 && Ascii.eqb c "_") with false.
    + rewrite D. destruct (N.ltb_spec d base); [|lia]. destruct (N.leb_spec max n), (N.leb_spec max (n * base + d)); try reflexivity. nia.
    + destruct (Ascii.eqb_spec c "_") as [->|]; [|rewrite andb_false_r; reflexivity]. discriminate D.
  - rewrite <- app_assoc, <- IH. cbn [app digits_error]. rewrite B. reflexivity.
Qed.

Lemma range_spec base0 base max d : (0 < max)%N ->
  (digits_error base0 base max 0 d = Some NumRange <-> exists u w m, d = u ++ w /\ numeral base0 base u m /\ (max <= m)%N).
Proof.
  intros Z. split.
  - intros E. exact (digits_range base0 base max d [] 0%N (NumNil _ _) E).
  - intros (u & w & m & -> & H & L). rewrite <- (numeral_error _ _ _ _ _ H Z). destruct (N.leb_spec max m); [reflexivity|lia].
Qed.

Lemma pow_pos bits : (0 < 2 ^ bits)%N.
Proof. assert (2 ^ bits <> 0)%N by (apply N.pow_nonzero; lia). lia. Qed.

Lemma uint_range s base bits : uint_error s base bits = Some NumRange <->
  s <> [] /\ exists u w m, (if (base =? 0)%N then snd (prefix0 s) else s) = u ++ w /\
    numeral (base =? 0)%N (if (base =? 0)%N then fst (prefix0 s) else base) u m /\ (2 ^ bits <= m)%N.
Proof.
  unfold uint_error. destruct s as [|c r]; [split; [discriminate|intros [Q _]; congruence]|].
  destruct (base =? 0)%N.
  - destruct (prefix0 (c :: r)) as [b d]. cbn [fst snd]. rewrite <- (range_spec true b (2 ^ bits) d (pow_pos bits)).
    destruct (digits_error true b (2 ^ bits) 0 d) as [e|]; [split; [intros ->; split; congruence|tauto]|].
    destruct (_ && _ && _); split; intuition congruence.
  - rewrite <- (range_spec false base (2 ^ bits) (c :: r) (pow_pos bits)).
    destruct (digits_error false base (2 ^ bits) 0 (c :: r)) as [e|]; [split; [intros ->; split; congruence|tauto]|].
    cbn [andb]. split; intuition congruence.
Qed.

(* ------------------------------------------------------------------------------------------ *)
(* the texts tell the causes apart *)
Lemma new_apart need got need' got' x : cause_text (CTooNew need got) = Some x -> cause_text (CTooNew need' got') = Some x ->
  need = need' -> got = got'.
Proof.
  cbn [cause_text]. intros E E' <-. rewrite <- E' in E. assert (H : forall a b : str, Some a = Some b -> a = b) by congruence.
  apply H in E. do 3 apply app_inv_head in E. apply app_inv_tail in E. apply dec_injective. exact E.
Qed.
Lemma field_apart specs v v' a c c' x : field_error specs v a = Some c -> field_error specs v' a = Some c' ->
  cause_text c = Some x -> cause_text c' = Some x -> c = c'.
Proof.
  unfold field_error. destruct (spec_by_name specs a) as [[f sp]|].
  - destruct (v <? f_version sp)%N; [|discriminate]. destruct (v' <? f_version sp)%N; [|discriminate].
    intros [= <-] [= <-] T T'. f_equal. eapply new_apart; [exact T|exact T'|reflexivity].
  - destruct (uint_error a 10 8); [|discriminate]. congruence.
Qed.
Lemma txn_field_apart k v v' a c c' x : txn_field_error k v a = Some c -> txn_field_error k v' a = Some c' ->
  cause_text c = Some x -> cause_text c' = Some x -> c = c'.
Proof.
  unfold txn_field_error. destruct (spec_by_name txnFieldSpecs a) as [[f sp]|]; [|destruct (uint_error a 10 8); [congruence|discriminate]].
  assert (Z : (if (v <? f_version sp)%N then Some (CTooNew (f_version sp) v) else None) = Some c ->
    (if (v' <? f_version sp)%N then Some (CTooNew (f_version sp) v') else None) = Some c' ->
    cause_text c = Some x -> cause_text c' = Some x -> c = c').
  { destruct (v <? f_version sp)%N; [|discriminate]. destruct (v' <? f_version sp)%N; [|discriminate].
    intros [= <-] [= <-] T T'. f_equal. eapply new_apart; [exact T|exact T'|reflexivity]. }
  destruct k; try exact Z.
  - destruct (f_itx sp =? 0)%N; [congruence|]. destruct (v <? f_itx sp)%N; [|discriminate]. destruct (v' <? f_itx sp)%N; [|discriminate].
    intros [= <-] [= <-] T T'. f_equal. eapply new_apart; [exact T|exact T'|reflexivity].
  - destruct (f_array sp); congruence.
Qed.
Lemma library_text {A} (o : option A) c x : library o = Some c -> cause_text c = Some x -> False.
Proof. destruct o; [discriminate|]. intros [= <-]. discriminate. Qed.
Lemma bytes_apart en en' a r r' c c' x : bytes_error en a r = Some c -> bytes_error en' a r' = Some c' ->
  cause_text c = Some x -> cause_text c' = Some x -> c = c'.
Proof.
  assert (P : forall enc d d', parens_error enc a d = Some c -> parens_error enc a d' = Some c' ->
    cause_text c = Some x -> cause_text c' = Some x -> c = c').
  { intros enc d d'. unfold parens_error. destruct (index_of ")" a) as [n|]; [|congruence].
    destruct (slice a _ n); try discriminate. intros E _ T _. destruct (library_text _ _ _ E T). }
  unfold bytes_error.
  destruct (_ || _); [apply P|]. destruct (_ || _); [apply P|].
  destruct (has_prefix "0x" a). { intros E _ T _. destruct (library_text _ _ _ E T). }
  destruct (_ || _). { destruct r; [discriminate|]. intros E _ T _. destruct (library_text _ _ _ E T). }
  destruct (_ || _). { destruct r; [discriminate|]. intros E _ T _. destruct (library_text _ _ _ E T). }
  congruence.
Qed.

(* two complaints about one text, read as one kind of operand, with the same message have the same cause *)
Theorem causes_apart en en' v v' k a r r' c c' x : operand_error en v k a r = Some c -> operand_error en' v' k a r' = Some c' ->
  cause_text c = Some x -> cause_text c' = Some x -> c = c'.
Proof.
  destruct k; cbn [operand_error]; try apply field_apart; try apply txn_field_apart; try apply bytes_apart; try congruence.
  destruct (addr_ok en a); [discriminate|]. intros [= <-]. discriminate.
Qed.

(* the causes that there are for operands other than bytes *)
Lemma cause_of en v k a r c : operand_error en v k a r = Some c -> k <> IBytes ->
  match c with
  | CUint s _ | CInt s _ | CField s _ => s = a
  | CTooNew _ got => got = v
  | CNotArray | CNotInner | CLibrary => True
  | CQuotes => k = ISignature
  | _ => False
  end.
Proof.
  assert (F : forall specs, field_error specs v a = Some c -> match c with CField s _ => s = a | CTooNew _ got => got = v | _ => False end).
  { intros specs. unfold field_error. destruct (spec_by_name specs a) as [[f sp]|].
    - destruct (v <? f_version sp)%N; [|discriminate]. intros [= <-]. reflexivity.
    - destruct (uint_error a 10 8); [|discriminate]. intros [= <-]. reflexivity. }
  assert (T : forall k, txn_field_error k v a = Some c ->
    match c with CField s _ => s = a | CTooNew _ got => got = v | CNotArray | CNotInner => True | _ => False end).
  { intros k'. unfold txn_field_error. destruct (spec_by_name txnFieldSpecs a) as [[f sp]|].
    - destruct k'; repeat match goal with |- context [if ?b then _ else _] => destruct b end; try discriminate; intros [= <-]; reflexivity || exact I.
    - destruct (uint_error a 10 8); [|discriminate]. intros [= <-]. reflexivity. }
  destruct k; cbn [operand_error]; intros E K;
    try (apply F in E; destruct c; try exact E; destruct E; fail); try (apply T in E; destruct c; try exact E; destruct E; fail).
  - destruct (uint_error a 10 8); [|discriminate]. injection E as <-. reflexivity.
  - destruct (int_error a 10 8); [|discriminate]. injection E as <-. reflexivity.
  - destruct (uint_error a 0 64); [|discriminate]. injection E as <-. reflexivity.
  - destruct (const_error a); [|discriminate]. injection E as <-. reflexivity.
  - congruence.
  - discriminate.
  - destruct (addr_ok en a); [discriminate|]. injection E as <-. exact I.
  - destruct (nth_error a 0); [destruct (nth_error a (length a - 1)); [destruct (_ || _)|]|]; try discriminate; injection E as <-; reflexivity.
Qed.

Lemma num_words f s e x p : prefixed p (num_text f s e) = Some x ->
  exists y, x = y ++ bs match e with NumSyntax => """: invalid syntax" | NumRange => """: value out of range" end.
Proof.
  unfold num_text. destruct (quote_chars s) as [q|]; [|discriminate]. cbn [prefixed]. intros E. assert (H : forall a b : str, Some a = Some b -> a = b) by congruence.
  apply H in E. subst x. exists (p ++ bs "strconv." ++ bs f ++ bs ": parsing " ++ c_quote :: q).
  destruct e; rewrite <- !app_assoc; cbn [app]; reflexivity.
Qed.
