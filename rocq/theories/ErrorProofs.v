(* Proofs for C85. *)
From Verif Require Import Base LexSpec Lexer Expr Linter Fields Strconv Literals Codec OpTable Process ProcessSpec
  ProcessProofs ProcessLine ProcessDoc ProcessThms ErrorSpec.

(* ------------------------------------------------------------------------------------------ *)
(* operands do not look behind what they take *)
Lemma byte_operand_cut en a r x r' : byte_operand en a r = Some (x, r') ->
  exists u, r = u ++ r' /\ forall s, byte_operand en a (u ++ s) = Some (x, s).
Proof.
  unfold byte_operand.
  destruct (has_prefix "base32(" a || has_prefix "b32(" a).
  { intros E. exists []. destruct (between_parens a) as [y|]; [|discriminate]. cbn [obind] in *.
    destruct (b32_decode en y); [|discriminate]. cbn [obind] in *. injection E as <- <-. auto. }
  destruct (has_prefix "base64(" a || has_prefix "b64(" a).
  { intros E. exists []. destruct (between_parens a) as [y|]; [|discriminate]. cbn [obind] in *.
    destruct (b64_decode y); [|discriminate]. cbn [obind] in *. injection E as <- <-. auto. }
  destruct (has_prefix "0x" a).
  { intros E. exists []. destruct (hex_decode (skipn 2 a)); [|discriminate]. cbn [obind] in *. injection E as <- <-. auto. }
  destruct (seqb a (bs "base32") || seqb a (bs "b32")).
  { intros E. destruct r as [|l r]; [discriminate|]. exists [l]. cbn [app]. destruct (b32_decode en l); [|discriminate].
    cbn [obind] in *. injection E as <- <-. auto. }
  destruct (seqb a (bs "base64") || seqb a (bs "b64")).
  { intros E. destruct r as [|l r]; [discriminate|]. exists [l]. cbn [app]. destruct (b64_decode l); [|discriminate].
    cbn [obind] in *. injection E as <- <-. auto. }
  intros E. exists []. destruct (parse_string_literal a) as [[y|]| |]; try discriminate.
  destruct (1 <? length a); [|discriminate]. injection E as <- <-. auto.
Qed.

Lemma operand_cut en v k a r x r' : operand en v k a r = Some (x, r') ->
  exists u, r = u ++ r' /\ forall s, operand en v k a (u ++ s) = Some (x, s).
Proof.
  unfold operand. destruct k; try (destruct (operand_value en v _ a) as [y|]; [|discriminate]; cbn [obind];
    intros E; injection E as <- <-; exists []; auto; fail).
  apply byte_operand_cut.
Qed.

(* an operand that cannot be saved *)
Lemma byte_fault_cut en a r : byte_operand en a r = None ->
  (byte_fault a r = (0, RMissing "literal") /\ r = []) \/
  exists u t b, a :: r = u ++ t :: b /\ byte_fault a r = (length b, RValue) /\
    (forall b', match u ++ t :: b' with x :: y => byte_operand en x y = None /\ byte_fault x y = (length b', RValue) | [] => False end) /\
    (u = [] \/ u = [a] /\ byte_operand en a [] = None /\ byte_fault a [] = (0, RMissing "literal")).
Proof.
  intros E. unfold byte_fault. destruct (encoding a) eqn:En.
  - destruct r as [|l r]; [left; auto|]. right. exists [a], l, r. split; [reflexivity|]. split; [reflexivity|].
    assert (Hp : has_prefix "base32(" a || has_prefix "b32(" a = false /\ has_prefix "base64(" a || has_prefix "b64(" a = false /\ has_prefix "0x" a = false).
    { assert (Q : forall p, In p ["base32("; "b32("; "base64("; "b64("; "0x"] -> has_prefix p a = false).
      { intros p Ip. destruct (has_prefix p a) eqn:Hp; [|reflexivity]. rewrite (prefix_encoding _ _ Ip Hp) in En. discriminate. }
      rewrite !Q by (cbn; tauto). auto. }
    destruct Hp as [P1 [P2 P3]].
    cbn [app]. unfold byte_operand in *. rewrite P1, P2, P3 in *. unfold encoding in En.
    split.
    + intros b'. split; [|unfold encoding; rewrite En; reflexivity].
      destruct (seqb a (bs "base32") || seqb a (bs "b32")).
      * destruct (b32_decode en l); [discriminate E|reflexivity].
      * destruct (seqb a (bs "base64") || seqb a (bs "b64")); [|discriminate En].
        destruct (b64_decode l); [discriminate E|reflexivity].
    + right. split; [reflexivity|]. split; [|rewrite ?En; reflexivity].
      destruct (seqb a (bs "base32") || seqb a (bs "b32")); [reflexivity|].
      destruct (seqb a (bs "base64") || seqb a (bs "b64")); [reflexivity|discriminate En].
  - right. exists [], a, r. split; [reflexivity|]. split; [reflexivity|]. split; [|left; reflexivity].
    intros b'. cbn [app]. split; [|rewrite En; reflexivity].
    unfold encoding in En. apply Bool.orb_false_iff in En. destruct En as [E1 E2].
    unfold byte_operand in *. rewrite E1, E2 in *.
    repeat match goal with |- (if ?b then _ else _) = None => destruct b end.
    + destruct (between_parens a) as [y|]; [|reflexivity]. cbn [obind] in *. destruct (b32_decode en y); [discriminate|reflexivity].
    + destruct (between_parens a) as [y|]; [|reflexivity]. cbn [obind] in *. destruct (b64_decode y); [discriminate|reflexivity].
    + destruct (hex_decode (skipn 2 a)); [discriminate|reflexivity].
    + destruct (parse_string_literal a) as [[y|]| |]; try reflexivity. destruct (1 <? length a); [discriminate|reflexivity].
Qed.

Lemma operand_fault_cut en v k a r : operand en v k a r = None ->
  (exists n, operand_fault k a r = (0, RMissing n) /\ r = []) \/
  exists u t b, a :: r = u ++ t :: b /\ operand_fault k a r = (length b, RValue) /\
    (forall b', match u ++ t :: b' with x :: y => operand en v k x y = None /\ operand_fault k x y = (length b', RValue) | [] => False end) /\
    (u = [] \/ exists n, u = [a] /\ operand en v k a [] = None /\ operand_fault k a [] = (0, RMissing n)).
Proof.
  intros E. assert (k = IBytes \/ k <> IBytes) as [->|K] by (destruct k; (left; reflexivity) || (right; discriminate)).
  - destruct (byte_fault_cut en a r E) as [[E1 E2]|[u [t [b [E1 [E2 [E3 E4]]]]]]]; [left; eauto|]. right.
    exists u, t, b. split; [exact E1|]. split; [exact E2|]. split; [exact E3|].
    destruct E4 as [E4|E4]; [left; exact E4|right]. exists "literal". exact E4.
  - right. exists [], a, r. split; [reflexivity|].
    assert (Ef : forall y z, operand_fault k y z = (length z, RValue)) by (intros; destruct k; congruence || reflexivity).
    rewrite Ef. split; [reflexivity|]. split; [|left; reflexivity]. intros b'. cbn [app]. rewrite Ef. split; [|reflexivity].
    assert (Eo : forall z, operand en v k a z = obind (operand_value en v k a) (fun x => Some (x, z)))
      by (intros; destruct k; congruence || reflexivity).
    rewrite Eo in *. destruct (operand_value en v k a); [discriminate|reflexivity].
Qed.

(* ------------------------------------------------------------------------------------------ *)
(* without operands nothing is wrong *)
Lemma nothing_fine en v p : good_so_far en v p [].
Proof.
  induction p as [e|x p IH|m x p IH|k n f IH|n f IH|n f IH|n f IH|n f IH].
  - left. exists e. reflexivity.
  - exact IH.
  - exact IH.
  - right. exists n. split; reflexivity.
  - exact (IH None).
  - exact (IH []).
  - exact (IH []).
  - exact (IH []).
Qed.
Lemma nothing_value en v p n : assemble en v p [] = None -> prog_fault en v p [] <> (n, RValue).
Proof.
  intros E F. destruct (nothing_fine en v p) as [[e E']|[m [_ F']]]; congruence.
Qed.
Lemma nothing_missing en v p n m : assemble en v p [] = None -> prog_fault en v p [] = (n, RMissing m) -> n = 0.
Proof.
  intros E F. destruct (nothing_fine en v p) as [[e E']|[m' [_ F']]]; congruence.
Qed.
Lemma nothing_left en v p e s : assemble en v p [] = Some (e, s) -> s = [].
Proof.
  intros E. destruct (nothing_fine en v p) as [[e' E']|[m' [E' F']]]; congruence.
Qed.

(* ------------------------------------------------------------------------------------------ *)
(* lists of operands *)
Lemma ints_cut l : all_ints l = None ->
  exists u t b, l = u ++ t :: b /\ ints_fault l = (length b, RValue) /\ (exists xs, all_ints u = Some xs) /\
    forall b', all_ints (u ++ t :: b') = None /\ ints_fault (u ++ t :: b') = (length b', RValue).
Proof.
  induction l as [|a r IH]; [discriminate|]. cbn [all_ints ints_fault]. destruct (parse_uint a 0 64) as [x|] eqn:E.
  - cbn [obind]. intros H. destruct (all_ints r) as [xs|]; [discriminate|].
    destruct (IH eq_refl) as [u [t [b [-> [F [[xs Ex] N]]]]]]. exists (a :: u), t, b. split; [reflexivity|]. split; [exact F|].
    split; [exists (x :: xs); cbn [all_ints]; rewrite E, Ex; reflexivity|].
    intros b'. cbn [app all_ints ints_fault]. destruct (N b') as [N1 N2]. rewrite E, N1. split; [reflexivity|exact N2].
  - intros _. exists [], a, r. split; [reflexivity|]. split; [reflexivity|]. split; [exists []; reflexivity|].
    intros b'. cbn [app all_ints ints_fault]. rewrite E. split; reflexivity.
Qed.

Lemma all_bytes_fuel en n : forall m l, length l <= n -> length l <= m -> all_bytes en n l = all_bytes en m l.
Proof.
  induction n as [|n IH]; intros m [|a r] Hn Hm; cbn in Hn; try (destruct m; reflexivity); [lia|].
  destruct m as [|m]; [cbn in Hm; lia|]. cbn [all_bytes]. destruct (byte_operand en a r) as [[x r']|] eqn:E; [|reflexivity].
  cbn [obind fst snd]. pose proof (byte_operand_shrinks _ _ _ _ _ E). cbn in Hm. rewrite (IH m) by lia. reflexivity.
Qed.
Lemma bytes_fault_fuel en n : forall m l, length l <= n -> length l <= m -> bytes_fault en n l = bytes_fault en m l.
Proof.
  induction n as [|n IH]; intros m [|a r] Hn Hm; cbn in Hn; try (destruct m; reflexivity); [lia|].
  destruct m as [|m]; [cbn in Hm; lia|]. cbn [bytes_fault]. destruct (byte_operand en a r) as [[x r']|] eqn:E; [|reflexivity].
  cbn [snd]. pose proof (byte_operand_shrinks _ _ _ _ _ E). cbn in Hm. apply IH; lia.
Qed.
Definition bytes_of (en : env) (l : list str) : option (list str) := all_bytes en (length l) l.
Definition bytes_wrong (en : env) (l : list str) : fault := bytes_fault en (length l) l.
Lemma bytes_of_cons en a r : bytes_of en (a :: r) =
  obind (byte_operand en a r) (fun x => obind (bytes_of en (snd x)) (fun xs => Some (fst x :: xs))).
Proof.
  unfold bytes_of. cbn [length all_bytes]. destruct (byte_operand en a r) as [[x r']|] eqn:E; [|reflexivity].
  cbn [obind fst snd]. pose proof (byte_operand_shrinks _ _ _ _ _ E).
  rewrite (all_bytes_fuel en (length r) (length r')) by lia. reflexivity.
Qed.
Lemma bytes_wrong_cons en a r : bytes_wrong en (a :: r) =
  match byte_operand en a r with Some x => bytes_wrong en (snd x) | None => byte_fault a r end.
Proof.
  unfold bytes_wrong. cbn [length bytes_fault]. destruct (byte_operand en a r) as [[x r']|] eqn:E; [|reflexivity].
  cbn [snd]. pose proof (byte_operand_shrinks _ _ _ _ _ E). apply bytes_fault_fuel; lia.
Qed.

Lemma bytes_cut en k : forall l, length l <= k -> bytes_of en l = None ->
  (bytes_wrong en l = (0, RMissing "literal")) \/
  exists u t b, l = u ++ t :: b /\ bytes_wrong en l = (length b, RValue) /\
    ((exists xs, bytes_of en u = Some xs) \/ bytes_of en u = None /\ bytes_wrong en u = (0, RMissing "literal")) /\
    forall b', bytes_of en (u ++ t :: b') = None /\ bytes_wrong en (u ++ t :: b') = (length b', RValue).
Proof.
  induction k as [|k IH]; intros [|a r] Lk; try discriminate; [cbn in Lk; lia|].
  rewrite bytes_of_cons, bytes_wrong_cons. destruct (byte_operand en a r) as [[x r']|] eqn:E; cbn [obind fst snd].
  - intros H. destruct (bytes_of en r') as [xs|] eqn:Er; [discriminate|].
    pose proof (byte_operand_shrinks _ _ _ _ _ E). cbn in Lk.
    destruct (byte_operand_cut _ _ _ _ _ E) as [w [-> Ew]].
    destruct (IH r') as [F|[u [t [b [-> [F [G N]]]]]]]; [lia|exact Er|left; exact F|right].
    exists (a :: w ++ u), t, b. split; [cbn; rewrite <- app_assoc; reflexivity|]. split; [exact F|].
    split.
    + rewrite bytes_of_cons, bytes_wrong_cons, Ew. cbn [obind fst snd].
      destruct G as [[xs ->]|[-> G]]; [left; eexists; reflexivity|right; split; [reflexivity|exact G]].
    + intros b'. cbn [app]. rewrite <- app_assoc, bytes_of_cons, bytes_wrong_cons, Ew. cbn [obind fst snd].
      destruct (N b') as [N1 N2]. rewrite N1. split; [reflexivity|exact N2].
  - intros _. destruct (byte_fault_cut en a r E) as [[F _]|[u [t [b [E1 [F [N U]]]]]]]; [left; exact F|right].
    exists u, t, b. split; [exact E1|]. split; [exact F|]. split.
    + destruct U as [->|[-> [U1 U2]]]; [left; exists []; reflexivity|right].
      rewrite bytes_of_cons, bytes_wrong_cons, U1. split; [reflexivity|exact U2].
    + intros b'. specialize (N b'). destruct (u ++ t :: b') as [|y z]; [destruct N|]. destruct N as [N1 N2].
      rewrite bytes_of_cons, bytes_wrong_cons, N1. split; [reflexivity|exact N2].
Qed.

(* ------------------------------------------------------------------------------------------ *)
(* instructions *)
Definition cut_value (en : env) (v : N) (p : prog) (args : list str) (n : nat) : Prop :=
  exists u t b, args = u ++ t :: b /\ length b = n /\ good_so_far en v p u /\
    forall b', assemble en v p (u ++ t :: b') = None /\ prog_fault en v p (u ++ t :: b') = (length b', RValue).

Lemma value_cut en v p : forall args n, assemble en v p args = None -> prog_fault en v p args = (n, RValue) ->
  cut_value en v p args n.
Proof.
  induction p as [e|x p IH|m x p IH|k nm f IH|nm f IH|nm f IH|nm f IH|nm f IH]; intros args n A F.
  - discriminate.
  - destruct (IH _ _ A F) as [u [t [b Q]]]. exists u, t, b. exact Q.
  - destruct (IH _ _ A F) as [u [t [b Q]]]. exists u, t, b. exact Q.
  - cbn [assemble prog_fault] in A, F. destruct args as [|a r]; [discriminate|].
    destruct (operand en v k a r) as [[x r']|] eqn:E; cbn [obind fst snd] in A, F.
    + destruct (IH _ _ _ A F) as [u [t [b [-> [L [G N]]]]]]. destruct (operand_cut _ _ _ _ _ _ _ E) as [w [-> Ew]].
      exists (a :: w ++ u), t, b. split; [cbn; rewrite <- app_assoc; reflexivity|]. split; [exact L|]. split.
      * unfold good_so_far, lacks in *. cbn [assemble prog_fault]. rewrite Ew. cbn [obind fst snd]. exact G.
      * intros b'. cbn [app assemble prog_fault]. rewrite <- app_assoc, Ew. cbn [obind fst snd]. apply N.
    + destruct (operand_fault_cut en v k a r E) as [[m [F' _]]|[u [t [b [E1 [F' [N U]]]]]]]; [congruence|].
      exists u, t, b. split; [exact E1|]. split; [congruence|]. split.
      * destruct U as [->|[m [-> [U1 U2]]]]; [apply nothing_fine|]. right. exists m. split; cbn [assemble prog_fault]; rewrite U1.
        -- reflexivity.
        -- exact U2.
      * intros b'. specialize (N b'). destruct (u ++ t :: b') as [|y z]; [destruct N|]. destruct N as [N1 N2].
        cbn [assemble prog_fault]. rewrite N1. split; [reflexivity|exact N2].
  - cbn [assemble prog_fault] in A, F. destruct args as [|a r]; [destruct (nothing_value _ _ _ _ A F)|].
    destruct (read_uint8 a) as [x|] eqn:E; cbn [obind] in A, F.
    + destruct (IH _ _ _ A F) as [u [t [b [-> [L [G N]]]]]]. exists (a :: u), t, b. split; [reflexivity|]. split; [exact L|].
      split.
      * unfold good_so_far, lacks in *. cbn [assemble prog_fault]. rewrite E. exact G.
      * intros b'. cbn [app assemble prog_fault]. rewrite E. cbn [obind]. apply N.
    + exists [], a, r. split; [reflexivity|]. split; [congruence|]. split; [apply nothing_fine|].
      intros b'. cbn [app assemble prog_fault]. rewrite E. split; reflexivity.
  - cbn [assemble prog_fault] in A, F. destruct (all_ints args) as [xs|] eqn:E; cbn [obind] in A;
      [destruct (nothing_value _ _ _ _ A F)|].
    destruct (ints_cut _ E) as [u [t [b [-> [F' [[xs Ex] N]]]]]]. exists u, t, b. split; [reflexivity|].
    split; [congruence|]. split.
    + pose proof (nothing_fine en v (f xs)) as G. unfold good_so_far, lacks in *. cbn [assemble prog_fault]. rewrite Ex. exact G.
    + intros b'. cbn [assemble prog_fault]. destruct (N b') as [N1 N2]. rewrite N1. split; [reflexivity|exact N2].
  - cbn [assemble prog_fault] in A, F. change (all_bytes en (length args) args) with (bytes_of en args) in A, F.
    change (bytes_fault en (length args) args) with (bytes_wrong en args) in F.
    destruct (bytes_of en args) as [xs|] eqn:E; cbn [obind] in A; [destruct (nothing_value _ _ _ _ A F)|].
    destruct (bytes_cut en (length args) args (le_n _) E) as [F'|[u [t [b [E1 [F' [G N]]]]]]]; [congruence|].
    exists u, t, b. split; [exact E1|]. split; [congruence|]. split.
    + unfold good_so_far, lacks. cbn [assemble prog_fault]. change (all_bytes en (length u) u) with (bytes_of en u).
      change (bytes_fault en (length u) u) with (bytes_wrong en u).
      destruct G as [[xs ->]|[-> G]]; [apply nothing_fine|]. right. exists "literal". split; [reflexivity|exact G].
    + intros b'. cbn [assemble prog_fault].
      change (all_bytes en (length (u ++ t :: b')) (u ++ t :: b')) with (bytes_of en (u ++ t :: b')).
      change (bytes_fault en (length (u ++ t :: b')) (u ++ t :: b')) with (bytes_wrong en (u ++ t :: b')).
      destruct (N b') as [N1 N2]. rewrite N1. split; [reflexivity|exact N2].
  - cbn [assemble prog_fault] in A, F. destruct (nothing_value _ _ _ _ A F).
Qed.

Lemma missing_last en v p : forall args n m, assemble en v p args = None -> prog_fault en v p args = (n, RMissing m) -> n = 0.
Proof.
  induction p as [e|x p IH|m x p IH|k nm f IH|nm f IH|nm f IH|nm f IH|nm f IH]; intros args n mm A F; cbn [assemble prog_fault] in A, F.
  - discriminate.
  - eapply IH; eassumption.
  - eapply IH; eassumption.
  - destruct args as [|a r]; [congruence|].
    destruct (operand en v k a r) as [[x r']|] eqn:E; cbn [obind fst snd] in A, F; [eapply IH; eassumption|].
    destruct (operand_fault_cut en v k a r E) as [[m [F' _]]|[u [t [b [E1 [F' [N U]]]]]]]; congruence.
  - destruct args as [|a r]; [eapply nothing_missing; eassumption|].
    destruct (read_uint8 a) as [x|] eqn:E; cbn [obind] in A, F; [eapply IH; eassumption|congruence].
  - destruct (all_ints args) as [xs|] eqn:E; cbn [obind] in A; [eapply nothing_missing; eassumption|].
    destruct (ints_cut _ E) as [u [t [b [-> [F' [[xs Ex] N]]]]]]. congruence.
  - change (all_bytes en (length args) args) with (bytes_of en args) in A, F.
    change (bytes_fault en (length args) args) with (bytes_wrong en args) in F.
    destruct (bytes_of en args) as [xs|] eqn:E; cbn [obind] in A; [eapply nothing_missing; eassumption|].
    destruct (bytes_cut en (length args) args (le_n _) E) as [F'|[u [t [b [E1 [F' [G N]]]]]]]; congruence.
  - eapply nothing_missing; eassumption.
Qed.

Lemma surplus_cut en v p : forall args e t b, assemble en v p args = Some (e, t :: b) ->
  exists u, args = u ++ t :: b /\ assemble en v p u = Some (e, []) /\
    forall b', assemble en v p (u ++ t :: b') = Some (e, t :: b').
Proof.
  induction p as [e0|x p IH|m x p IH|k nm f IH|nm f IH|nm f IH|nm f IH|nm f IH]; intros args e t b A; cbn [assemble] in A.
  - injection A as -> ->. exists []. split; [reflexivity|]. split; reflexivity.
  - exact (IH _ _ _ _ A).
  - exact (IH _ _ _ _ A).
  - destruct args as [|a r]; [discriminate|].
    destruct (operand en v k a r) as [[x r']|] eqn:E; cbn [obind fst snd] in A; [|discriminate].
    destruct (IH _ _ _ _ _ A) as [u [-> [U N]]]. destruct (operand_cut _ _ _ _ _ _ _ E) as [w [-> Ew]].
    exists (a :: w ++ u). split; [cbn; rewrite <- app_assoc; reflexivity|]. cbn [assemble]. rewrite Ew. cbn [obind fst snd].
    split; [exact U|]. intros b'. cbn [app assemble]. rewrite <- app_assoc, Ew. apply N.
  - destruct args as [|a r]; [apply nothing_left in A; discriminate|].
    destruct (read_uint8 a) as [x|] eqn:E; cbn [obind] in A; [|discriminate].
    destruct (IH _ _ _ _ _ A) as [u [-> [U N]]]. exists (a :: u). split; [reflexivity|]. cbn [app assemble]. rewrite E. auto.
  - destruct (all_ints args); cbn [obind] in A; [|discriminate]. apply nothing_left in A. discriminate.
  - destruct (all_bytes en (length args) args); cbn [obind] in A; [|discriminate]. apply nothing_left in A. discriminate.
  - apply nothing_left in A. discriminate.
Qed.

(* ------------------------------------------------------------------------------------------ *)
(* lines *)
Definition line_fault (en : env) (v : N) (l : list token) : option fault :=
  match kind_of l with
  | LLabel [] => Some (length l - 1, RLabelName)
  | LUnknown => Some (length l - 1, RUnknownOp match l with t :: _ => tok_v t | [] => [] end)
  | LPragma args => match pragma_version args with Some _ => None | None => Some (pragma_fault args) end
  | LOp p args =>
      match assemble en v p args with
      | Some (_, []) => None
      | Some (_, _ :: s) => Some (length s, RTooMany)
      | None => Some (prog_fault en v p args)
      end
  | _ => None
  end.
Definition marks (l : list token) (f : fault) (t : token) (r : reason) : Prop :=
  snd f = r /\ nth_error l (length l - S (fst f)) = Some t.

Lemma nth_behind {A} (a : list A) t b : nth_error (a ++ t :: b) (length (a ++ t :: b) - S (length b)) = Some t.
Proof.
  rewrite app_length. cbn [length]. replace (length a + S (length b) - S (length b)) with (length a + 0) by lia.
  rewrite nth_error_app2 by lia. replace (length a + 0 - length a) with 0 by lia. reflexivity.
Qed.

Lemma kind_args l : match kind_of l with
  | LPragma args | LOp _ args => exists t r, l = t :: r /\ args = texts r
  | LLabel _ | LUnknown => exists t r, l = t :: r
  | _ => True
  end.
Proof.
  destruct l as [|t r]; [exact I|]. unfold kind_of.
  destruct (tok_t t); try exact I; (destruct (label_name (tok_v t)) as [n|]; [eauto|]);
    (destruct (seqb (tok_v t) (bs "#pragma")); [eauto|]); destruct (ops_get (tok_v t)); eauto.
Qed.

Lemma errors_fault en v l ds : line_errors en v l ds ->
  match line_fault en v l with None => ds = [] | Some f => exists t, ds = [error_at t (snd f)] /\ marks l f t (snd f) end.
Proof.
  unfold line_errors, line_fault. pose proof (kind_args l) as K. destruct l as [|t r]; [exact (fun H => H)|].
  destruct (kind_of (t :: r)) as [| |n|args|p args|]; try exact (fun H => H).
  - destruct n; [|exact (fun H => H)]. intros ->. exists t. split; [reflexivity|]. split; [reflexivity|].
    cbn [fst length]. replace (S (length r) - S (S (length r) - 1)) with 0 by lia. reflexivity.
  - destruct (pragma_version args); [exact (fun H => H)|]. intros [x [-> N]]. exists x. split; [reflexivity|]. split; [reflexivity|exact N].
  - destruct (assemble en v p args) as [[e [|s ss]]|]; [exact (fun H => H)| |]; intros [x [-> N]]; exists x;
      (split; [reflexivity|]); (split; [reflexivity|exact N]).
  - intros ->. exists t. split; [reflexivity|]. split; [reflexivity|].
    cbn [fst length]. replace (S (length r) - S (S (length r) - 1)) with 0 by lia. reflexivity.
Qed.

Lemma fault_statement en v l : line_fault en v l = None <-> statement en v l.
Proof.
  unfold line_fault, statement. destruct (kind_of l) as [| |n|args|p args|].
  - tauto.
  - tauto.
  - destruct n; split; congruence.
  - destruct (pragma_version args) as [w|]; split; try congruence; [eauto|]. intros [w E]. discriminate.
  - destruct (assemble en v p args) as [[e [|s ss]]|]; split; try congruence; [eauto| |]; intros [e' E]; discriminate.
  - split; [congruence|tauto].
Qed.

Lemma texts_split r : forall u t b, texts r = u ++ t :: b ->
  exists u' t' b', r = u' ++ t' :: b' /\ texts u' = u /\ tok_v t' = t /\ texts b' = b.
Proof.
  induction r as [|x r IH]; intros [|y u] t b E; try discriminate.
  - injection E as <- <-. exists [], x, r. auto.
  - injection E as <- E. destruct (IH _ _ _ E) as [u' [t' [b' [-> [<- [<- <-]]]]]]. exists (x :: u'), t', b'. auto.
Qed.

Lemma last_removed {A} (l : list A) t : nth_error l (length l - 1) = Some t -> l = removelast l ++ [t].
Proof.
  intros H. assert (E : l <> []) by (intros ->; discriminate). rewrite (app_removelast_last t E) at 1. f_equal. f_equal.
  destruct l as [|x l]; [congruence|]. rewrite nth_last with (d := t) in H. congruence.
Qed.

(* what is marked is the mistake *)
Lemma marks_mistake en v l f t r : line_fault en v l = Some f -> marks l f t r -> mistake en v l t r.
Proof.
  unfold line_fault. intros E [<- N]. pose proof (kind_args l) as K. destruct (kind_of l) as [| |n|args|p args|] eqn:Ek; try discriminate.
  - destruct n; [|discriminate]. injection E as <-. destruct K as [x [y ->]]. cbn [fst length] in N.
    replace (S (length y) - S (S (length y) - 1)) with 0 in N by lia. injection N as ->. constructor. exact Ek.
  - destruct (pragma_version args) eqn:Ev; [discriminate|]. injection E as <-. destruct K as [x [y [-> ->]]].
    destruct y as [|a y].
    { cbn in N. injection N as ->. constructor. exact Ek. }
    unfold texts in *. cbn [map pragma_fault pragma_version] in *. destruct (seqb (tok_v a) (bs "version")) eqn:Ea.
    + apply seqb_eq in Ea. destruct y as [|b y].
      { cbn in N. injection N as ->. constructor; assumption. }
      cbn [map] in *. cbn [fst snd] in *. rewrite map_length in N.
      replace (length (x :: a :: b :: y) - S (length y)) with 2 in N by (cbn [length]; lia). injection N as ->.
      destruct (parse_uint (tok_v t) 0 64) as [w|] eqn:Eu.
      * apply MPragmaZero; [exact Ek|exact Ea|]. rewrite Eu. destruct (N.eqb_spec w 0); [congruence|discriminate].
      * apply MPragmaNumber; assumption.
    + cbn [fst snd] in *. rewrite map_length in N.
      replace (length (x :: a :: y) - S (length y)) with 1 in N by (cbn [length]; lia). injection N as ->.
      apply MPragmaName; [exact Ek|]. intros Q. rewrite Q in Ea. destruct (seqb_spec (bs "version") (bs "version")); congruence.
  - destruct K as [x [y [-> ->]]]. destruct (assemble en v p (texts y)) as [[e [|s ss]]|] eqn:A; [discriminate| |]; injection E as <-.
    + destruct (surplus_cut _ _ _ _ _ _ _ A) as [u [Eu [U W]]].
      destruct (texts_split _ _ _ _ Eu) as [u' [t' [b' [-> [<- [<- <-]]]]]]. cbn [fst snd] in *.
      unfold texts in N at 1. rewrite map_length in N. change (x :: u' ++ t' :: b') with ((x :: u') ++ t' :: b') in N.
      rewrite nth_behind in N. injection N as ->. eapply MSurplus; [exact Ek|exact U|exact W].
    + destruct (prog_fault en v p (texts y)) as [n rs] eqn:F. cbn [fst snd] in *.
      pose proof (prog_fault_reason en v p (texts y)) as O. rewrite F in O. cbn [snd] in O. destruct rs; try destruct O.
      * pose proof (missing_last _ _ _ _ _ _ A F) as ->. eapply MMissing; [|exact Ek|split; [exact A|exact F]].
        apply last_removed. exact N.
      * destruct (value_cut _ _ _ _ _ A F) as [u [s [b [Eu [L [G W]]]]]].
        destruct (texts_split _ _ _ _ Eu) as [u' [t' [b' [-> [<- [<- <-]]]]]].
        unfold texts in L. rewrite map_length in L. rewrite <- L in N. change (x :: u' ++ t' :: b') with ((x :: u') ++ t' :: b') in N.
        rewrite nth_behind in N. injection N as ->. eapply MValue; [exact Ek|exact G| |intros b; apply W].
        destruct (W []) as [W1 W2]. intros [[e W3]|[m [_ W3]]]; congruence.
  - injection E as <-. destruct K as [x [y ->]]. cbn [fst length] in N.
    replace (S (length y) - S (S (length y) - 1)) with 0 in N by lia. injection N as ->. constructor. exact Ek.
Qed.

Theorem errors_exact en src r i l : process en src = Ret r -> nth_error (r_lines r) i = Some l ->
  (statement en (version_at i (r_lines r)) l /\ errors_on i (r_diag r) = []) \/
  exists t rs, ~ statement en (version_at i (r_lines r)) l /\ errors_on i (r_diag r) = [error_at t rs] /\
               mistake en (version_at i (r_lines r)) l t rs.
Proof.
  intros E N. pose proof (errors_of_line en src r i l E N) as H. apply errors_fault in H.
  assert (Eo : errors_on i (r_diag r) = filter (on_line i) (filter is_parse_diag (r_diag r))).
  { clear. unfold errors_on. induction (r_diag r) as [|d ds IH]; [reflexivity|]. cbn [filter]. rewrite IH.
    replace (is_parse_diag d) with (match dg_kind d with KParse _ => true | _ => false end) by reflexivity.
    destruct (dg_kind d); reflexivity. }
  rewrite Eo. destruct (line_fault en (version_at i (r_lines r)) l) as [f|] eqn:F.
  - right. destruct H as [t [H1 H2]]. exists t, (snd f). split; [|split; [exact H1|eapply marks_mistake; eassumption]].
    intros S. apply fault_statement in S. congruence.
  - left. split; [apply fault_statement; exact F|exact H].
Qed.

(* ------------------------------------------------------------------------------------------ *)
(* a line has one mistake *)
Lemma mistake_marks en v l t r : mistake en v l t r -> exists f, line_fault en v l = Some f /\ marks l f t r.
Proof.
  intros M. unfold line_fault. destruct M.
  - rewrite H. eexists. split; [reflexivity|]. split; [reflexivity|]. cbn [fst length].
    replace (S (length r) - S (S (length r) - 1)) with 0 by lia. reflexivity.
  - rewrite H. eexists. split; [reflexivity|]. split; [reflexivity|]. cbn [fst length].
    replace (S (length r) - S (S (length r) - 1)) with 0 by lia. reflexivity.
  - rewrite H. eexists. split; [reflexivity|]. split; reflexivity.
  - rewrite H. unfold texts. cbn [map pragma_version pragma_fault].
    destruct (seqb_spec (tok_v a) (bs "version")) as [Q|Q]; [congruence|].
    destruct (map tok_v r) eqn:Em; rewrite <- Em; (eexists; split; [reflexivity|]); (split; [reflexivity|]);
      cbn [fst]; rewrite map_length; replace (length (t :: a :: r) - S (length r)) with 1 by (cbn [length]; lia); reflexivity.
  - rewrite H. unfold texts. cbn [map pragma_version pragma_fault]. rewrite H0.
    eexists. split; [reflexivity|]. split; reflexivity.
  - rewrite H. unfold texts. cbn [map pragma_version pragma_fault]. rewrite H0. change (seqb (bs "version") (bs "version")) with true. cbv iota. rewrite H1.
    eexists. split; [reflexivity|]. split; [reflexivity|]. cbn [fst]. rewrite map_length.
    replace (length (t :: a :: b :: r) - S (length r)) with 2 by (cbn [length]; lia). reflexivity.
  - rewrite H. unfold texts. cbn [map pragma_version pragma_fault]. rewrite H0. change (seqb (bs "version") (bs "version")) with true. cbv iota. rewrite H1.
    eexists. split; [reflexivity|]. split; [reflexivity|]. cbn [fst]. rewrite map_length.
    replace (length (t :: a :: b :: r) - S (length r)) with 2 by (cbn [length]; lia). reflexivity.
  - rewrite H. unfold texts at 1. rewrite map_app. cbn [map]. fold (texts u). rewrite H1.
    eexists. split; [reflexivity|]. split; [reflexivity|]. cbn [fst]. rewrite map_length.
    exact (nth_behind (o :: u) t b).
  - rewrite H0. destruct H1 as [H1 H2]. rewrite H1, H2. eexists. split; [reflexivity|]. split; [reflexivity|].
    cbn [fst]. rewrite H. pose proof (nth_behind (removelast (o :: u)) t []) as Q. exact Q.
  - rewrite H. unfold texts at 1 2. rewrite map_app. cbn [map]. fold (texts u). fold (texts b). rewrite H2.
    assert (F : prog_fault en v p (texts u ++ tok_v t :: texts b) = (length (texts b), RValue)).
    { pose proof (H2 []) as A. destruct (prog_fault en v p (texts u ++ [tok_v t])) as [n rs] eqn:F.
      pose proof (prog_fault_reason en v p (texts u ++ [tok_v t])) as O. rewrite F in O. cbn [snd] in O.
      destruct rs; try destruct O.
      - destruct H1. right. pose proof (missing_last _ _ _ _ _ _ A F) as ->. eexists. split; eassumption.
      - destruct (value_cut _ _ _ _ _ A F) as [u' [t' [b' [Eu [L [G W]]]]]]. destruct b' as [|x b'].
        + apply app_inj_tail in Eu. destruct Eu as [-> ->]. apply W.
        + exfalso. destruct (exists_last (l := x :: b') ltac:(discriminate)) as [w [z Ew]]. rewrite Ew in Eu.
          change (t' :: w ++ [z]) with ((t' :: w) ++ [z]) in Eu. rewrite app_assoc in Eu. apply app_inj_tail in Eu.
          destruct Eu as [Eu _]. rewrite Eu in H0. destruct (W w) as [W1 W2].
          destruct H0 as [[e' Q]|[m [_ Q]]]; congruence. }
    rewrite F. eexists. split; [reflexivity|]. split; [reflexivity|]. cbn [fst]. unfold texts. rewrite map_length.
    exact (nth_behind (o :: u) t b).
Qed.

Theorem mistake_unique en v l t t' r r' : mistake en v l t r -> mistake en v l t' r' -> t = t' /\ r = r'.
Proof.
  intros M M'. destruct (mistake_marks _ _ _ _ _ M) as [f [E [R N]]], (mistake_marks _ _ _ _ _ M') as [f' [E' [R' N']]].
  rewrite E in E'. injection E' as <-. split; congruence.
Qed.

(* a document without such errors is a program: each line is a statement and stands for one entry *)
Theorem clean_program en src r : process en src = Ret r ->
  (forall d, In d (r_diag r) -> match dg_kind d with KParse _ => False | _ => True end) ->
  length (r_listing r) = length (r_lines r) /\
  forall i l, nth_error (r_lines r) i = Some l -> statement en (version_at i (r_lines r)) l /\
    exists e, nth_error (r_listing r) i = Some e /\ entries en (version_at i (r_lines r)) l = [e].
Proof.
  intros E C. assert (S : filter is_surplus_diag (r_diag r) = []).
  { clear E. induction (r_diag r) as [|d ds IH]; [reflexivity|]. cbn [filter].
    pose proof (C d (or_introl eq_refl)) as Cd. unfold is_surplus_diag at 1.
    destruct (dg_kind d); try destruct Cd; apply IH; intros d' I; apply C; right; exact I. }
  destruct (listing_lines en src r E S) as [L Q]. split; [exact L|]. intros i l N. split; [|exact (Q i l N)].
  destruct (errors_exact en src r i l E N) as [[H _]|[t [rs [_ [H _]]]]]; [exact H|exfalso].
  assert (I : In (error_at t rs) (errors_on i (r_diag r))) by (rewrite H; left; reflexivity).
  apply filter_In in I. exact (C _ (proj1 I)).
Qed.
