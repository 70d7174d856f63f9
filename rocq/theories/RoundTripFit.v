(* every instruction that Process returns has immediates that fit (C13) *)
From Verif Require Import Base LexSpec Lexer Expr Linter Fields Strconv Literals LiteralsProofs Codec CodecProofs OpTable Print
  Process ProcessSpec ProcessProofs ProcessDoc RoundTripSpec RoundTripLex RoundTrip.
From Coq Require Import ZifyBool ZifyNat ZifyN.

Definition value_fits (en : env) (k : imm) : imm_val k -> bool :=
  match k return imm_val k -> bool with
  | IInt8 => fun z => (-128 <=? z)%Z && (z <? 128)%Z
  | IBytes | ILabel | ISignature => fun _ => true
  | IAddr => fun a => addr_ok en a
  | IInt | IConstInt => word_sized
  | _ => byte_sized
  end.

(* nothing Process returns is one of the types it never builds *)
Definition built (e : expr) : bool :=
  match e with
  | Op0 (ExtractUint64Expr | BzeroExpr | BgteqExpr | BandExpr) | CommentExpr _ => false
  | _ => true
  end.

Fixpoint all_fit (en : env) (p : prog) : Prop :=
  match p with
  | Emit e => immediates_fit en e && built e = true
  | MinVersion _ p | ModeMinVersion _ _ p => all_fit en p
  | Read k _ f => forall x, value_fits en k x = true -> all_fit en (f x)
  | ReadMaybe _ f => all_fit en (f None) /\ forall x, byte_sized x = true -> all_fit en (f (Some x))
  | ReadInts _ f => forall xs, forallb word_sized xs = true -> all_fit en (f xs)
  | ReadBytess _ f | ReadLabels _ f => forall xs, all_fit en (f xs)
  end.

Lemma u8_fits x : byte_sized (u8 x) = true.
Proof. unfold byte_sized, u8. apply N.ltb_lt. apply N.mod_lt. discriminate. Qed.

Lemma ops_fit en : Forall (fun x => all_fit en (snd x)) ops_list.
Proof.
  unfold ops_list.
  repeat (constructor; [
    match goal with |- all_fit en (snd (_, ?p)) => cbn [snd]; try unfold p end; cbn [all_fit value_fits immediates_fit built andb];
    repeat first [ reflexivity | intros ? ?; cbn [all_fit value_fits immediates_fit built andb]
                 | intros ?; cbn [all_fit value_fits immediates_fit built andb] | split
                 | progress rewrite ?u8_fits | rewrite andb_true_r | progress (repeat match goal with H : _ = true |- _ => rewrite H end) ]
    |]).
  constructor.
Qed.

Lemma parse_uint_bound s b bits n : parse_uint s b bits = Some n -> (n < 2 ^ bits)%N.
Proof.
  unfold parse_uint. destruct s as [|c r]; [intros E; discriminate E|].
  match goal with |- (let '(_, _) := ?e in _) = _ -> _ => destruct e as [x d] end.
  destruct (digits_val (b =? 0)%N x 0 d) as [m|]; [|intros E; discriminate E].
  destruct (2 ^ bits <=? m)%N eqn:L; [intros E; discriminate E|].
  destruct ((b =? 0)%N && has_underscore d && negb (underscore_ok (c :: r))); [intros E; discriminate E|].
  intros E. injection E as <-. apply N.leb_gt. exact L.
Qed.
Lemma parse_uint_word s n : parse_uint s 0 64 = Some n -> word_sized n = true.
Proof. intros E. apply parse_uint_bound in E. apply N.ltb_lt. exact E. Qed.
Lemma read_uint8_byte s n : read_uint8 s = Some n -> byte_sized n = true.
Proof. intros E. apply read_uint8_spec in E. apply N.ltb_lt. tauto. Qed.

Lemma spec_by_name_bound sp s : forall i f x, spec_by_name_from i sp s None = Some (f, x) -> (f < i + N.of_nat (length sp))%N.
Proof.
  assert (G : forall i acc f x, spec_by_name_from i sp s acc = Some (f, x) -> acc = Some (f, x) \/ (f < i + N.of_nat (length sp))%N).
  { induction sp as [|a sp IH]; intros i acc f x E; cbn [spec_by_name_from length] in *; [auto|].
    apply IH in E. destruct E as [E|E]; [|right; lia].
    destruct (seqb (f_name a) s); [injection E as <- _; right; lia|left; exact E]. }
  intros i f x E. destruct (G _ _ _ _ E); [discriminate|assumption].
Qed.
Lemma read_field_byte sp v s n : (length sp <=? 256) = true -> fst_of (read_field sp v s) = Some n -> byte_sized n = true.
Proof.
  intros L. unfold read_field, spec_by_name. destruct (spec_by_name_from 0 sp s None) as [[f x]|] eqn:F.
  - destruct (v <? f_version x)%N; [discriminate|]. intros [= <-]. apply spec_by_name_bound in F. apply N.ltb_lt. cbn [fst]. lia.
  - destruct (read_uint8 s) eqn:R; [|discriminate]. intros [= <-]. eapply read_uint8_byte. exact R.
Qed.
Lemma read_txn_byte k v s n : fst_of (read_txn_field k v s) = Some n -> byte_sized n = true.
Proof.
  unfold read_txn_field, spec_by_name. destruct (spec_by_name_from 0 txnFieldSpecs s None) as [[f x]|] eqn:F.
  - apply spec_by_name_bound in F. assert (B : byte_sized f = true). { apply N.ltb_lt. cbn in F. lia. }
    intros E. enough (E' : n = f) by (rewrite E'; exact B).
    destruct k;
      repeat match type of E with context [if ?b then _ else _] => destruct b end; first [discriminate|injection E as <-; reflexivity].
  - destruct (read_uint8 s) eqn:R; [|discriminate]. intros [= <-]. eapply read_uint8_byte. exact R.
Qed.

Lemma lookup_bound m s n : forallb (fun x => word_sized (snd x)) m = true -> lookup m s = Some n -> word_sized n = true.
Proof.
  intros A. unfold lookup. destruct (find _ m) as [[a b]|] eqn:F; [|discriminate]. intros [= <-].
  apply find_some in F. rewrite forallb_forall in A. exact (A _ (proj1 F)).
Qed.
Lemma read_const_word s n : read_const_int s = Some n -> word_sized n = true.
Proof.
  unfold read_const_int. destruct (lookup txn_type_map s) eqn:A.
  - intros [= <-]. eapply lookup_bound; [|exact A]. reflexivity.
  - destruct (lookup on_completion_map s) eqn:B; [|apply parse_uint_word].
    intros [= <-]. eapply lookup_bound; [|exact B]. reflexivity.
Qed.

Lemma operand_fits en v k a r x : operand en v k a r = Some x -> value_fits en k (fst x) = true.
Proof.
  destruct k; cbn [operand operand_value]; intros E;
    try (cbn [value_fits]; reflexivity);
    match type of E with obind ?o _ = _ => destruct o as [y|] eqn:O; [|discriminate]; injection E as <-; cbn [fst value_fits] end.
  all: try solve [eapply read_uint8_byte; exact O | eapply parse_uint_word; exact O | eapply read_const_word; exact O
                 | eapply read_txn_byte; exact O | eapply read_field_byte; [|exact O]; reflexivity ].
  - apply read_int8_spec in O. lia.
  - destruct (addr_ok en a) eqn:A; [|discriminate]. injection O as <-. exact A.
Qed.

Lemma all_ints_word l : forall xs, all_ints l = Some xs -> forallb word_sized xs = true.
Proof.
  induction l as [|a l IH]; intros xs; cbn [all_ints]; [intros [= <-]; reflexivity|].
  destruct (parse_uint a 0 64) as [x|] eqn:P; [|discriminate]. cbn [obind].
  destruct (all_ints l) as [ys|]; [|discriminate]. cbn [obind]. intros [= <-]. cbn [forallb].
  rewrite (parse_uint_word _ _ P). apply IH. reflexivity.
Qed.

Lemma assemble_fits en v p : all_fit en p -> forall args e r, assemble en v p args = Some (e, r) ->
  immediates_fit en e && built e = true.
Proof.
  induction p as [e0|w p IH|m w p IH|k n f IH|n f IH|n f IH|n f IH|n f IH]; cbn [all_fit assemble]; intros A args e r E.
  - injection E as <- _. exact A.
  - eapply IH; eassumption.
  - eapply IH; eassumption.
  - destruct args as [|a s]; [discriminate|]. destruct (operand en v k a s) as [x|] eqn:O; [|discriminate].
    cbn [obind] in E. eapply IH; [|exact E]. apply A. eapply operand_fits. exact O.
  - destruct A as [A1 A2]. destruct args as [|a s]; [eapply IH; eassumption|].
    destruct (read_uint8 a) as [x|] eqn:O; [|discriminate]. cbn [obind] in E.
    eapply IH; [|exact E]. apply A2. eapply read_uint8_byte. exact O.
  - destruct (all_ints args) as [xs|] eqn:O; [|discriminate]. cbn [obind] in E.
    eapply IH; [|exact E]. apply A. eapply all_ints_word. exact O.
  - destruct (all_bytes en (length args) args) as [xs|]; [|discriminate]. cbn [obind] in E. eapply IH; [|exact E]. apply A.
  - eapply IH; [|exact E]. apply A.
Qed.

Lemma ops_get_in n p : ops_get n = Some p -> exists m, In (m, p) ops_list.
Proof.
  unfold ops_get. destruct (find _ (rev ops_list)) as [[m q]|] eqn:F; [|discriminate]. intros [= <-].
  exists m. apply find_some in F. apply in_rev. tauto.
Qed.

Lemma entries_fit en v l : Forall (fun e => immediates_fit en e && built e = true) (entries en v l).
Proof.
  assert (Z : Forall (fun e => immediates_fit en e && built e = true) [EmptyExpr]) by (repeat constructor).
  unfold entries. destruct l as [|t r]; [exact Z|]. cbn [kind_of].
  assert (G : Forall (fun e => immediates_fit en e && built e = true) (entries en v (Token (tok_v t) 0 0 0 TokValue :: r))).
  { unfold entries; cbn [kind_of tok_t tok_v].
    destruct (label_name (tok_v t)) as [[|c n]|]; [exact Z|repeat constructor|].
    destruct (seqb (tok_v t) (bs "#pragma")).
    - destruct (pragma_version (texts r)) as [w|]; [|exact Z]. constructor; [|constructor].
      cbn [immediates_fit built]. fold (u8 w). rewrite u8_fits. reflexivity.
    - destruct (ops_get (tok_v t)) as [p|] eqn:O; [|exact Z].
      destruct (assemble en v p (texts r)) as [[e s]|] eqn:A; [|exact Z].
      assert (F : immediates_fit en e && built e = true).
      { eapply assemble_fits; [|exact A]. destruct (ops_get_in _ _ O) as [m I].
        exact (proj1 (Forall_forall _ _) (ops_fit en) _ I). }
      destruct s; repeat constructor; exact F. }
  unfold entries in G; cbn [kind_of tok_t tok_v] in G. destruct (tok_t t); [exact G|exact G|exact Z].
Qed.

Theorem results_fit en src r : process en src = Ret r ->
  Forall (fun e => immediates_fit en e = true /\ built e = true) (r_listing r).
Proof.
  intros E. destruct (process_spec en src) as [ts [errs [raw [_ [_ [_ [_ H]]]]]]].
  destruct (lint_diags _ _) as [ld| |]; [|congruence|congruence].
  destruct H as [r' [E' R]]. rewrite E in E'. injection E' as <-.
  rewrite (ro_listing _ _ _ _ _ _ _ R). generalize 1%N. generalize (r_lines r) as ls.
  induction ls as [|l ls IH]; intros v; cbn [all_entries]; [constructor|].
  apply Forall_app. split; [|apply IH].
  eapply Forall_impl; [|apply entries_fit]. intros e He. apply andb_true_iff. exact He.
Qed.

(* the instructions of the listing that are exceptional for the version they are read with *)
Fixpoint exceptions (v : N) (l : listing) : list expr :=
  match l with
  | [] => []
  | e :: r => (if exceptional v e then [e] else []) ++ exceptions (next_version v e) r
  end.

Lemma survive_no_exceptions en l : forall v, Forall (fun e => immediates_fit en e = true) l ->
  exceptions v l = [] -> all_survive en v l = true.
Proof.
  induction l as [|e l IH]; intros v F X; [reflexivity|]. inversion F as [|? ? F1 F2]; subst.
  cbn [exceptions all_survive] in *. destruct (exceptional v e); [discriminate|].
  rewrite F1. cbn [negb andb]. apply IH; assumption.
Qed.

Theorem process_round_trip en src r : process en src = Ret r -> exceptions 1 (r_listing r) = [] ->
  exists s r', print_listing (r_listing r) = Ret s /\ process en s = Ret r' /\ r_listing r' = r_listing r.
Proof.
  intros E X. apply listing_round_trip. apply survive_no_exceptions; [|exact X].
  eapply Forall_impl; [|eapply results_fit; exact E]. cbv beta; intros e [He _]; exact He.
Qed.
