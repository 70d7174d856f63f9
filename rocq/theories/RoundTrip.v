(* Printing and reading again: proofs. *)
From Verif Require Import Base LexSpec Lexer LexerProofs LexerThms Expr Fields Strconv Literals LiteralsProofs Codec CodecProofs Print OpTable Process ProcessSpec ProcessDoc ProcessThms FieldProofs RoundTripSpec RoundTripLex.
From Coq Require Import Lia ZifyBool ZifyNat ZifyN.

(* ------------------------------------------------------------------------------------------ *)
(* words *)
Lemma digit_word c : is_digit c -> delim c = false /\ c <> c_quote /\ c <> c_slash.
Proof.
  intros [d [D B]]. assert (c = ascii_of_N (48 + d)) as -> by (rewrite <- B; symmetry; apply ascii_N_embedding).
  destruct d as [|p]; [repeat split; discriminate|].
  do 4 (destruct p as [p|p|]; try lia; try (repeat split; discriminate)).
Qed.
Lemma word_dec n : is_word (dec n) = true.
Proof.
  destruct (dec_spec n) as [A [B _]]. destruct (dec n) as [|c r]; [congruence|]. unfold is_word.
  replace (forallb (fun x => negb (delim x)) (c :: r)) with true.
  - inversion B as [|? ? D _]; subst. destruct (digit_word c D) as [_ [Q S]].
    destruct (Ascii.eqb_spec c c_quote); [congruence|]. destruct (Ascii.eqb_spec c c_slash); [congruence|]. reflexivity.
  - symmetry. apply forallb_forall. intros x I. rewrite Forall_forall in B. destruct (digit_word x (B x I)) as [-> _]. reflexivity.
Qed.
Lemma word_dec_z z : is_word (dec_z z) = true.
Proof.
  unfold dec_z. destruct (z <? 0)%Z; [|apply word_dec]. pose proof (word_dec (Z.to_N (- z))) as W.
  destruct (dec (Z.to_N (- z))) as [|c r]; [discriminate|]. unfold is_word in *.
  apply Bool.andb_true_iff in W as [W _]. apply Bool.andb_true_iff in W as [W _].
  change (forallb (fun x => negb (delim x)) ("-"%char :: c :: r)) with (forallb (fun x => negb (delim x)) (c :: r)).
  rewrite W. reflexivity.
Qed.
Lemma word_hex w : is_word (bs "0x" ++ hex_encode w) = true.
Proof.
  change (is_word (bs "0x" ++ hex_encode w)) with (forallb (fun x => negb (delim x)) (hex_encode w) && true && true).
  replace (forallb (fun x => negb (delim x)) (hex_encode w)) with true; [reflexivity|].
  symmetry. induction w as [|c w IH]; [reflexivity|]. change (hex_encode (c :: w)) with (hex_digit_char (byte c / 16) :: hex_digit_char (byte c mod 16) :: hex_encode w).
  cbn [forallb]. rewrite IH, !Bool.andb_true_r.
  assert (forall d, (d < 16)%N -> negb (delim (hex_digit_char d)) = true) as H.
  { intros d Hd. destruct d as [|p]; [reflexivity|]. do 4 (destruct p as [p|p|]; try reflexivity; try lia). }
  pose proof (byte_lt c). rewrite !H; [reflexivity|apply N.mod_lt; lia|apply N.div_lt_upper_bound; lia].
Qed.

Definition all_words (sp : list field_spec) : bool := forallb (fun s => is_word (f_name s)) sp.
Lemma word_field sp ty inv v f : all_words sp = true -> named sp v f = true -> is_word (field_text sp ty inv f) = true.
Proof.
  unfold all_words, named, field_text. intros A N. rewrite forallb_forall in A.
  destruct (nth_error sp (N.to_nat f)) as [x|] eqn:E; [|discriminate]. exact (A x (nth_error_In _ _ E)).
Qed.
Lemma word_field_txn f : (exists x, nth_error txnFieldSpecs (N.to_nat f) = Some x) -> is_word (txt_TxnField f) = true.
Proof.
  intros [x E]. unfold txt_TxnField, field_text. rewrite E.
  assert (all_words txnFieldSpecs = true) as A by (vm_compute; reflexivity).
  unfold all_words in A. rewrite forallb_forall in A. exact (A x (nth_error_In _ _ E)).
Qed.

(* ------------------------------------------------------------------------------------------ *)
(* operands *)
Lemma read_named sp ty inv v f : distinct (map f_name sp) = true -> named sp v f = true ->
  read_field sp v (field_text sp ty inv f) = Some (f, true).
Proof.
  unfold named. intros D N. destruct (nth_error sp (N.to_nat f)) as [x|] eqn:E; [|discriminate].
  apply (printed_read sp ty inv f v x D E). lia.
Qed.
Lemma txn_by_name f x : nth_error txnFieldSpecs (N.to_nat f) = Some x ->
  spec_by_name txnFieldSpecs (txt_TxnField f) = Some (f, x).
Proof.
  intros E. pose proof (printed_read txnFieldSpecs "TxnField" "invalidTxnField" f (f_version x) x (eq_refl true) E (N.le_refl _)) as P.
  fold (txt_TxnField f) in P. unfold read_field in P.
  pose proof (spec_by_name_table txnFieldSpecs (distinct_nodup (map f_name txnFieldSpecs) eq_refl) 0 (txt_TxnField f)) as T.
  fold (spec_by_name txnFieldSpecs (txt_TxnField f)) in T.
  destruct (spec_by_name txnFieldSpecs (txt_TxnField f)) as [[g y]|].
  - destruct (f_version x <? f_version y)%N; [discriminate|]. injection P as ->. destruct T as [_ [_ [T _]]].
    rewrite N.sub_0_r, E in T. congruence.
  - destruct (read_uint8 (txt_TxnField f)); discriminate.
Qed.
Lemma read_txn_named v f : named txnFieldSpecs v f = true -> read_txn_field ITxnField v (txt_TxnField f) = Some (f, true).
Proof.
  unfold named. intros N. destruct (nth_error txnFieldSpecs (N.to_nat f)) as [x|] eqn:E; [|discriminate].
  unfold read_txn_field. rewrite (txn_by_name f x E). replace (v <? f_version x)%N with false by lia. reflexivity.
Qed.
Lemma read_txna_named v f : named_array f = true -> read_txn_field ITxnaField v (txt_TxnField f) = Some (f, true).
Proof.
  unfold named_array. intros N. destruct (nth_error txnFieldSpecs (N.to_nat f)) as [x|] eqn:E; [|discriminate].
  unfold read_txn_field. rewrite (txn_by_name f x E), N. reflexivity.
Qed.
Lemma read_itxn_named v f : named_itxn v f = true -> read_txn_field IItxnField v (txt_TxnField f) = Some (f, true).
Proof.
  unfold named_itxn. intros N. destruct (nth_error txnFieldSpecs (N.to_nat f)) as [x|] eqn:E; [|discriminate].
  unfold read_txn_field. rewrite (txn_by_name f x E). apply Bool.andb_true_iff in N as [N1 N2].
  apply Bool.negb_true_iff in N1. rewrite N1. replace (v <? f_itx x)%N with false by lia. reflexivity.
Qed.

(* numerals are no names *)
Definition starts_digit (s : str) : bool := match s with c :: _ => (48 <=? byte c)%N && (byte c <? 58)%N | [] => false end.
Lemma dec_starts n : starts_digit (dec n) = true.
Proof.
  destruct (dec_spec n) as [A [B _]]. destruct (dec n) as [|c r]; [congruence|]. inversion B as [|? ? [d [D E]] _]; subst.
  unfold starts_digit. rewrite E. lia.
Qed.
Lemma no_digit_name sp n : forallb (fun s => negb (starts_digit (f_name s))) sp = true -> spec_by_name sp (dec n) = None.
Proof.
  intros A. rewrite forallb_forall in A. apply spec_by_name_out. intros I. apply in_map_iff in I as [x [E I]].
  specialize (A x I). rewrite E, dec_starts in A. discriminate.
Qed.
Lemma read_field_dec sp v n : forallb (fun s => negb (starts_digit (f_name s))) sp = true -> (n < 256)%N ->
  read_field sp v (dec n) = Some (n, false).
Proof. intros A H. unfold read_field. rewrite (no_digit_name sp n A), (read_uint8_dec n H). reflexivity. Qed.
Lemma read_txn_dec k v n : (n < 256)%N -> read_txn_field k v (dec n) = Some (n, false).
Proof.
  intros H. unfold read_txn_field. rewrite (no_digit_name txnFieldSpecs n) by (vm_compute; reflexivity).
  rewrite (read_uint8_dec n H). reflexivity.
Qed.
Lemma lookup_dec m n : forallb (fun x => negb (starts_digit (bs (fst x)))) m = true -> lookup m (dec n) = None.
Proof.
  intros A. unfold lookup. destruct (find (fun x => seqb (bs (fst x)) (dec n)) m) as [[a b]|] eqn:E; [|reflexivity].
  apply find_some in E as [I E]. apply seqb_eq in E. rewrite forallb_forall in A. specialize (A _ I). rewrite E, dec_starts in A. discriminate.
Qed.
Lemma read_const_dec n : (n < 2 ^ 64)%N -> read_const_int (dec n) = Some n.
Proof. intros H. unfold read_const_int. rewrite !lookup_dec by (vm_compute; reflexivity). exact (parse_uint_dec n 64 H). Qed.

Lemma word_sized_lt n : word_sized n = true -> (n < 2 ^ 64)%N.
Proof. unfold word_sized. intros H. apply N.ltb_lt in H. exact H. Qed.
Lemma byte_sized_lt n : byte_sized n = true -> (n < 256)%N.
Proof. unfold byte_sized. apply N.ltb_lt. Qed.

Lemma all_ints_dec ns : forallb word_sized ns = true -> all_ints (map dec ns) = Some ns.
Proof.
  induction ns as [|n ns IH]; intros F; [reflexivity|]. cbn [forallb] in F. apply Bool.andb_true_iff in F as [A B].
  cbn [map all_ints]. rewrite (parse_uint_dec n 64 (word_sized_lt n A)). cbn [obind]. rewrite (IH B). reflexivity.
Qed.
Lemma byte_operand_hex en w r : byte_operand en (bs "0x" ++ hex_encode w) r = Some (w, r).
Proof.
  transitivity (obind (hex_decode (hex_encode w)) (fun v => Some (v, r))); [reflexivity|]. rewrite hex_round_trip. reflexivity.
Qed.
Lemma byte_operand_b64 en w r : byte_operand en (bs "b64") (b64_encode w :: r) = Some (w, r).
Proof.
  transitivity (obind (b64_decode (b64_encode w)) (fun v => Some (v, r))); [reflexivity|]. rewrite b64_round_trip. reflexivity.
Qed.
Lemma all_bytes_hex en ws : forall n, length ws <= n -> all_bytes en n (map (fun w => bs "0x" ++ hex_encode w) ws) = Some ws.
Proof.
  induction ws as [|w ws IH]; intros n H; [destruct n; reflexivity|]. destruct n as [|n]; cbn [length] in H; [lia|].
  cbn [map all_bytes]. rewrite byte_operand_hex. cbn [obind fst snd]. rewrite (IH n) by lia. reflexivity.
Qed.
Lemma all_bytes_b64 en ws : forall n, length ws <= n ->
  all_bytes en n (flat_map (fun w => [bs "b64"; b64_encode w]) ws) = Some ws.
Proof.
  induction ws as [|w ws IH]; intros n H; [destruct n; reflexivity|]. destruct n as [|n]; cbn [length] in H; [lia|].
  change (flat_map (fun w => [bs "b64"; b64_encode w]) (w :: ws)) with (bs "b64" :: b64_encode w :: flat_map (fun w => [bs "b64"; b64_encode w]) ws).
  cbn [all_bytes]. rewrite byte_operand_b64. cbn [obind fst snd]. rewrite (IH n) by lia. reflexivity.
Qed.

(* ------------------------------------------------------------------------------------------ *)
(* one instruction *)
Lemma op_entries en v n p args e : label_name n = None -> seqb n (bs "#pragma") = false -> ops_get n = Some p ->
  assemble en v p args = Some (e, []) -> line_entries en v (n :: args) = [e].
Proof. intros A B C D. unfold line_entries. rewrite A, B, C, D. reflexivity. Qed.

Lemma exceptional_named v f sp : negb (named sp v f) = false -> named sp v f = true.
Proof. destruct (named sp v f); [reflexivity|discriminate]. Qed.
Lemma negb_false_true b : negb b = false -> b = true.
Proof. destruct b; [reflexivity|discriminate]. Qed.

Ltac split_fit F := cbn [immediates_fit] in F;
  repeat match type of F with _ && _ = true => let G := fresh "G" in apply Bool.andb_true_iff in F as [F G] end;
  repeat match goal with H : byte_sized _ = true |- _ => apply byte_sized_lt in H end.
Ltac operands :=
  cbn [assemble obind operand operand_value fst snd fst_of];
  unfold txt_GlobalField, txt_AssetParamsField, txt_AppParamsField, txt_AcctParamsField, txt_AssetHoldingField, txt_BlockField, txt_VrfStandard;
  repeat (first
    [ rewrite read_uint8_dec by assumption | rewrite read_txn_named by assumption | rewrite read_txna_named by assumption
    | rewrite read_itxn_named by assumption | rewrite read_txn_dec by assumption
    | match goal with
      | |- context [read_field ?sp ?v (dec ?n)] => rewrite (read_field_dec sp v n) by (assumption || (vm_compute; reflexivity))
      | |- context [read_field ?sp ?v (field_text ?sp ?ty ?inv ?f)] => rewrite (read_named sp ty inv v f) by (assumption || (vm_compute; reflexivity))
      end ];
    cbn [assemble obind operand operand_value fst snd fst_of]).
Ltac op p := apply (op_entries _ _ _ p); [reflexivity|reflexivity|vm_compute; reflexivity|unfold p; operands; try reflexivity].

Lemma pairs_length ws : length ws <= length (flat_map (fun w => [bs "b64"; b64_encode w]) ws).
Proof. induction ws as [|w ws IH]; [reflexivity|]. cbn [flat_map length app]. lia. Qed.
Lemma pragma_dec n : (0 < n < 2 ^ 64)%N -> pragma_version [bs "version"; dec n] = Some n.
Proof.
  intros H. unfold pragma_version. change (seqb (bs "version") (bs "version")) with true. cbv iota.
  rewrite (parse_uint_dec n 64) by lia. replace (n =? 0)%N with false by lia. reflexivity.
Qed.

Lemma read_back en v e : immediates_fit en e = true -> exceptional v e = false -> line_entries en v (words e) = [e].
Proof.
  intros F X. destruct e; cbn [words]; cbn [exceptional] in X; try discriminate X; try apply negb_false_true in X; split_fit F.
  - destruct o; try discriminate X; vm_compute; reflexivity.
  - vm_compute; reflexivity.
  - vm_compute; reflexivity.
  - vm_compute; reflexivity.
  - reflexivity.
  - op opEcdsaVerify.
  - op opEcdsaPkDecompress.
  - op opEcdsaPkRecover.
  - apply (op_entries _ _ _ opIntConstBlock); [reflexivity|reflexivity|vm_compute; reflexivity|]. unfold opIntConstBlock. cbn [assemble]. rewrite all_ints_dec by exact F. reflexivity. (* IntcBlockExpr *)
  - op opIntConstLoad.
  - apply (op_entries _ _ _ opByteConstBlock); [reflexivity|reflexivity|vm_compute; reflexivity|]. unfold opByteConstBlock. cbn [assemble]. rewrite all_bytes_hex by (rewrite map_length; lia). reflexivity. (* BytecBlockExpr *)
  - op opByteConstLoad.
  - op opArg.
  - op opTxn.
  - op opGlobal.
  - op opLoad.
  - op opStore.
  - op opTxna.
  - op opGtxn.
  - op opGtxns.
  - op opProto.
  - unfold line_entries, label_name. rewrite rev_app_distr. cbn [rev app]. rewrite Ascii.eqb_refl, rev_involutive. destruct Name_; [discriminate|reflexivity]. (* LabelExpr *)
  - apply N.eqb_eq in F. subst. apply (op_entries _ _ _ opPushBytes); [reflexivity|reflexivity|vm_compute; reflexivity|]. unfold opPushBytes. cbn [assemble operand]. rewrite byte_operand_b64. reflexivity. (* PushBytesExpr *)
  - apply (op_entries _ _ _ opPushInt); [reflexivity|reflexivity|vm_compute; reflexivity|]. unfold opPushInt. cbn [assemble operand operand_value]. rewrite (parse_uint_dec _ 64 (word_sized_lt _ F)). reflexivity. (* PushIntExpr *)
  - apply (op_entries _ _ _ opInt); [reflexivity|reflexivity|vm_compute; reflexivity|]. unfold opInt. cbn [assemble operand operand_value]. rewrite (read_const_dec _ (word_sized_lt _ F)). reflexivity. (* IntExpr *)
  - apply N.eqb_eq in F. subst. apply (op_entries _ _ _ opByte); [reflexivity|reflexivity|vm_compute; reflexivity|]. unfold opByte. cbn [assemble operand]. rewrite byte_operand_b64. reflexivity. (* ByteExpr *)
  - unfold line_entries. change (label_name (bs "#pragma")) with (@None str). change (seqb (bs "#pragma") (bs "#pragma")) with true. cbv iota. rewrite (pragma_dec Version_) by (apply N.eqb_neq in X; lia). rewrite N.mod_small by lia. reflexivity. (* PragmaExpr *)
  - op opBnz.
  - op opBz.
  - op opB.
  - apply (op_entries _ _ _ opSwitch); [reflexivity|reflexivity|vm_compute; reflexivity|reflexivity]. (* SwitchExpr *)
  - apply (op_entries _ _ _ opMatch); [reflexivity|reflexivity|vm_compute; reflexivity|reflexivity]. (* MatchExpr *)
  - op opCallSub.
  - op opBury.
  - op opPopN.
  - op opDupN.
  - op opBase64Decode. unfold u8. rewrite N.mod_small by lia. reflexivity. (* Base64DecodeExpr *)
  - op opJSONRef. unfold u8. rewrite N.mod_small by lia. reflexivity. (* JsonRefExpr *)
  - op opItxna.
  - apply N.eqb_eq in X. subst. op opGtxnas. (* GtxnasExpr *)
  - op opItxnas.
  - op opGitxnas.
  - apply (op_entries _ _ _ opAddr); [reflexivity|reflexivity|vm_compute; reflexivity|]. unfold opAddr. cbn [assemble operand operand_value]. rewrite F. reflexivity. (* AddrExpr *)
  - apply (op_entries _ _ _ opPushBytess); [reflexivity|reflexivity|vm_compute; reflexivity|]. unfold opPushBytess. cbn [assemble]. rewrite all_bytes_b64 by apply pairs_length. reflexivity. (* PushBytessExpr *)
  - op opEcAdd.
  - op opEcScalarMul.
  - op opEcPairingCheck.
  - op opEcMultiExp.
  - op opEcSubgroupCheck.
  - op opEcMapTo.
  - apply (op_entries _ _ _ opFrameBury); [reflexivity|reflexivity|vm_compute; reflexivity|]. unfold opFrameBury. cbn [assemble operand operand_value]. rewrite read_int8_dec by lia. reflexivity. (* FrameBuryExpr *)
  - apply (op_entries _ _ _ opFrameDig); [reflexivity|reflexivity|vm_compute; reflexivity|]. unfold opFrameDig. cbn [assemble operand operand_value]. rewrite read_int8_dec by lia. reflexivity. (* FrameDigExpr *)
  - op opCover.
  - op opUncover.
  - op opAssetParamsGet.
  - op opItxn.
  - op opItxnField.
  - op opGtxna.
  - op opGtxnsa.
  - op opGload.
  - op opGloads.
  - op opTxnas.
  - op opExtract.
  - op opAppParamsGet.
  - op opAcctParamsGet.
  - op opBlock.
  - op opVrfVerify.
  - op opAssetHoldingGet.
  - op opGitxn.
  - op opGtxnsas.
  - op opDig.
  - op opGaid.
  - op opSubstring.
  - apply (op_entries _ _ _ opGitxna); [reflexivity|reflexivity|vm_compute; reflexivity|]. unfold opGitxna. cbn [assemble operand operand_value]. rewrite (parse_uint_dec _ 64) by (change (2 ^ 64)%N with 18446744073709551616%N; lia). operands. unfold u8. rewrite N.mod_small by lia. reflexivity. (* GitxnaExpr *)
Qed.

Lemma read_back_version en v e : exceptional v e = false -> immediates_fit en e = true ->
  line_version v (words e) = next_version v e.
Proof.
  intros X F. destruct e; cbn [words next_version]; cbn [exceptional] in X; try discriminate X; try reflexivity.
  - destruct o; reflexivity.
  - unfold line_version, label_name. rewrite rev_app_distr. cbn [rev app]. rewrite Ascii.eqb_refl. reflexivity.
  - cbn [immediates_fit] in F. apply byte_sized_lt in F. apply N.eqb_neq in X. unfold line_version.
    change (label_name (bs "#pragma")) with (@None str). change (seqb (bs "#pragma") (bs "#pragma")) with true. cbv iota.
    rewrite (pragma_dec Version_) by lia. reflexivity.
Qed.

Lemma word_token w : is_word w = true -> one_token w = true.
Proof. intros H. unfold one_token. rewrite H. reflexivity. Qed.
Lemma token_dec n : one_token (dec n) = true.
Proof. apply word_token, word_dec. Qed.
Lemma token_dec_z z : one_token (dec_z z) = true.
Proof. apply word_token, word_dec_z. Qed.

Lemma words_ok v e : exceptional v e = false -> Forall (fun w => one_token w = true) (words e).
Proof.
  intros X. destruct e; cbn [words]; cbn [exceptional] in X; try discriminate X; try apply negb_false_true in X;
  try (repeat (constructor; [first [reflexivity | apply token_dec | apply token_dec_z | assumption
     | apply word_token; assumption
     | apply word_token, word_field with (v := v); [vm_compute; reflexivity|assumption]
     | apply word_token, word_field_txn; unfold named, named_array, named_itxn in X;
       match type of X with match ?n with _ => _ end = true => destruct n; [eexists; reflexivity|discriminate] end ]|]); constructor).
  all: try (constructor; [reflexivity|]).
  all: try (repeat constructor; first [apply token_dec | apply token_dec_z | assumption | reflexivity]; fail).
  - destruct o; repeat constructor.
  - clear. induction Values_; constructor; [apply token_dec|assumption].
  - clear. induction Values_; constructor; [apply word_token, word_hex|assumption].
  - rewrite forallb_forall in X. apply Forall_forall. exact X.
  - rewrite forallb_forall in X. apply Forall_forall. exact X.
  - induction Bytess_ as [|w ws IH]; [constructor|]. cbn [forallb] in X. apply Bool.andb_true_iff in X as [A B].
    cbn [flat_map app]. constructor; [reflexivity|]. constructor; [apply word_token; exact A|exact (IH B)].
Qed.

Lemma join_cons w ws : ws <> [] -> join (w :: ws) = w ++ " "%char :: join ws.
Proof. destruct ws; [congruence|reflexivity]. Qed.

Lemma pushbytess_text w ws : bs "pushbytess " ++ join (map (fun v => bs "b64 " ++ b64_encode v) (w :: ws)) =
  join (bs "pushbytess" :: flat_map (fun w => [bs "b64"; b64_encode w]) (w :: ws)).
Proof.
  rewrite join_cons by discriminate. change (bs "pushbytess ") with (bs "pushbytess" ++ [" "%char]).
  rewrite <- app_assoc. f_equal. cbn [app]. f_equal. revert w. induction ws as [|w2 ws IH]; intros w; [reflexivity|].
  specialize (IH w2). cbn [map flat_map app] in *. rewrite (join_cons (bs "b64 " ++ b64_encode w)) by discriminate. rewrite IH.
  change (bs "b64 ") with (bs "b64" ++ [" "%char]). rewrite <- !app_assoc. reflexivity.
Qed.

Lemma prints en v e : immediates_fit en e = true -> exceptional v e = false -> exists b, prints_as e (words e, b).
Proof.
  intros F X. unfold prints_as. cbn [fst snd].
  destruct e; cbn [words print join map]; cbn [exceptional] in X; try discriminate X;
    try (exists false; split; [reflexivity|]; cbn [app]; rewrite app_nil_r; rewrite <- ?app_assoc; reflexivity).
  - exists false. split; reflexivity.
  - exists false. split; [reflexivity|]. rewrite app_nil_r. destruct Values_; reflexivity.
  - exists false. split; [reflexivity|]. rewrite app_nil_r. destruct Values_; reflexivity.
  - exists false. split; [reflexivity|]. cbn [immediates_fit] in F. apply N.eqb_eq in F. subst. rewrite app_nil_r. reflexivity.
  - exists false. split; [reflexivity|]. cbn [immediates_fit] in F. apply N.eqb_eq in F. subst. rewrite app_nil_r. reflexivity.
  - exists false. split; [reflexivity|]. rewrite app_nil_r. destruct Targets_; reflexivity.
  - exists false. split; [reflexivity|]. rewrite app_nil_r. destruct Targets_; reflexivity.
  - destruct Bytess_ as [|w ws]; [exists true; split; reflexivity|]. exists false. split; [reflexivity|]. rewrite app_nil_r.
    f_equal. exact (pushbytess_text w ws).
Qed.

(* ------------------------------------------------------------------------------------------ *)
(* whole listings *)
Lemma survive_forall en l : forall v, all_survive en v l = true ->
  Forall (fun e => (exists b, prints_as e (words e, b)) /\ Forall (fun w => one_token w = true) (words e)) l.
Proof.
  induction l as [|e l IH]; intros v H; [constructor|]. cbn [all_survive] in H.
  apply Bool.andb_true_iff in H as [H H3]. apply Bool.andb_true_iff in H as [H1 H2]. apply Bool.negb_true_iff in H2.
  constructor; [|exact (IH _ H3)]. split; [exact (prints en v e H1 H2)|exact (words_ok v e H2)].
Qed.

Lemma survive_entries en l : forall v raw, all_survive en v l = true ->
  Forall2 (fun x e => word_line x (words e)) raw l -> all_entries en v (map code_of raw) = l.
Proof.
  induction l as [|e l IH]; intros v raw H F; inversion F as [|x ? raw' ? W F']; subst; [reflexivity|].
  cbn [all_survive] in H.
  apply Bool.andb_true_iff in H as [H H3]. apply Bool.andb_true_iff in H as [H1 H2]. apply Bool.negb_true_iff in H2.
  cbn [map all_entries]. rewrite (word_line_code _ _ W). destruct (word_line_entries en v x (words e) W) as [-> ->].
  rewrite (read_back en v e H1 H2), (read_back_version en v e H2 H1). cbn [app]. f_equal. exact (IH _ _ H3 F').
Qed.
Lemma survive_version en l : forall v raw, all_survive en v l = true ->
  Forall2 (fun x e => word_line x (words e)) raw l -> all_surplus en v (map code_of raw) = 0.
Proof.
  induction l as [|e l IH]; intros v raw H F; inversion F as [|x ? raw' ? W F']; subst; [reflexivity|].
  cbn [all_survive] in H.
  apply Bool.andb_true_iff in H as [H H3]. apply Bool.andb_true_iff in H as [H1 H2]. apply Bool.negb_true_iff in H2.
  cbn [map all_surplus]. rewrite (word_line_code _ _ W). destruct (word_line_entries en v x (words e) W) as [E ->].
  rewrite (read_back_version en v e H2 H1), (IH _ _ H3 F').
  rewrite (read_back en v e H1 H2) in E. unfold entries in E. unfold surplus.
  destruct (kind_of x); try reflexivity. destruct (assemble en v p args) as [[a [|b c]]|]; try reflexivity. discriminate.
Qed.

Theorem listing_round_trip en l : all_survive en 1 l = true ->
  exists s r, print_listing l = Ret s /\ process en s = Ret r /\ r_listing r = l.
Proof.
  intros H. pose proof (survive_forall en l 1 H) as F.
  destruct (print_listing_text l) as [ls [P M]].
  { eapply Forall_impl; [|exact F]. cbn beta. tauto. }
  exists (word_text ls).
  assert (Forall (fun x => Forall (fun w => one_token w = true) (fst x)) ls) as Fw.
  { apply Forall_forall. intros x I. apply (in_map fst) in I. rewrite M in I. apply in_map_iff in I as [e [<- I]].
    rewrite Forall_forall in F. exact (proj2 (F e I)). }
  pose proof (tokenize_spec _ _ (word_text_lexes ls Fw)) as T.
  destruct (word_text_lines ls Fw 0) as [raw [L [F2 E]]].
  assert (Forall2 (fun x e => word_line x (words e)) raw l) as F3.
  { clear - M F2. revert l M. induction F2 as [|x [ws b] raw ls W F2 IH]; intros l M; destruct l as [|e l]; try discriminate; constructor.
    - cbn [map fst] in *. injection M as -> _. exact W.
    - apply IH. cbn [map] in M. congruence. }
  rewrite (surjective_pairing (layout 0 0 (text_pieces ls))), E in T.
  destruct (process_returns en _ _ _ _ T L (survive_version en l 1 raw H F3)) as [r Er].
  exists r. split; [exact P|]. split; [exact Er|].
  destruct (process_result en _ r Er) as [ts' [errs' [raw' [lds [T' [L' [_ R]]]]]]]. rewrite T in T'. injection T' as <- <-.
  rewrite (Lines_fun _ _ L' _ L) in R.
  rewrite (ro_listing _ _ _ _ _ _ _ R), (ro_lines _ _ _ _ _ _ _ R). exact (survive_entries en l 1 raw H F3).
Qed.
