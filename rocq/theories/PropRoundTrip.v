(* Properties C13, C55 and C56: the text of a listing, named fields. *)
From Verif Require Import Base Lexer Expr Linter Fields OpTable Codec Literals Print Process ProcessSpec ProcessThms
  PropProcess AvmFields FieldProofs RoundTripSpec RoundTrip RoundTripFit RoundTripExact.

(* ---------------------------------------------------------------- C13: listing text round trip *)
Definition reads_back (en : env) (r : presult) : Prop :=
  exists s r', print_listing (r_listing r) = Ret s /\ process en s = Ret r' /\ r_listing r' = r_listing r.

(* Accepted programs (no diagnostic at all) whose listing is another one after printing and reading:
   a misspelt opcode (repace2), the wrong opcode (pushints), swapped operands (gtxnas), a method
   signature quoted twice, empty byte constants, base 64 texts that start with //, a field that is
   no array with an index, fields without a name or of a later version, a version above 255. *)
Definition not_read_back : list (list string) :=
  [ ["#pragma version 8"; "byte 0x00"; "byte 0x01"; "replace2 0"; "return"];
    ["#pragma version 8"; "pushints 1 2"; "return"];
    ["#pragma version 8"; "method ""f()void"""; "return"];
    ["#pragma version 8"; "int 0"; "gtxnas 1 Accounts"; "return"];
    ["#pragma version 8"; "byte """""; "return"];
    ["#pragma version 8"; "pushbytes """""; "return"];
    ["#pragma version 8"; "byte 0xffff"; "return"];
    ["#pragma version 8"; "pushbytess 0xffff 0x01"; "return"];
    ["#pragma version 8"; "txn Sender 0"; "return"];
    ["#pragma version 6"; "txn 3"; "return"];
    ["#pragma version 6"; "gtxn 0 3"; "return"];
    ["#pragma version 8"; "global 200"; "return"];
    ["#pragma version 8"; "itxn_begin"; "int 1"; "itxn_field 3"; "return"];
    ["#pragma version 256"; "int 1"; "return"] ].
Theorem C13_refuted : Forall (fun ls => exists r, process env0 (lines ls) = Ret r /\ r_diag r = [] /\ ~ reads_back env0 r) not_read_back.
Proof.
  unfold not_read_back. repeat (constructor; [
    match goal with |- exists r, ?p = _ /\ _ =>
      let E := fresh "E" in destruct p as [r| |] eqn:E; vm_compute in E; try discriminate; injection E as <- end;
    eexists; split; [reflexivity|]; split; [vm_compute; reflexivity|]; intros [s [r' [P [Q R]]]];
    vm_compute in P; first [discriminate P | injection P as <-; vm_compute in Q; injection Q as <-; vm_compute in R; discriminate R] |]).
  constructor.
Qed.
Print Assumptions C13_refuted.

(* Every other listing survives: exceptions lists the instructions of those kinds, each judged by
   the version the listing has at its place. *)
Theorem C13_partial en src r : process en src = Ret r -> exceptions 1 (r_listing r) = [] -> reads_back en r.
Proof. exact (process_round_trip en src r). Qed.
Print Assumptions C13_partial.

(* And no other does: exceptions is exact. *)
Theorem C13_exact en src r : process en src = Ret r -> (reads_back en r <-> exceptions 1 (r_listing r) = []).
Proof.
  intros E. split; [|exact (process_round_trip en src r E)]. intros [s [r' [P [Q R]]]].
  destruct (exceptions 1 (r_listing r)) as [|e x] eqn:X; [reflexivity|]. exfalso.
  apply (lost_round_trip en (r_listing r) r' s); [exact (results_fit en src r E)|exact (results_from en src r E)|rewrite X; discriminate|exact P|exact Q|exact R].
Qed.
Print Assumptions C13_exact.
(* labels may be strings; only those with a quote inside are lost *)
Example C13_exact_ex : forall src, In src [lines ["#pragma version 8"; "b ""a b"""; "switch ""x"" y"]; lines ["#pragma version 8"; "b ""a\""b"""; "return"]] ->
  match process env0 src with Ret r => negb (length (exceptions 1 (r_listing r)) =? 0) = existsb (fun c => Ascii.eqb c "\") src | _ => False end.
Proof. intros src [<-|[<-|[]]]; vm_compute; reflexivity. Qed.

(* the same for a listing that need not come from Process *)
Theorem C13_listing_partial en l : all_survive en 1 l = true ->
  exists s r, print_listing l = Ret s /\ process en s = Ret r /\ r_listing r = l.
Proof. exact (listing_round_trip en l). Qed.
Print Assumptions C13_listing_partial.

Example C13_ex :
  match process env0 (lines ["#pragma version 8"; "// c"; "main:"; "txn NumAppArgs"; "bz main"; "byte ""a\x00b"""; "frame_dig -1";
                             "switch main x"; "bytecblock 0x 0xff"; "intcblock 1 0x10 1_000"; "itxn_field Fee"; "int pay"; "oops"; "x:"]) with
  | Ret r => exceptions 1 (r_listing r) = [] /\ 10 < length (r_listing r)
  | _ => False
  end.
Proof. vm_compute. split; [reflexivity|repeat constructor]. Qed.
(* Fields without a name are printed as the name of the end marker or as the type with the number
   (go_algorand.go:1928-2276); no such text is a field for the parser. *)
Definition unnamed_texts : list (list field_spec * (N -> str)) :=
  [(txnFieldSpecs, txt_TxnField); (globalFieldSpecs, txt_GlobalField); (assetParamsFieldSpecs, txt_AssetParamsField);
   (appParamsFieldSpecs, txt_AppParamsField); (acctParamsFieldSpecs, txt_AcctParamsField);
   (assetHoldingFieldSpecs, txt_AssetHoldingField); (blockFieldSpecs, txt_BlockField); (vrfStandardSpecs, txt_VrfStandard)].
Theorem C13_unnamed sp txt v f : In (sp, txt) unnamed_texts -> (N.of_nat (length sp) <= f < 256)%N ->
  read_field sp v (txt f) = None.
Proof.
  intros H F.
  assert (C : forallb (fun x => forallb (fun n => match spec_by_name (fst x) (snd x (N.of_nat n)), read_uint8 (snd x (N.of_nat n)) with
      None, None => true | _, _ => false end) (seq (length (fst x)) (256 - length (fst x)))) unnamed_texts = true)
    by (vm_compute; reflexivity).
  rewrite forallb_forall in C. specialize (C _ H). rewrite forallb_forall in C. cbn [fst snd] in C.
  assert (I : In (N.to_nat f) (seq (length sp) (256 - length sp))) by (apply in_seq; lia).
  specialize (C _ I). rewrite N2Nat.id in C. unfold read_field.
  destruct (spec_by_name sp (txt f)); [discriminate|]. destruct (read_uint8 (txt f)); [discriminate|reflexivity].
Qed.
Print Assumptions C13_unnamed.
Example C13_unnamed_ex :
  map (fun x => (snd x (N.of_nat (length (fst x))), snd x 200%N)) unnamed_texts =
  [(bs "invalidTxnField", bs "TxnField(200)"); (bs "invalidGlobalField", bs "GlobalField(200)");
   (bs "invalidAssetParamsField", bs "AssetParamsField(200)"); (bs "invalidAppParamsField", bs "AppParamsField(200)");
   (bs "invalidAcctParamsField", bs "AcctParamsField(200)"); (bs "invalidAssetHoldingField", bs "AssetHoldingField(200)");
   (bs "invalidBlockField", bs "BlockField(200)"); (bs "invalidVrfStandard", bs "VrfStandard(200)")].
Proof. vm_compute. reflexivity. Qed.

Example C13_listing_ex : all_survive env0 1 [PragmaExpr 8; IntExpr 5; BExpr (bs "x"); LabelExpr (bs "x"); TxnaExpr 26 0] = true.
Proof. vm_compute. reflexivity. Qed.

(* what Process returns always has immediates of the right size *)
Theorem C13_immediates en src r : process en src = Ret r ->
  Forall (fun e => immediates_fit en e = true /\ built e = true) (r_listing r).
Proof. exact (results_fit en src r). Qed.
Print Assumptions C13_immediates.

(* ---------------------------------------------------------------- C55: group indices *)
(* gitxna reads its group index as a 64-bit number and keeps the low byte *)
Theorem C55_gitxna_refuted : exists src r, process env0 src = Ret r /\ r_diag r = [] /\
  r_listing r = [PragmaExpr 8; GitxnaExpr 0 28 0; ReturnExpr].
Proof.
  exists (lines ["#pragma version 8"; "gitxna 256 Accounts 0"; "return"]).
  destruct (process env0 (lines ["#pragma version 8"; "gitxna 256 Accounts 0"; "return"])) as [r| |] eqn:E; vm_compute in E; try discriminate.
  injection E as <-. eexists. repeat split; vm_compute; reflexivity.
Qed.
Print Assumptions C55_gitxna_refuted.

(* ---------------------------------------------------------------- C56: named fields *)
(* txna and its relatives do not look at the version: Assets came with version 3 *)
Theorem C56_refuted : version_of avm_txn "Assets" = Some 3%N /\
  exists src r, process env0 src = Ret r /\ r_version r = 2%N /\ r_diag r = [] /\
    exists i, In (TxnaExpr i 0) (r_listing r) /\ nth_error (map f_name txnFieldSpecs) (N.to_nat i) = Some (bs "Assets").
Proof.
  split; [vm_compute; reflexivity|]. exists (lines ["#pragma version 2"; "txna Assets 0"; "return"]).
  destruct (process env0 (lines ["#pragma version 2"; "txna Assets 0"; "return"])) as [r| |] eqn:E; vm_compute in E; try discriminate.
  injection E as <-. eexists. split; [reflexivity|]. split; [reflexivity|]. split; [vm_compute; reflexivity|].
  exists 48%N. split; [vm_compute; tauto|vm_compute; reflexivity].
Qed.
Print Assumptions C56_refuted.

(* the eleven published groups, apart from txna *)
Theorem C56_named_partial :
  reads_table (read_txn_field ITxnField) avm_txn /\ reads_table (read_field globalFieldSpecs) avm_global /\
  reads_table (read_field ecdsaCurveSpecs) avm_ecdsa /\ reads_table (read_field base64EncodingSpecs) avm_base64 /\
  reads_table (read_field jsonRefSpecs) avm_json /\ reads_table (read_field vrfStandardSpecs) avm_vrf /\
  reads_table (read_field blockFieldSpecs) avm_block /\ reads_table (read_field assetHoldingFieldSpecs) avm_asset_holding /\
  reads_table (read_field assetParamsFieldSpecs) avm_asset_params /\ reads_table (read_field appParamsFieldSpecs) avm_app_params /\
  reads_table (read_field acctParamsFieldSpecs) avm_acct_params.
Proof. exact groups_read. Qed.
Print Assumptions C56_named_partial.

Theorem C56_itxn v s :
  read_txn_field IItxnField v s =
  match field_of avm_txn (string_of_list_ascii s) with
  | Some (i, _) => match version_of avm_itxn (string_of_list_ascii s) with
                   | Some w => if (v <? w)%N then None else Some (i, true)
                   | None => None
                   end
  | None => match read_uint8 s with Some n => Some (n, false) | None => None end
  end.
Proof. exact (itxn_reads v s). Qed.
Print Assumptions C56_itxn.

Theorem C56_txna_partial v s :
  read_txn_field ITxnaField v s =
  match field_of avm_txn (string_of_list_ascii s) with
  | Some (i, _) => if existsb (String.eqb (string_of_list_ascii s)) avm_txn_arrays then Some (i, true) else None
  | None => match read_uint8 s with Some n => Some (n, false) | None => None end
  end.
Proof. exact (txna_reads v s). Qed.
Print Assumptions C56_txna_partial.

(* the printed name reads back *)
Theorem C56_printed sp ty inv f v x : distinct (map f_name sp) = true -> nth_error sp (N.to_nat f) = Some x ->
  (f_version x <= v)%N -> read_field sp v (field_text sp ty inv f) = Some (f, true).
Proof. exact (printed_read sp ty inv f v x). Qed.
Print Assumptions C56_printed.
Example C56_ex : Forall (fun sp => distinct (map f_name sp) = true)
  [txnFieldSpecs; globalFieldSpecs; ecdsaCurveSpecs; base64EncodingSpecs; jsonRefSpecs; vrfStandardSpecs; blockFieldSpecs;
   assetHoldingFieldSpecs; assetParamsFieldSpecs; appParamsFieldSpecs; acctParamsFieldSpecs; ecGroupSpecs] /\
  read_txn_field ITxnField 6 (bs "FirstValidTime") = None /\ read_txn_field ITxnField 7 (bs "FirstValidTime") = Some (3%N, true) /\
  read_txn_field IItxnField 8 (bs "TxID") = None /\ read_txn_field ITxnaField 8 (bs "Accounts") = Some (28%N, true).
Proof. split; [repeat constructor|vm_compute; repeat split]. Qed.
