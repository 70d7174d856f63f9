(* The tests of the project, run on the model (lexer_test.go, process_test.go, semantics_test.go, parser_test.go
   with the programs below examples/, langspec_test.go, lsp/doc_test.go, vm_test.go).  A test that only
   looks at part of a result is repeated as it is. *)
From Verif Require Import Base LexSpec Lexer Expr Linter OpTable Process Query Semantics DocLines Codec Base32 Vm.
From Verif Require Notes.

Definition c_tab : ascii := ascii_of_nat 9.
Definition tenv : env := Env b32_any (fun _ => false).

(* ---------------------------------------------------------------- lexer_test.go:7-119 *)
Definition lexes (src : str) (want : list (toktype * str)) : Prop :=
  match tokenize src with Ret (ts, []) => map (fun t => (tok_t t, tok_v t)) ts = want | _ => False end.
Example test_lexer_1 : lexes (bs """""")
  [(TokValue, (bs """"""))].
Proof. vm_compute. reflexivity. Qed.
Example test_lexer_2 : lexes (bs "byte ""escape\"" sequences\""""")
  [(TokValue, (bs "byte")); (TokValue, (bs """escape"" sequences"""""))].
Proof. vm_compute. reflexivity. Qed.
Example test_lexer_3 : lexes (bs "bytecblock 0x6f 0x65 0x70 0x6131 0x6132 0x6c74 0x73776170 0x6d696e74 0x74 0x7031 0x7032")
  [(TokValue, (bs "bytecblock")); (TokValue, (bs "0x6f")); (TokValue, (bs "0x65")); (TokValue, (bs "0x70")); (TokValue, (bs "0x6131")); (TokValue, (bs "0x6132")); (TokValue, (bs "0x6c74")); (TokValue, (bs "0x73776170")); (TokValue, (bs "0x6d696e74")); (TokValue, (bs "0x74")); (TokValue, (bs "0x7031")); (TokValue, (bs "0x7032"))].
Proof. vm_compute. reflexivity. Qed.
Example test_lexer_4 : lexes (bs "12345 0x123")
  [(TokValue, (bs "12345")); (TokValue, (bs "0x123"))].
Proof. vm_compute. reflexivity. Qed.
Example test_lexer_5 : lexes (bs "12345")
  [(TokValue, (bs "12345"))].
Proof. vm_compute. reflexivity. Qed.
Example test_lexer_6 : lexes (bs "a12345")
  [(TokValue, (bs "a12345"))].
Proof. vm_compute. reflexivity. Qed.
Example test_lexer_7 : lexes ([c_cr] ++ [c_lf])
  [(TokEol, ([c_cr] ++ [c_lf]))].
Proof. vm_compute. reflexivity. Qed.
Example test_lexer_8 : lexes ([c_cr])
  [(TokEol, ([c_cr]))].
Proof. vm_compute. reflexivity. Qed.
Example test_lexer_9 : lexes ([c_lf] ++ [c_cr])
  [(TokEol, ([c_lf])); (TokEol, ([c_cr]))].
Proof. vm_compute. reflexivity. Qed.
Example test_lexer_10 : lexes ([c_cr] ++ [c_lf] ++ [c_cr] ++ [c_lf])
  [(TokEol, ([c_cr] ++ [c_lf])); (TokEol, ([c_cr] ++ [c_lf]))].
Proof. vm_compute. reflexivity. Qed.
Example test_lexer_11 : lexes ([c_cr] ++ [c_lf] ++ [c_lf] ++ [c_cr] ++ [c_lf])
  [(TokEol, ([c_cr] ++ [c_lf])); (TokEol, ([c_lf])); (TokEol, ([c_cr] ++ [c_lf]))].
Proof. vm_compute. reflexivity. Qed.
Example test_lexer_12 : lexes (@nil ascii)
  [].
Proof. vm_compute. reflexivity. Qed.
Example test_lexer_13 : lexes (bs "#pragma version 8")
  [(TokValue, (bs "#pragma")); (TokValue, (bs "version")); (TokValue, (bs "8"))].
Proof. vm_compute. reflexivity. Qed.
Example test_lexer_14 : lexes (bs "byte ""some multiword byte string""")
  [(TokValue, (bs "byte")); (TokValue, (bs """some multiword byte string"""))].
Proof. vm_compute. reflexivity. Qed.

(* ---------------------------------------------------------------- process_test.go *)
Example test_process_empty : match process tenv [] with Ret _ => True | _ => False end.
Proof. vm_compute. exact I. Qed.
Example test_redundant_label : match process tenv (bs "test_label:") with
  Ret r => r_reds r = [RedundantLabelLine 0 (bs "test_label")] | _ => False end.
Proof. vm_compute. reflexivity. Qed.
Example test_redundant_b : match process tenv (bs "b a" ++ [c_lf] ++ bs "a:") with
  Ret r => r_reds r = [RedundantBLine 0] | _ => False end.
Proof. vm_compute. reflexivity. Qed.
Example test_int_arg_vals : match process tenv (bs "int ") with
  Ret r => match arg_vals_at r 0 4 with Ret vs => existsb (fun v => seqb (av_name v) (bs "DeleteApplication")) vs = true | _ => False end
  | _ => False end.
Proof. vm_compute. reflexivity. Qed.
Example test_sym_or_ref_at :
  match process tenv (bs "test_label:" ++ [c_lf] ++ bs "test_label2:" ++ [c_lf] ++ bs "b test_label" ++ [c_lf]) with
  Ret r => sym_or_ref_at r (Range 0 0 0 0) = bs "test_label" /\ sym_or_ref_at r (Range 1 1 1 1) = bs "test_label2" /\
           sym_or_ref_at r (Range 2 2 2 2) = bs "test_label" | _ => False end.
Proof. vm_compute. repeat split; reflexivity. Qed.
Example test_overlaps : map (fun x => overlaps (fst x) (snd x))
  [(Range 0 0 0 0, Range 0 0 0 0);
   (Range 0 0 0 0, Range 0 1 0 1);
   (Range 0 1 0 1, Range 0 1 0 1);
   (Range 1 1 1 1, Range 1 1 1 1);
   (Range 1 1 1 2, Range 1 1 1 1);
   (Range 1 1 1 2, Range 1 2 1 2);
   (Range 1 1 1 2, Range 1 0 1 0);
   (Range 1 1 1 2, Range 1 3 1 3);
   (Range 1 1 1 2, Range 0 1 1 1);
   (Range 1 1 1 2, Range 0 2 1 2);
   (Range 1 1 1 2, Range 0 0 1 0);
   (Range 1 1 1 2, Range 0 3 1 3);
   (Range 1 1 1 2, Range 0 1 0 1);
   (Range 1 1 1 2, Range 0 2 0 2);
   (Range 1 1 1 2, Range 0 0 0 0);
   (Range 1 1 1 2, Range 0 3 0 3);
   (Range 1 1 1 2, Range 2 1 2 1);
   (Range 1 1 1 2, Range 2 2 2 2);
   (Range 1 1 1 2, Range 2 0 2 0);
   (Range 1 1 1 2, Range 2 3 2 3)] =
  [true; false; true; true; true; true; false; false; true; true; false; false; false; false; false; false; false; false; false; false].
Proof. vm_compute. reflexivity. Qed.

(* ---------------------------------------------------------------- semantics_test.go *)
Example test_semantics : length (encode_from (SToken 0 0 0 0 0)
  [SToken 0 0 1 4 0; SToken 3 19 10 2 0; SToken 4 7 4 2 0; SToken 6 4 6 1 0; SToken 8 7 4 2 0]) = 5 * 5.
Proof. vm_compute. reflexivity. Qed.

(* ---------------------------------------------------------------- parser_test.go *)
Example test_docs : ops_get (bs "txn") <> None.
Proof. vm_compute. discriminate. Qed.
(* examples/ok/b.teal *)
Example test_ok_b : match process tenv
  (bs "#pragma version 4" ++ [c_lf] ++
  bs "b app" ++ [c_lf] ++
  [c_lf] ++ bs "end:" ++ [c_lf] ++
  bs "int 1" ++ [c_lf] ++
  bs "retsub" ++ [c_lf] ++
  [c_lf] ++ bs "app:" ++ [c_lf] ++
  [c_lf] ++ bs "callsub end") with
  Ret r => r_diag r = [] | _ => False end.
Proof. vm_compute. reflexivity. Qed.
(* examples/ok/byte.teal *)
Example test_ok_byte : match process tenv
  (bs "byte base64 dGVzdA==" ++ [c_lf] ++
  bs "byte b64 dGVzdA==" ++ [c_lf] ++
  bs "byte base64(dGVzdA==)" ++ [c_lf] ++
  bs "byte base32 ORSXG5A=" ++ [c_lf] ++
  bs "byte b32 ORSXG5A=" ++ [c_lf] ++
  bs "byte b32(ORSXG5A=)" ++ [c_lf] ++
  bs "byte 0x74657374" ++ [c_lf] ++
  bs "byte ""\x74\x65\x73\x74""" ++ [c_lf] ++
  bs "byte ""test""" ++ [c_lf] ++
  bs "byte ""test test""" ++ [c_lf] ++
  bs "byte ""test\""test""") with
  Ret r => r_diag r = [] | _ => False end.
Proof. vm_compute. reflexivity. Qed.
(* examples/ok/ec.teal *)
Example test_ok_ec : match process tenv
  (bs "#pragma version 9" ++ [c_lf] ++
  [c_lf] ++ bs "ec_add BLS12_381_G1" ++ [c_lf] ++
  bs "ec_map_to BLS12_381_G2" ++ [c_lf] ++
  bs "ec_multi_exp BN254_G1" ++ [c_lf] ++
  bs "ec_pairing_check BN254_G1" ++ [c_lf] ++
  bs "ec_scalar_mul BN254_G2" ++ [c_lf] ++
  bs "ec_subgroup_check BLS12_381_G1") with
  Ret r => r_diag r = [] | _ => False end.
Proof. vm_compute. reflexivity. Qed.
(* examples/ok/err.teal *)
Example test_ok_err : match process tenv
  (bs "err") with
  Ret r => r_diag r = [] | _ => False end.
Proof. vm_compute. reflexivity. Qed.
(* examples/ok/match.teal *)
Example test_ok_match : match process tenv
  (bs "#pragma version 8" ++ [c_lf] ++
  [c_lf] ++ bs "txn OnCompletion" ++ [c_lf] ++
  bs "switch noop optin closeout update delete" ++ [c_lf] ++
  bs "b end" ++ [c_lf] ++
  [c_lf] ++ bs "noop:" ++ [c_lf] ++
  bs "int 0" ++ [c_lf] ++
  bs "return" ++ [c_lf] ++
  [c_lf] ++ bs "optin:" ++ [c_lf] ++
  bs "int 1" ++ [c_lf] ++
  bs "return" ++ [c_lf] ++
  [c_lf] ++ bs "closeout:" ++ [c_lf] ++
  bs "int 2" ++ [c_lf] ++
  bs "return" ++ [c_lf] ++
  [c_lf] ++ bs "update:" ++ [c_lf] ++
  bs "int 3" ++ [c_lf] ++
  bs "return" ++ [c_lf] ++
  [c_lf] ++ bs "delete:" ++ [c_lf] ++
  bs "int 4" ++ [c_lf] ++
  bs "return" ++ [c_lf] ++
  [c_lf] ++ bs "end:" ++ [c_lf] ++
  bs "byte ""end""") with
  Ret r => r_diag r = [] | _ => False end.
Proof. vm_compute. reflexivity. Qed.
(* examples/ok/pushbytess.teal *)
Example test_ok_pushbytess : match process tenv
  (bs "#pragma version 8" ++ [c_lf] ++
  bs "pushbytess ""1"" ""2"" ""3""") with
  Ret r => r_diag r = [] | _ => False end.
Proof. vm_compute. reflexivity. Qed.
(* examples/ok/pushints.teal *)
Example test_ok_pushints : match process tenv
  (bs "#pragma version 8" ++ [c_lf] ++
  bs "pushints 1 2 3") with
  Ret r => r_diag r = [] | _ => False end.
Proof. vm_compute. reflexivity. Qed.
(* examples/ok/simple.teal *)
Example test_ok_simple : match process tenv
  (bs "#pragma version 8" ++ [c_lf] ++
  bs "int 1" ++ [c_lf] ++
  bs "return") with
  Ret r => r_diag r = [] | _ => False end.
Proof. vm_compute. reflexivity. Qed.
(* examples/err/byte.teal *)
Example test_err_byte : match process tenv
  (bs "int 1" ++ [c_lf] ++
  bs "byte asd") with
  Ret r => r_diag r <> [] | _ => False end.
Proof. vm_compute. discriminate. Qed.
(* examples/err/byte2.teal *)
Example test_err_byte2 : match process tenv
  ([c_lf] ++ bs "byte ""\1""") with
  Ret r => r_diag r <> [] | _ => False end.
Proof. vm_compute. discriminate. Qed.
(* examples/err/byte3.teal *)
Example test_err_byte3 : match process tenv
  (bs "byte base64 dGVzdA=") with
  Ret r => r_diag r <> [] | _ => False end.
Proof. vm_compute. discriminate. Qed.
(* examples/err/diag.teal *)
Example test_err_diag : match process tenv
  (bs "#pragma" ++ [c_lf] ++
  bs "#pragma version" ++ [c_lf] ++
  bs "int" ++ [c_lf] ++
  bs ":" ++ [c_lf] ++
  bs "b" ++ [c_lf] ++
  bs "+" ++ [c_lf] ++
  [c_lf] ++ bs "b a" ++ [c_lf] ++
  bs "a:" ++ [c_lf] ++
  bs "b a") with
  Ret r => r_diag r <> [] | _ => False end.
Proof. vm_compute. discriminate. Qed.
(* examples/err/infinite.teal *)
Example test_err_infinite : match process tenv
  (bs "infinite:" ++ [c_lf] ++
  bs "b infinite") with
  Ret r => r_diag r <> [] | _ => False end.
Proof. vm_compute. discriminate. Qed.
(* examples/err/linter.teal *)
Example test_err_linter : match process tenv
  (bs "#pragma version 8" ++ [c_lf] ++
  [c_lf] ++ bs "unused:" ++ [c_lf] ++
  bs "int 1" ++ [c_lf] ++
  [c_lf] ++ bs "b justBeforeLabel" ++ [c_lf] ++
  bs "// test comment" ++ [c_lf] ++
  [c_lf] ++ bs "justBeforeLabel:" ++ [c_lf] ++
  bs "int 4" ++ [c_lf] ++
  [c_lf] ++ bs "empty:" ++ [c_lf] ++
  bs "// comment" ++ [c_lf] ++
  bs "b empty" ++ [c_lf] ++
  [c_lf] ++ bs "infinite:" ++ [c_lf] ++
  bs "int 1" ++ [c_lf] ++
  bs "b infinite" ++ [c_lf] ++
  [c_lf] ++ bs "noninfinite:" ++ [c_lf] ++
  bs "int 1" ++ [c_lf] ++
  bs "bnz outofloop" ++ [c_lf] ++
  bs "b noninfinite" ++ [c_lf] ++
  [c_lf] ++ bs "outofloop:" ++ [c_lf] ++
  [c_lf] ++ bs "b nonexisting" ++ [c_lf] ++
  bs "int 2" ++ [c_lf] ++
  bs "int 3") with
  Ret r => r_diag r <> [] | _ => False end.
Proof. vm_compute. discriminate. Qed.
(* examples/err/redundantb.teal *)
Example test_err_redundantb : match process tenv
  (bs "b a" ++ [c_lf] ++
  bs "a:" ++ [c_lf]) with
  Ret r => r_diag r <> [] | _ => False end.
Proof. vm_compute. discriminate. Qed.
(* examples/err/unused.teal *)
Example test_err_unused : match process tenv
  (bs "a:" ++ [c_lf] ++
  bs "b:" ++ [c_lf]) with
  Ret r => r_diag r <> [] | _ => False end.
Proof. vm_compute. discriminate. Qed.

(* ---------------------------------------------------------------- langspec_test.go *)
Definition field (t n : string) (a : Notes.imm_arg) : Prop :=
  match a with Notes.NField t' n' None _ => t' = bs t /\ n' = bs n | _ => False end.
Definition notes (s : string) : option (list Notes.imm_arg) := Notes.tokenize (length (bs s)) (bs s).
Example test_imm_1 : match notes "{uint8 curve index}" with Some [a] => field "uint8" "curve index" a | _ => False end.
Proof. vm_compute. split; reflexivity. Qed.
Example test_imm_2 : match notes "{uint8 transaction group index} {uint8 transaction field index}" with
  Some [a; b] => field "uint8" "transaction group index" a /\ field "uint8" "transaction field index" b | _ => False end.
Proof. vm_compute. repeat split; reflexivity. Qed.
Example test_imm_3 : match notes "{uint8 transaction group index} {uint8 transaction field index} {uint8 transaction field array index}" with
  Some [a; b; c] => field "uint8" "transaction group index" a /\ field "uint8" "transaction field index" b /\
                    field "uint8" "transaction field array index" c | _ => False end.
Proof. vm_compute. repeat split; reflexivity. Qed.
Example test_imm_4 : match notes "{uint8 branch count} [{int16 branch offset, big-endian}, ...]" with
  Some [a; Notes.NArray [b; Notes.NVar] _] => field "uint8" "branch count" a /\ field "int16" "branch offset, big-endian" b | _ => False end.
Proof. vm_compute. repeat split; reflexivity. Qed.
Example test_imm_5 : match notes "{varuint count} [({varuint value length} bytes), ...]" with
  Some [a; Notes.NArray [Notes.NField t n (Some s) _; Notes.NVar] _] =>
    field "varuint" "count" a /\ t = [] /\ n = bs "bytes" /\ field "varuint" "value length" s | _ => False end.
Proof. vm_compute. repeat split; reflexivity. Qed.

(* ---------------------------------------------------------------- lsp/doc_test.go *)
Example test_split : map split_lines
  [(@nil ascii); ([c_cr]); ([c_cr] ++ [c_lf]); ([c_lf]); ([c_lf] ++ [c_lf]); ([c_lf] ++ [c_lf] ++ [c_cr]); (bs "11" ++ [c_lf] ++ bs "22" ++ [c_lf] ++ bs "33"); ([c_lf] ++ bs "11" ++ [c_lf] ++ bs "22" ++ [c_lf] ++ bs "33"); ([c_lf] ++ bs "11" ++ [c_lf] ++ bs "22" ++ [c_lf] ++ bs "33" ++ [c_lf])] =
  map Ret
  [[(@nil ascii)];
   [(@nil ascii); (@nil ascii)];
   [(@nil ascii); (@nil ascii)];
   [(@nil ascii); (@nil ascii)];
   [(@nil ascii); (@nil ascii); (@nil ascii)];
   [(@nil ascii); (@nil ascii); (@nil ascii); (@nil ascii)];
   [(bs "11"); (bs "22"); (bs "33")];
   [(@nil ascii); (bs "11"); (bs "22"); (bs "33")];
   [(@nil ascii); (bs "11"); (bs "22"); (bs "33"); (@nil ascii)]].
Proof. vm_compute. reflexivity. Qed.

(* ---------------------------------------------------------------- vm_test.go *)
(* NewVm and Run return *)
Definition vm_returns (src : str) : Prop :=
  match (letr r := process tenv src in letr v := new_vm (r_listing r) (r_version r) in run_vm 3000 v) with
  Ret _ => True | _ => False end.
Example test_vm_1 : vm_returns
  (bs "#pragma version 7" ++ [c_lf] ++
  [c_tab] ++ bs "txn Sender" ++ [c_lf] ++
  [c_tab] ++ bs "base64_decode StdEncoding").
Proof. vm_compute. exact I. Qed.
Example test_vm_2 : vm_returns
  ([c_lf] ++ [c_tab] ++ bs "#pragma version 8" ++ [c_lf] ++
  [c_tab] ++ bs "txn ApplicationID" ++ [c_lf] ++
  [c_tab] ++ bs "bnz initialized" ++ [c_lf] ++
  [c_lf] ++ [c_tab] ++ bs "byte ""manager""" ++ [c_lf] ++
  [c_tab] ++ bs "txn Sender" ++ [c_lf] ++
  [c_tab] ++ bs "app_global_put" ++ [c_lf] ++
  [c_tab] ++ bs "b end" ++ [c_lf] ++
  [c_lf] ++ [c_tab] ++ bs "initialized:" ++ [c_lf] ++
  [c_tab] ++ bs "byte ""welcome back""" ++ [c_lf] ++
  [c_tab] ++ bs "log" ++ [c_lf] ++
  [c_lf] ++ [c_tab] ++ bs "end:" ++ [c_lf] ++
  [c_tab] ++ bs "int 1" ++ [c_lf] ++
  [c_tab] ++ bs "return" ++ [c_lf] ++
  [c_tab]).
Proof. vm_compute. exact I. Qed.
Example test_vm_3 : vm_returns
  (bs "main:" ++ [c_lf] ++
  [c_tab] ++ bs "b main").
Proof. vm_compute. exact I. Qed.
