(* process.go: the signatures shown for an opcode, which the table Ops builds from the arguments its
   function reads (process.go:1475-1526), and the text a completion inserts (lsp/lsp.go:1475-1492). *)
From Verif Require Import Base Expr OpTable Process Print Codec.

(* process.go:237-288 NewOpArgType.String *)
Definition type_text (k : imm) : str :=
  bs match k with
     | IConstInt | IInt => "uint64"
     | IUint8 => "uint8"
     | IInt8 => "int8"
     | IBytes => "bytes"
     | ITxnaField => "transaction array field index"
     | ITxnField => "transaction field index"
     | IItxnField => "internal transaction field index"
     | IJsonRef => "json_Ref"
     | IEcdsaCurve => "ECDSA Curve"
     | IGlobal => "global field index"
     | ILabel => "label name"
     | IAssetHolding => "asset holding field index"
     | IAssetParams => "asset params field index"
     | IAppParams => "app params field index"
     | IAcctParams => "account params field index"
     | IVrf => "parameters index"
     | ISignature => "signature"
     | IAddr => "address"
     | IBase64 => "base64 encoding"
     | IBlock => "block field"
     | IEcGroup => "EC group field index"
     end.

(* process.go:1477-1500.  The variable optional is never set, so every optional argument gets a bracket
   and none is added at the end. *)
Definition full_name (a : op_arg) : str :=
  let name := type_text (oa_type a) ++ bs " : " ++ bs (oa_name a) in
  let name := if oa_array a then name ++ bs ", ..." else name in
  let name := bs "{" ++ name ++ bs "}" in
  if oa_optional a then bs "[" ++ name else name.

(* process.go:1502-1519, the loop; the flag is the variable optional *)
Fixpoint short_names (optional : bool) (args : list op_arg) : list str * bool :=
  match args with
  | [] => ([], optional)
  | a :: r =>
      let name := bs (oa_name a) in
      let name := if oa_array a then name ++ bs ", ..." else name in
      let name := if oa_optional a && negb optional then bs "[" ++ name else name in
      let (l, o) := short_names (optional || oa_optional a) r in
      (name :: l, o)
  end.

(* process.go:1521-1523: shortnames[len(shortnames)-1] += a bracket *)
Fixpoint add_last (x : str) (l : list str) : list str :=
  match l with
  | [] => []
  | [a] => [a ++ x]
  | a :: r => a :: add_last x r
  end.

(* process.go:1526 sigargs, 1527 sigfull *)
Definition args_sig (args : list op_arg) : str :=
  let (l, o) := short_names false args in
  join (if o then add_last (bs "]") l else l).
Definition full_sig (name : str) (args : list op_arg) : str :=
  name ++ bs " " ++ join (map full_name args).

(* lsp/lsp.go:1478-1485 *)
Fixpoint placeholders (i : nat) (args : list op_arg) : list str :=
  match args with
  | [] => []
  | a :: r => (bs "${" ++ dec (N.of_nat i) ++ bs ":" ++ bs (oa_name a) ++ bs "}") :: placeholders (S i) r
  end.
(* lsp/lsp.go:1475-1492: the inserted text; the editor takes the label if it is empty *)
Definition insert_text (name : str) (args : list op_arg) : str :=
  match args with [] => [] | _ => name ++ bs " " ++ join (placeholders 1 args) end.
