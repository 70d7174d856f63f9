(* C103: what is said about an operand that is refused. *)
From Verif Require Import Base LexSpec Lexer Expr Linter Fields Strconv Literals Codec OpTable Process ProcessSpec ErrorSpec Complaints.

(* In the operands args of an opcode, those before the text a are good, and a, with the texts r behind
   it, is read as an operand of kind k that is called n. *)
Inductive read_as (en : env) (v : N) : prog -> list str -> imm -> string -> str -> list str -> Prop :=
| RHere k n f a r : read_as en v (Read k n f) (a :: r) k n a r
| RMaybe n f a r : read_as en v (ReadMaybe n f) (a :: r) IUint8 n a r
| RInts n f u a r xs : all_ints u = Some xs -> read_as en v (ReadInts n f) (u ++ a :: r) IInt n a r
| RBytess n f u a r xs : all_bytes en (length u) u = Some xs -> read_as en v (ReadBytess n f) (u ++ a :: r) IBytes n a r
| RMin m p args k n a r : read_as en v p args k n a r -> read_as en v (MinVersion m p) args k n a r
| RMode o m p args k n a r : read_as en v p args k n a r -> read_as en v (ModeMinVersion o m p) args k n a r
| RThen k0 n0 f a0 r0 x args k n a r : operand en v k0 a0 r0 = Some (x, args) -> read_as en v (f x) args k n a r ->
    read_as en v (Read k0 n0 f) (a0 :: r0) k n a r
| RThenMaybe n0 f a0 args x k n a r : read_uint8 a0 = Some x -> read_as en v (f (Some x)) args k n a r ->
    read_as en v (ReadMaybe n0 f) (a0 :: args) k n a r.

(* the text that is at fault: an encoding is followed by the text that is encoded *)
Definition at_fault (k : imm) (a : str) (r : list str) : list str :=
  match k with IBytes => if encoding a then r else a :: r | _ => a :: r end.

(* the complaint about the token t of the line u ++ t :: b *)
Inductive said (en : env) (v : N) : list token -> token -> list token -> complaint -> Prop :=
| SPragma o a t b e : kind_of (o :: a :: t :: b) = LPragma (texts (a :: t :: b)) -> tok_v a = bs "version" ->
    uint_error (tok_v t) 0 64 = Some e ->
    said en v [o; a] t b (Complaint IInt "version value" (CUint (tok_v t) e))
| SOperand o u t b p k n a r c : kind_of (o :: u ++ t :: b) = LOp p (texts (u ++ t :: b)) ->
    read_as en v p (texts (u ++ t :: b)) k n a r -> operand_error en v k a r = Some c ->
    at_fault k a r = tok_v t :: texts b ->
    said en v (o :: u) t b (Complaint k n c).

(* a numeral: digits of a base, with underscores between them if the base is told by a prefix *)
Inductive numeral (base0 : bool) (base : N) : str -> N -> Prop :=
| NumNil : numeral base0 base [] 0
| NumDigit s n c d : numeral base0 base s n -> digit_of c = Some d -> (d < base)%N ->
    numeral base0 base (s ++ [c]) (n * base + d)
| NumUnder s n : base0 = true -> numeral base0 base s n -> numeral base0 base (s ++ ["_"%char]) n.

(* C104: what a number or a field is called *)
Definition family (k : imm) : option string :=
  match k with
  | IInt | IConstInt => Some "uint64"
  | IUint8 => Some "uint8"
  | IInt8 => Some "int8"
  | ITxnField | IItxnField | ITxnaField => Some "txn field"
  | IJsonRef => Some "JSON ref field"
  | IEcdsaCurve => Some "ECDSA curve index"
  | IGlobal => Some "global field"
  | IAssetHolding => Some "asset holding field"
  | IAssetParams => Some "asset params field"
  | IAppParams => Some "app params field"
  | IAcctParams => Some "acct params field"
  | IVrf => Some "VRF standard"
  | IBlock => Some "block field"
  | IEcGroup => Some "EC group field"
  | IBase64 => Some "base64 encoding field"
  | IBytes | ILabel | IAddr | ISignature => None
  end%string.
(* a text that says so, and how the operand is called *)
Definition names_operand (k : imm) (n : string) (s : str) : Prop :=
  exists w x, family k = Some w /\ s = bs "failed to parse " ++ bs w ++ bs ": " ++ bs n ++ bs ": " ++ x.
