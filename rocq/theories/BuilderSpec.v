(* What the builders are for (C94): the text of what each of them builds, given independently of the
   instructions they make. *)
From Verif Require Import Base LexSpec Expr Fields Codec Compiler Print Builders.
From Coq Require Import String.

(* the instructions a value stands for, in order *)
Fixpoint content (t : tree) : list expr :=
  match t with
  | TOp e => [e]
  | TList ts => flat_map content ts
  | TNested ts => flat_map content ts
  end.

(* made of instructions and lists only *)
Inductive flat : tree -> Prop :=
| flat_op e : flat (TOp e)
| flat_list ts : (forall t, In t ts -> flat t) -> flat (TList ts).

(* the line a builder of one instruction is called for: the opcode of that name and the operands *)
Inductive called_for : tree -> str -> Prop :=
| cf_load n : called_for (Load n) (bs "load " ++ dec n)
| cf_store n : called_for (Store n) (bs "store " ++ dec n)
| cf_gtxns f : called_for (Gtxns f) (bs "gtxns " ++ txt_TxnField f)
| cf_proto a r : called_for (Proto a r) (bs "proto " ++ dec a ++ bs " " ++ dec r)
| cf_bz l : called_for (Bz l) (bs "bz " ++ l)
| cf_bnz l : called_for (Bnz l) (bs "bnz " ++ l)
| cf_b l : called_for (B l) (bs "b " ++ l)
| cf_bytes v : called_for (StringBytes v) (bs "byte " ++ c_quote :: v ++ [c_quote])
| cf_label n : called_for (Label n) (n ++ bs ":")
| cf_match l ls : called_for (Match (l :: ls)) (bs "match " ++ join (l :: ls))
| cf_switch l ls : called_for (Switch (l :: ls)) (bs "switch " ++ join (l :: ls))
| cf_txn f : called_for (Txn f) (bs "txn " ++ txt_TxnField f)
| cf_txna f i : called_for (Txna f i) (bs "txna " ++ txt_TxnField f ++ bs " " ++ dec i)
| cf_int v : called_for (Int v) (bs "int " ++ dec v)
| cf_dig z : called_for (FrameDig z) (bs "frame_dig " ++ dec_z z)
| cf_arg i : called_for (Arg i) (bs "txna ApplicationArgs " ++ dec i)
| cf_field f : called_for (ItxnField f) (bs "itxn_field " ++ txt_TxnField f)
| cf_call l : called_for (CallSub l) (bs "callsub " ++ l)
| cf_comment t : called_for (Comment t) (bs "//" ++ t)
| cf_global f : called_for (Global f) (bs "global " ++ txt_GlobalField f)
| cf_uncover n : called_for (Uncover n) (bs "uncover " ++ dec n)
| cf_cover n : called_for (Cover n) (bs "cover " ++ dec n).

(* the builders of several instructions and the instructions they are called for *)
Inductive combines : tree -> list expr -> Prop :=
| co_block ts : combines (Block ts) (flat_map content ts)
| co_minus a b : combines (Minus a b) (content a ++ content b ++ [Op0 MinusExpr])
| co_plus a b : combines (Plus a b) (content a ++ content b ++ [Op0 PlusExpr])
| co_match x ls : combines (MatchLabels x ls) (map (fun l => ByteExpr l 1) ls ++ content x ++ [MatchExpr ls])
| co_eq a b : combines (AssertEq a b) (content a ++ content b ++ [Op0 EqExpr; Op0 AssertExpr])
| co_len a n : combines (AssertLen a n) (content a ++ [Op0 LenExpr; IntExpr n; Op0 EqExpr; Op0 AssertExpr])
| co_lteq a b : combines (AssertLtEq a b) (content a ++ content b ++ [Op0 LtEqExpr; Op0 AssertExpr])
| co_itxn ts : combines (Itxn ts) (Op0 ItxnBeginExpr :: flat_map content ts ++ [Op0 ItxnSubmitExpr])
| co_range x a b : combines (AssertInRange x a b)
    (content x ++ [IntExpr a; Op0 GtEqExpr] ++ content x ++ [IntExpr b; Op0 LtExpr; Op0 AndExpr; Op0 AssertExpr])
| co_call l ts : combines (Call l ts) (flat_map content ts ++ [CallSubExpr l]).

(* the opcodes the variables are named after (langspec.json) *)
Local Open Scope string_scope.
Definition opcodes : list (string * string) :=
  [
   ("Err", "err");
   ("Sha3256", "sha3_256");
   ("Sha256", "sha256");
   ("Keccak256", "keccak256");
   ("Sha512256", "sha512_256");
   ("ED25519Verify", "ed25519verify");
   ("PlusOp", "+");
   ("MinusOp", "-");
   ("Div", "/");
   ("Mul", "*");
   ("Lt", "<");
   ("Gt", ">");
   ("Le", "<=");
   ("Ge", ">=");
   ("And", "&&");
   ("Or", "||");
   ("Eq", "==");
   ("Neq", "!=");
   ("Not", "!");
   ("Len", "len");
   ("Itob", "itob");
   ("Btoi", "btoi");
   ("Modulo", "%");
   ("BitOr", "|");
   ("BitAnd", "&");
   ("BitXor", "^");
   ("BitNot", "~");
   ("Mulw", "mulw");
   ("Addw", "addw");
   ("DivModw", "divmodw");
   ("Intc0", "intc_0");
   ("Intc1", "intc_1");
   ("Intc2", "intc_2");
   ("Intc3", "intc_3");
   ("Bytec0", "bytec_0");
   ("Bytec1", "bytec_1");
   ("Bytec2", "bytec_2");
   ("Bytec3", "bytec_3");
   ("Arg0", "arg_0");
   ("Arg1", "arg_1");
   ("Arg2", "arg_2");
   ("Arg3", "arg_3");
   ("BoxGet", "box_get");
   ("BoxPut", "box_put");
   ("BoxDel", "box_del");
   ("BoxLen", "box_len");
   ("BoxCreate", "box_create");
   ("BoxReplace", "box_replace");
   ("BoxExtract", "box_extract");
   ("Empty", "");
   ("AppLocalGet", "app_local_get");
   ("AppLocalPut", "app_local_put");
   ("AppGlobalPut", "app_global_put");
   ("AppGlobalGet", "app_global_get");
   ("AppGlobalGetEx", "app_global_get_ex");
   ("AppLocalGetEx", "app_local_get_ex");
   ("AppLocalDel", "app_local_del");
   ("RetSub", "retsub");
   ("Return", "return");
   ("Assert", "assert");
   ("Dup", "dup");
   ("Extract16Bits", "extract_uint16");
   ("Extract32Bits", "extract_uint32");
   ("Extract64Bits", "extract_uint64");
   ("Replace3", "replace3");
   ("Ed25519VerifyBare", "ed25519verify_bare");
   ("BitLen", "bitlen");
   ("Expw", "expw");
   ("Args", "args");
   ("Gloadss", "gloadss");
   ("SetByte", "setbyte");
   ("Concat", "concat");
   ("ItxnBegin", "itxn_begin");
   ("ItxnSubmit", "itxn_submit");
   ("Pop", "pop");
   ("Swap", "swap");
   ("Sqrt", "sqrt");
   ("Balance", "balance");
   ("Exp", "exp");
   ("Log", "log");
   ("Extract3", "extract3");
   ("ExtractUint64", "extract_uint64");
   ("ItxnNext", "itxn_next");
   ("MinBalanceOp", "min_balance");
   ("Bzero", "bzero");
   ("GetByte", "getbyte");
   ("Substring3", "substring3");
   ("ShiftLeft", "shl");
   ("ShiftRight", "shr");
   ("GetBit", "getbit");
   ("SetBit", "setbit");
   ("BytesMinus", "b-");
   ("BytesMul", "b*");
   ("BytesDiv", "b/");
   ("BytesPlus", "b+");
   ("Gaids", "gaids");
   ("Loads", "loads");
   ("Stores", "stores");
   ("Dup2", "dup2");
   ("Divw", "divw");
   ("Select", "select");
   ("Bgteq", "b>=");
   ("BytesGt", "b>");
   ("BytesLe", "b<=");
   ("BytesGe", "b>=");
   ("BytesEq", "b==");
   ("BytesNeq", "b!=");
   ("BytesModulo", "b%");
   ("BytesBitOr", "b|");
   ("BytesBitAnd", "b&");
   ("Bsqrt", "bsqrt");
   ("AppGlobalDel", "app_global_del");
   ("BytesLt", "b<");
   ("Band", "b&");
   ("BytesBitXor", "b^");
   ("BytesBitNot", "b~");
   ("BytesZero", "bzero");
   ("AppOptedIn", "app_opted_in")
  ].
