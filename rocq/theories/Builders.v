(* The functions and variables of the package that build programs, and what Compile (compiler.go:33-39)
   makes of what they build. *)
From Verif Require Import Base LexSpec Expr Fields Compiler Print.
From Coq Require Import String.

(* values of the interface type Expr as the builders make them: an instruction, a []Expr, a
   *NestedExpr (expr.go:1209-1212; the builders leave its label empty) *)
Inductive tree : Set :=
| TOp (e : expr)
| TList (ts : list tree)
| TNested (ts : list tree).

(* what the compiler sees (compiler.go:267-286): a NestedExpr has neither a Compile nor a String method *)
Fixpoint seen (t : tree) : pexpr :=
  match t with
  | TOp e => POp e
  | TList ts => PList (map seen ts)
  | TNested _ => POther
  end.

(* the text of a compiled listing (compiler.go:242-251); the Program and Listing values a listing may
   contain are not built by any builder and not printed here *)
Fixpoint cop_text (l : list cop) : res str :=
  match l with
  | [] => Ret []
  | COp e :: r => letr s := print e in letr t := cop_text r in Ret (s ++ c_lf :: t)
  | _ :: _ => Panic
  end.

(* Compile(exprs).String() *)
(* compiler.go:33-39, 242-251 *)
Definition text_of (ts : list tree) : res str := letr l := compile (map seen ts) in cop_text l.

(* ------------------------------------------------------------------------------------------ *)
(* one instruction: expr.go:2562-2564, 3715-3775, 3821-3859; a *LabelExpr argument is given by its
   name, the FuncExpr argument of CallSub by the name of its label *)
Definition Uncover (index : N) : tree := TOp (UncoverExpr index). (* 2562-2564 *)
Definition Load (index : N) : tree := TOp (LoadExpr index). (* 3715-3717 *)
Definition Store (index : N) : tree := TOp (StoreExpr index). (* 3719-3721 *)
Definition Gtxns (f : N) : tree := TOp (GtxnsExpr f). (* 3723-3725 *)
Definition Proto (args results : N) : tree := TOp (ProtoExpr args results). (* 3727-3729 *)
Definition Bz (l : str) : tree := TOp (BzExpr l). (* 3731-3735 *)
Definition B (l : str) : tree := TOp (BExpr l). (* 3737-3741 *)
Definition StringBytes (v : str) : tree := TOp (ByteExpr v 1). (* 3743-3745 *)
Definition Label (name : str) : tree := TOp (LabelExpr name). (* 3747-3749 *)
Definition Match (labels : list str) : tree := TOp (MatchExpr labels). (* 3751-3753 *)
Definition Switch (labels : list str) : tree := TOp (SwitchExpr labels). (* 3755-3757 *)
Definition Txn (f : N) : tree := TOp (TxnExpr f). (* 3759-3761 *)
Definition Txna (f i : N) : tree := TOp (TxnaExpr f i). (* 3763-3765 *)
Definition Int (v : N) : tree := TOp (IntExpr v). (* 3767-3769 *)
Definition Bnz (l : str) : tree := TOp (BnzExpr l). (* 3771-3775 *)
Definition FrameDig (index : Z) : tree := TOp (FrameDigExpr index). (* 3821-3823 *)
Definition ApplicationArgs : N := 26. (* go_algorand.go:533 *)
Definition Arg (index : N) : tree := Txna ApplicationArgs index. (* 3825-3827 *)
Definition ItxnField (field : N) : tree := TOp (ItxnFieldExpr field). (* 3829-3831 *)
Definition CallSub (l : str) : tree := TOp (CallSubExpr l). (* 3843-3845 *)
Definition Cover (index : N) : tree := TOp (UncoverExpr index). (* 3847-3849 *)
Definition Comment (text : str) : tree := TOp (CommentExpr text). (* 3851-3855 *)
Definition Global (index : N) : tree := TOp (GlobalExpr index). (* 3857-3859 *)

(* several instructions: expr.go:1220-1227, 3703-3713, 3777-3819, 3833-3841, 3861-3872 *)
Definition Block (exprs : list tree) : tree := TNested exprs. (* 3817-3819 *)
Definition Minus (a b : tree) : tree := Block [a; b; TOp (Op0 MinusExpr)]. (* 3703-3707 *)
Definition Plus (a b : tree) : tree := Block [a; b; TOp (Op0 PlusExpr)]. (* 3709-3713 *)
Definition MatchLabels (index : tree) (labels : list str) : tree := (* 3777-3787 *)
  TNested (map StringBytes labels ++ [index; Match labels]).
Definition AssertEq (a b : tree) : tree := Block [a; b; TOp (Op0 EqExpr); TOp (Op0 AssertExpr)]. (* 3789-3796 *)
Definition AssertLen (value : tree) (len : N) : tree := (* 3798-3806 *)
  AssertEq (Block [value; TOp (Op0 LenExpr)]) (Int len).
Definition AssertLtEq (a b : tree) : tree := Block [a; b; TOp (Op0 LtEqExpr); TOp (Op0 AssertExpr)]. (* 3808-3815 *)
Definition Itxn (exprs : list tree) : tree := (* 3833-3841: Block is given one []Expr *)
  Block [TList ([TOp (Op0 ItxnBeginExpr)] ++ exprs ++ [TOp (Op0 ItxnSubmitExpr)])].
Definition AssertInRange (e : tree) (a b : N) : tree := (* 3861-3872 *)
  Block [e; Int a; TOp (Op0 GtEqExpr); e; Int b; TOp (Op0 LtExpr); TOp (Op0 AndExpr); TOp (Op0 AssertExpr)].
(* FuncExpr.Call, expr.go:1220-1227, of a function with this label *)
Definition Call (label : str) (args : list tree) : tree := TNested (args ++ [TOp (CallSubExpr label)]).

(* the variables that hold instructions without operands, at the lines of expr.go given *)
Local Open Scope string_scope.
Definition variables : list (string * expr) :=
  [
   ("Err", ErrExpr) (* 34 *);
   ("Sha3256", Op0 Sha3256Expr) (* 55 *);
   ("Sha256", Op0 Sha256Expr) (* 86 *);
   ("Keccak256", Op0 Keccak256Expr) (* 113 *);
   ("Sha512256", Op0 Sha512256Expr) (* 140 *);
   ("ED25519Verify", Op0 ED25519VerifyExpr) (* 170 *);
   ("PlusOp", Op0 PlusExpr) (* 270 *);
   ("MinusOp", Op0 MinusExpr) (* 290 *);
   ("Div", Op0 DivExpr) (* 309 *);
   ("Mul", Op0 MulExpr) (* 328 *);
   ("Lt", Op0 LtExpr) (* 348 *);
   ("Gt", Op0 GtExpr) (* 368 *);
   ("Le", Op0 LtEqExpr) (* 388 *);
   ("Ge", Op0 GtEqExpr) (* 408 *);
   ("And", Op0 AndExpr) (* 428 *);
   ("Or", Op0 OrExpr) (* 448 *);
   ("Eq", Op0 EqExpr) (* 468 *);
   ("Neq", Op0 NeqExpr) (* 488 *);
   ("Not", Op0 NotExpr) (* 506 *);
   ("Len", Op0 LenExpr) (* 524 *);
   ("Itob", Op0 ItobExpr) (* 542 *);
   ("Btoi", Op0 BtoiExpr) (* 560 *);
   ("Modulo", Op0 ModExpr) (* 579 *);
   ("BitOr", Op0 BitOrExpr) (* 598 *);
   ("BitAnd", Op0 BitAndExpr) (* 617 *);
   ("BitXor", Op0 BitXorExpr) (* 636 *);
   ("BitNot", Op0 BitNotExpr) (* 654 *);
   ("Mulw", Op0 MulwExpr) (* 674 *);
   ("Addw", Op0 AddwExpr) (* 694 *);
   ("DivModw", Op0 DivModwExpr) (* 708 *);
   ("Intc0", Op0 Intc0Expr) (* 778 *);
   ("Intc1", Op0 Intc1Expr) (* 794 *);
   ("Intc2", Op0 Intc2Expr) (* 810 *);
   ("Intc3", Op0 Intc3Expr) (* 826 *);
   ("Bytec0", Op0 Bytec0Expr) (* 882 *);
   ("Bytec1", Op0 Bytec1Expr) (* 899 *);
   ("Bytec2", Op0 Bytec2Expr) (* 915 *);
   ("Bytec3", Op0 Bytec3Expr) (* 931 *);
   ("Arg0", Op0 Arg0Expr) (* 964 *);
   ("Arg1", Op0 Arg1Expr) (* 980 *);
   ("Arg2", Op0 Arg2Expr) (* 1002 *);
   ("Arg3", Op0 Arg3Expr) (* 1012 *);
   ("BoxGet", Op0 BoxGetExpr) (* 1345 *);
   ("BoxPut", Op0 BoxPutExpr) (* 1361 *);
   ("BoxDel", Op0 BoxDelExpr) (* 1389 *);
   ("BoxLen", Op0 BoxLenExpr) (* 1405 *);
   ("BoxCreate", Op0 BoxCreateExpr) (* 1411 *);
   ("BoxReplace", Op0 BoxReplaceExpr) (* 1416 *);
   ("BoxExtract", Op0 BoxExtractExpr) (* 1433 *);
   ("Empty", EmptyExpr) (* 1528 *);
   ("AppLocalGet", Op0 AppLocalGetExpr) (* 1544 *);
   ("AppLocalPut", Op0 AppLocalPutExpr) (* 1560 *);
   ("AppGlobalPut", Op0 AppGlobalPutExpr) (* 1575 *);
   ("AppGlobalGet", Op0 AppGlobalGetExpr) (* 1590 *);
   ("AppGlobalGetEx", Op0 AppGlobalGetExExpr) (* 1607 *);
   ("AppLocalGetEx", Op0 AppLocalGetExExpr) (* 1625 *);
   ("AppLocalDel", Op0 AppLocalDelExpr) (* 1640 *);
   ("RetSub", RetSubExpr) (* 1644 *);
   ("Return", ReturnExpr) (* 1805 *);
   ("Assert", Op0 AssertExpr) (* 1823 *);
   ("Dup", Op0 DupExpr) (* 1843 *);
   ("Extract16Bits", Op0 ExtractUint16Expr) (* 1907 *);
   ("Extract32Bits", Op0 ExtractUint32Expr) (* 1923 *);
   ("Extract64Bits", Op0 Extract64BitsExpr) (* 1939 *);
   ("Replace3", Op0 Replace3Expr) (* 1972 *);
   ("Ed25519VerifyBare", Op0 Ed25519VerifyBareExpr) (* 2056 *);
   ("BitLen", Op0 BitLenExpr) (* 2072 *);
   ("Expw", Op0 ExpwExpr) (* 2094 *);
   ("Args", Op0 ArgsExpr) (* 2141 *);
   ("Gloadss", Op0 GloadssExpr) (* 2157 *);
   ("SetByte", Op0 SetByteExpr) (* 2506 *);
   ("Concat", Op0 ConcatExpr) (* 2613 *);
   ("ItxnBegin", Op0 ItxnBeginExpr) (* 2621 *);
   ("ItxnSubmit", Op0 ItxnSubmitExpr) (* 2629 *);
   ("Pop", Op0 PopExpr) (* 2677 *);
   ("Swap", Op0 SwapExpr) (* 2696 *);
   ("Sqrt", Op0 SqrtExpr) (* 2792 *);
   ("Balance", Op0 BalanceExpr) (* 2807 *);
   ("Exp", Op0 ExpExpr) (* 2861 *);
   ("Log", Op0 LogExpr) (* 2921 *);
   ("Extract3", Op0 Extract3Expr) (* 2982 *);
   ("ExtractUint64", Op0 ExtractUint64Expr) (* 2990 *);
   ("ItxnNext", Op0 ItxnNextExpr) (* 3022 *);
   ("MinBalanceOp", Op0 MinBalanceExpr) (* 3037 *);
   ("Bzero", Op0 BzeroExpr) (* 3066 *);
   ("GetByte", Op0 GetByteExpr) (* 3082 *);
   ("Substring3", Op0 Substring3Expr) (* 3099 *);
   ("ShiftLeft", Op0 ShlExpr) (* 3115 *);
   ("ShiftRight", Op0 ShrExpr) (* 3131 *);
   ("GetBit", Op0 GetBitExpr) (* 3147 *);
   ("SetBit", Op0 SetBitExpr) (* 3164 *);
   ("BytesMinus", Op0 BminusExpr) (* 3214 *);
   ("BytesMul", Op0 BmulExpr) (* 3234 *);
   ("BytesDiv", Op0 BdivExpr) (* 3254 *);
   ("BytesPlus", Op0 BplusExpr) (* 3274 *);
   ("Gaids", Op0 GaidsExpr) (* 3306 *);
   ("Loads", Op0 LoadsExpr) (* 3323 *);
   ("Stores", Op0 StoresExpr) (* 3342 *);
   ("Dup2", Op0 Dup2Expr) (* 3361 *);
   ("Divw", Op0 DivwExpr) (* 3394 *);
   ("Select", Op0 SelectExpr) (* 3402 *);
   ("Bgteq", Op0 BgteqExpr) (* 3420 *);
   ("BytesGt", Op0 BGtExpr) (* 3436 *);
   ("BytesLe", Op0 BytesLeExpr) (* 3452 *);
   ("BytesGe", Op0 BytesGeExpr) (* 3468 *);
   ("BytesEq", Op0 BytesEqExpr) (* 3484 *);
   ("BytesNeq", Op0 BytesNeqExpr) (* 3500 *);
   ("BytesModulo", Op0 BytesModuloExpr) (* 3520 *);
   ("BytesBitOr", Op0 BytesBitOrExpr) (* 3532 *);
   ("BytesBitAnd", Op0 BytesBitAndExpr) (* 3552 *);
   ("Bsqrt", Op0 BsqrtExpr) (* 3571 *);
   ("AppGlobalDel", Op0 AppGlobalDelExpr) (* 3607 *);
   ("BytesLt", Op0 BltExpr) (* 3623 *);
   ("Band", Op0 BandExpr) (* 3631 *);
   ("BytesBitXor", Op0 BytesBitXorExpr) (* 3651 *);
   ("BytesBitNot", Op0 BytesBitNotExpr) (* 3670 *);
   ("BytesZero", Op0 BytesZeroExpr) (* 3685 *);
   ("AppOptedIn", Op0 AppOptedInExpr) (* 3701 *)
  ].
