(* expr.go: stack effects and costs of the instructions, as far as they are plain tables.
   Everything else an Execute or Cost method does is in Vm.v. *)
From Verif Require Import Base Expr Fields.

(* vm.go:115-124 VmDataType *)
Inductive vtype : Set := TNone | TAny | TUint64 | TBytes.

(* vm.go:147-160 StackType.Vm *)
Definition vm_type (t : stack_type) : vtype :=
  match t with
  | StackAny => TAny
  | StackBytes => TBytes
  | StackUint64 => TUint64
  | StackNone => TNone
  end.

(* The Execute methods that only pop typed values, push plain values of fixed types and go to
   the next line: the types popped, in order, and the types pushed, in order.  The number in the
   comment is the line of the Execute method in expr.go. *)
Definition simple_effect (e : expr) : option (list vtype * list vtype) :=
  match e with
  | Op0 Sha3256Expr => Some ([TBytes], [TBytes]) (* 48 *)
  | Op0 Keccak256Expr => Some ([TBytes], [TBytes]) (* 105 *)
  | Op0 Sha512256Expr => Some ([TBytes], [TBytes]) (* 132 *)
  | EcdsaPkDecompressExpr _ => Some ([TBytes], [TBytes; TBytes]) (* 213 *)
  | EcdsaPkRecoverExpr _ => Some ([TBytes; TBytes; TUint64; TBytes], [TBytes; TBytes]) (* 236 *)
  | Op0 PlusExpr => Some ([TUint64; TUint64], [TUint64]) (* 261 *)
  | Op0 MinusExpr => Some ([TUint64; TUint64], [TUint64]) (* 277 *)
  | Op0 DivExpr => Some ([TUint64; TUint64], [TUint64]) (* 300 *)
  | Op0 MulExpr => Some ([TUint64; TUint64], [TUint64]) (* 319 *)
  | Op0 LtExpr => Some ([TUint64; TUint64], [TUint64]) (* 339 *)
  | Op0 GtExpr => Some ([TUint64; TUint64], [TUint64]) (* 355 *)
  | Op0 LtEqExpr => Some ([TUint64; TUint64], [TUint64]) (* 375 *)
  | Op0 GtEqExpr => Some ([TUint64; TUint64], [TUint64]) (* 399 *)
  | Op0 AndExpr => Some ([TUint64; TUint64], [TUint64]) (* 415 *)
  | Op0 OrExpr => Some ([TUint64; TUint64], [TUint64]) (* 439 *)
  | Op0 EqExpr => Some ([TAny; TAny], [TUint64]) (* 455 *)
  | Op0 NeqExpr => Some ([TAny; TAny], [TUint64]) (* 475 *)
  | Op0 NotExpr => Some ([TUint64], [TUint64]) (* 498 *)
  | Op0 LenExpr => Some ([TBytes], [TUint64]) (* 516 *)
  | Op0 ItobExpr => Some ([TUint64], [TBytes]) (* 534 *)
  | Op0 BtoiExpr => Some ([TBytes], [TUint64]) (* 552 *)
  | Op0 ModExpr => Some ([TUint64; TUint64], [TUint64]) (* 570 *)
  | Op0 BitOrExpr => Some ([TUint64; TUint64], [TUint64]) (* 585 *)
  | Op0 BitAndExpr => Some ([TUint64; TUint64], [TUint64]) (* 608 *)
  | Op0 BitXorExpr => Some ([TUint64; TUint64], [TUint64]) (* 623 *)
  | Op0 BitNotExpr => Some ([TUint64], [TUint64]) (* 646 *)
  | Op0 MulwExpr => Some ([TUint64; TUint64], [TUint64; TUint64]) (* 660 *)
  | Op0 AddwExpr => Some ([TUint64; TUint64], [TUint64; TUint64]) (* 684 *)
  | Op0 DivModwExpr => Some ([TUint64; TUint64; TUint64; TUint64], [TUint64; TUint64; TUint64; TUint64]) (* 710 *)
  | IntcExpr _ => Some ([], [TUint64]) (* 756 *)
  | Op0 Intc0Expr => Some ([], [TUint64]) (* 771 *)
  | Op0 Intc1Expr => Some ([], [TUint64]) (* 787 *)
  | Op0 Intc2Expr => Some ([], [TUint64]) (* 803 *)
  | Op0 Intc3Expr => Some ([], [TUint64]) (* 819 *)
  | BytecExpr _ => Some ([], [TBytes]) (* 856 *)
  | Op0 Bytec0Expr => Some ([], [TBytes]) (* 875 *)
  | Op0 Bytec1Expr => Some ([], [TBytes]) (* 892 *)
  | Op0 Bytec2Expr => Some ([], [TBytes]) (* 908 *)
  | Op0 Bytec3Expr => Some ([], [TBytes]) (* 924 *)
  | ArgExpr _ => Some ([], [TBytes]) (* 943 *)
  | Op0 Arg0Expr => Some ([], [TBytes]) (* 957 *)
  | Op0 Arg1Expr => Some ([], [TBytes]) (* 973 *)
  | Op0 Arg2Expr => Some ([], [TBytes]) (* 989 *)
  | Op0 Arg3Expr => Some ([], [TBytes]) (* 995 *)
  | PushIntExpr _ => Some ([], [TUint64]) (* 1266 *)
  | Op0 BoxGetExpr => Some ([TBytes], [TBytes; TUint64]) (* 1337 *)
  | Op0 BoxPutExpr => Some ([TBytes; TBytes], []) (* 1354 *)
  | Op0 BoxCreateExpr => Some ([TUint64; TBytes], [TUint64]) (* 1366 *)
  | Op0 BoxLenExpr => Some ([TBytes], [TUint64; TUint64]) (* 1381 *)
  | Op0 BoxDelExpr => Some ([TBytes], [TUint64]) (* 1398 *)
  | Op0 BoxReplaceExpr => Some ([TBytes; TUint64; TBytes], []) (* 1422 *)
  | Op0 BoxExtractExpr => Some ([TUint64; TUint64; TBytes], [TBytes]) (* 1439 *)
  | Op0 AppLocalGetExpr => Some ([TBytes; TAny], [TAny]) (* 1536 *)
  | Op0 AppLocalPutExpr => Some ([TAny; TBytes; TAny], []) (* 1552 *)
  | Op0 AppGlobalPutExpr => Some ([TAny; TBytes], []) (* 1568 *)
  | Op0 AppGlobalGetExpr => Some ([TBytes], [TAny]) (* 1583 *)
  | Op0 AppGlobalGetExExpr => Some ([TBytes; TUint64], [TAny; TUint64]) (* 1598 *)
  | Op0 AppLocalGetExExpr => Some ([TBytes; TUint64; TAny], [TAny; TUint64]) (* 1615 *)
  | Op0 AppLocalDelExpr => Some ([TBytes; TAny], []) (* 1633 *)
  | Op0 AssertExpr => Some ([TUint64], []) (* 1817 *)
  | Op0 ExtractUint16Expr => Some ([TUint64; TBytes], [TUint64]) (* 1899 *)
  | Op0 ExtractUint32Expr => Some ([TUint64; TBytes], [TUint64]) (* 1915 *)
  | Replace2Expr _ => Some ([TBytes; TBytes], [TBytes]) (* 1949 *)
  | Op0 Replace3Expr => Some ([TBytes; TUint64; TBytes], [TBytes]) (* 1963 *)
  | Base64DecodeExpr _ => Some ([TBytes], [TBytes]) (* 1998 *)
  | JsonRefExpr _ => Some ([TBytes; TBytes], [TAny]) (* 2029 *)
  | Op0 Ed25519VerifyBareExpr => Some ([TBytes; TBytes; TBytes], [TUint64]) (* 2047 *)
  | Op0 BitLenExpr => Some ([TBytes], [TUint64]) (* 2064 *)
  | Op0 ExpwExpr => Some ([TUint64; TUint64], [TUint64; TUint64]) (* 2084 *)
  | Op0 ArgsExpr => Some ([TUint64], [TBytes]) (* 2134 *)
  | Op0 GloadssExpr => Some ([TUint64; TUint64], [TAny]) (* 2149 *)
  | EcAddExpr _ => Some ([TBytes; TBytes], [TBytes]) (* 2294 *)
  | EcScalarMul _ => Some ([TBytes; TBytes], [TBytes]) (* 2325 *)
  | EcPairingCheckExpr _ => Some ([TBytes; TBytes], [TUint64]) (* 2356 *)
  | EcMultiExpExpr _ => Some ([TBytes; TBytes], [TBytes]) (* 2372 *)
  | EcSubgroupCheckExpr _ => Some ([TBytes], [TUint64]) (* 2403 *)
  | EcMapToExpr _ => Some ([TBytes], [TBytes]) (* 2433 *)
  | Op0 SetByteExpr => Some ([TUint64; TUint64; TBytes], [TBytes]) (* 2497 *)
  | Op0 ConcatExpr => Some ([TBytes; TBytes], [TBytes]) (* 2605 *)
  | ItxnFieldExpr _ => Some ([TAny], []) (* 2659 *)
  | Op0 PopExpr => Some ([TAny], []) (* 2671 *)
  | GloadExpr _ _ => Some ([], [TAny]) (* 2751 *)
  | GloadsExpr _ => Some ([TUint64], [TAny]) (* 2766 *)
  | Op0 SqrtExpr => Some ([TUint64], [TUint64]) (* 2784 *)
  | Op0 BalanceExpr => Some ([TAny], [TUint64]) (* 2800 *)
  | ExtractExpr _ _ => Some ([TBytes], [TBytes]) (* 2840 *)
  | Op0 ExpExpr => Some ([TUint64; TUint64], [TUint64]) (* 2853 *)
  | Op0 LogExpr => Some ([TBytes], []) (* 2915 *)
  | VrfVerifyExpr _ => Some ([TBytes; TBytes; TBytes], [TBytes; TUint64]) (* 2957 *)
  | Op0 Extract3Expr => Some ([TUint64; TUint64; TBytes], [TBytes]) (* 2973 *)
  | Op0 ExtractUint64Expr => Some ([TUint64; TBytes], [TUint64]) (* 1931 *)
  | Op0 MinBalanceExpr => Some ([TAny], [TUint64]) (* 3030 *)
  | Op0 GetByteExpr => Some ([TUint64; TBytes], [TUint64]) (* 3074 *)
  | Op0 Substring3Expr => Some ([TUint64; TUint64; TBytes], [TBytes]) (* 3090 *)
  | Op0 ShlExpr => Some ([TUint64; TUint64], [TUint64]) (* 3107 *)
  | Op0 ShrExpr => Some ([TUint64; TUint64], [TUint64]) (* 3123 *)
  | Op0 GetBitExpr => Some ([TUint64; TUint64], [TUint64]) (* 3139 *)
  | Op0 SetBitExpr => Some ([TUint64; TUint64; TUint64], [TAny]) (* 3155 *)
  | Op0 BmulExpr => Some ([TBytes; TBytes], [TBytes]) (* 3226 *)
  | Op0 BdivExpr => Some ([TBytes; TBytes], [TBytes]) (* 3246 *)
  | Op0 BplusExpr => Some ([TBytes; TBytes], [TBytes]) (* 3266 *)
  | GaidExpr _ => Some ([], [TUint64]) (* 3284 *)
  | Op0 GaidsExpr => Some ([TUint64], [TUint64]) (* 3298 *)
  | Op0 LoadsExpr => Some ([TUint64], [TAny]) (* 3315 *)
  | SubstringExpr _ _ => Some ([TBytes], [TBytes]) (* 3372 *)
  | Op0 DivwExpr => Some ([TUint64; TUint64; TUint64], [TUint64]) (* 3385 *)
  | Op0 SelectExpr => Some ([TUint64; TAny; TAny], [TAny]) (* 3404 *)
  | Op0 BGtExpr => Some ([TBytes; TBytes], [TUint64]) (* 3428 *)
  | Op0 BytesLeExpr => Some ([TBytes; TBytes], [TUint64]) (* 3444 *)
  | Op0 BytesGeExpr => Some ([TBytes; TBytes], [TUint64]) (* 3460 *)
  | Op0 BytesEqExpr => Some ([TBytes; TBytes], [TUint64]) (* 3476 *)
  | Op0 BytesNeqExpr => Some ([TBytes; TBytes], [TUint64]) (* 3492 *)
  | Op0 BytesModuloExpr => Some ([TBytes; TBytes], [TBytes]) (* 3512 *)
  | Op0 BytesBitAndExpr => Some ([TBytes; TBytes], [TBytes]) (* 3544 *)
  | Op0 BsqrtExpr => Some ([TBytes], [TBytes]) (* 3564 *)
  | Op0 AppGlobalDelExpr => Some ([TBytes], []) (* 3601 *)
  | Op0 BltExpr => Some ([TBytes; TBytes], [TUint64]) (* 3615 *)
  | Op0 BytesBitXorExpr => Some ([TBytes; TBytes], [TBytes]) (* 3643 *)
  | Op0 BytesBitNotExpr => Some ([TBytes], [TBytes]) (* 3663 *)
  | Op0 BytesZeroExpr => Some ([TUint64], [TBytes]) (* 3678 *)
  | Op0 AppOptedInExpr => Some ([TUint64; TUint64], [TUint64]) (* 3693 *)
  | _ => None
  end.

(* The Cost methods that return one constant; the number in the comment is the line in expr.go. *)
Definition fixed_cost (e : expr) : option Z :=
  match e with
  | Op0 Sha3256Expr => Some 130%Z (* 44 *)
  | Op0 ED25519VerifyExpr => Some 1900%Z (* 150 *)
  | EcdsaPkRecoverExpr _ => Some 2000%Z (* 232 *)
  | Op0 DivModwExpr => Some 20%Z (* 704 *)
  | Op0 Ed25519VerifyBareExpr => Some 1900%Z (* 2043 *)
  | Op0 ExpwExpr => Some 10%Z (* 2080 *)
  | Op0 SqrtExpr => Some 4%Z (* 2780 *)
  | VrfVerifyExpr _ => Some 5700%Z (* 2953 *)
  | Op0 BminusExpr => Some 10%Z (* 3210 *)
  | Op0 BmulExpr => Some 20%Z (* 3222 *)
  | Op0 BdivExpr => Some 20%Z (* 3242 *)
  | Op0 BplusExpr => Some 10%Z (* 3262 *)
  | Op0 BytesModuloExpr => Some 20%Z (* 3508 *)
  | Op0 BytesBitOrExpr => Some 6%Z (* 3528 *)
  | Op0 BytesBitAndExpr => Some 6%Z (* 3540 *)
  | Op0 BsqrtExpr => Some 40%Z (* 3560 *)
  | Op0 BytesBitXorExpr => Some 6%Z (* 3639 *)
  | Op0 BytesBitNotExpr => Some 4%Z (* 3659 *)
  | _ => None
  end.

(* Instructions without an Execute method: Vm.Step only goes to the next line (vm.go:476-481). *)
Definition no_execute (e : expr) : bool :=
  match e with
  | IntcBlockExpr _
  | BytecBlockExpr _
  | LabelExpr _
  | PragmaExpr _
  | EmptyExpr
  | Op0 Extract64BitsExpr
  | ItxnaExpr _ _
  | AddrExpr _
  | CommentExpr _
  | Op0 ItxnBeginExpr
  | Op0 ItxnSubmitExpr
  | Op0 ItxnNextExpr
  | Op0 BzeroExpr
  | Op0 BminusExpr
  | Op0 BgteqExpr
  | Op0 BytesBitOrExpr
  | Op0 BandExpr
      => true
  | _ => false
  end.
