(* expr.go: the instructions of a TEAL listing and the three classifications
   (no-op, terminator, label user) the linter, the optimizer and the debugger use.

   Simplifications: a Go instruction is a pointer to a struct; the model takes the struct
   itself.  A *LabelExpr inside a branch instruction is its Name.  uint8, uint64 and the
   field enumerations (TxnField, GlobalField, EcGroup, ...) are N, int8 is Z, string and
   []byte are byte lists.  NestedExpr and FuncExpr (expr.go:1209-1241) are not instructions
   (they have no String method); see Compiler.v. *)
From Verif Require Import Base.

(* The instructions without immediate arguments that are not control flow; each constructor
   carries the name of its Go type and the line of its declaration in expr.go. *)
Inductive op0 : Set :=
| Sha3256Expr (* expr.go:38 *)
| Sha256Expr (* expr.go:59 *)
| Keccak256Expr (* expr.go:90 *)
| Sha512256Expr (* expr.go:117 *)
| ED25519VerifyExpr (* expr.go:144 *)
| PlusExpr (* expr.go:254 *)
| MinusExpr (* expr.go:274 *)
| DivExpr (* expr.go:294 *)
| MulExpr (* expr.go:313 *)
| LtExpr (* expr.go:332 *)
| GtExpr (* expr.go:352 *)
| LtEqExpr (* expr.go:372 *)
| GtEqExpr (* expr.go:392 *)
| AndExpr (* expr.go:412 *)
| OrExpr (* expr.go:432 *)
| EqExpr (* expr.go:452 *)
| NeqExpr (* expr.go:472 *)
| NotExpr (* expr.go:492 *)
| LenExpr (* expr.go:510 *)
| ItobExpr (* expr.go:528 *)
| BtoiExpr (* expr.go:546 *)
| ModExpr (* expr.go:564 *)
| BitOrExpr (* expr.go:583 *)
| BitAndExpr (* expr.go:602 *)
| BitXorExpr (* expr.go:621 *)
| BitNotExpr (* expr.go:640 *)
| MulwExpr (* expr.go:658 *)
| AddwExpr (* expr.go:678 *)
| DivModwExpr (* expr.go:698 *)
| Intc0Expr (* expr.go:765 *)
| Intc1Expr (* expr.go:782 *)
| Intc2Expr (* expr.go:798 *)
| Intc3Expr (* expr.go:814 *)
| Bytec0Expr (* expr.go:869 *)
| Bytec1Expr (* expr.go:886 *)
| Bytec2Expr (* expr.go:903 *)
| Bytec3Expr (* expr.go:919 *)
| Arg0Expr (* expr.go:952 *)
| Arg1Expr (* expr.go:968 *)
| Arg2Expr (* expr.go:984 *)
| Arg3Expr (* expr.go:1006 *)
| BoxGetExpr (* expr.go:1330 *)
| BoxPutExpr (* expr.go:1347 *)
| BoxCreateExpr (* expr.go:1363 *)
| BoxLenExpr (* expr.go:1374 *)
| BoxDelExpr (* expr.go:1391 *)
| BoxReplaceExpr (* expr.go:1413 *)
| BoxExtractExpr (* expr.go:1430 *)
| AppLocalGetExpr (* expr.go:1530 *)
| AppLocalPutExpr (* expr.go:1546 *)
| AppGlobalPutExpr (* expr.go:1562 *)
| AppGlobalGetExpr (* expr.go:1577 *)
| AppGlobalGetExExpr (* expr.go:1592 *)
| AppLocalGetExExpr (* expr.go:1609 *)
| AppLocalDelExpr (* expr.go:1627 *)
| AssertExpr (* expr.go:1811 *)
| DupExpr (* expr.go:1825 *)
| ExtractUint16Expr (* expr.go:1893 *)
| ExtractUint32Expr (* expr.go:1909 *)
| Extract64BitsExpr (* expr.go:1925 *)
| Replace3Expr (* expr.go:1957 *)
| Ed25519VerifyBareExpr (* expr.go:2037 *)
| BitLenExpr (* expr.go:2058 *)
| ExpwExpr (* expr.go:2074 *)
| ArgsExpr (* expr.go:2128 *)
| GloadssExpr (* expr.go:2143 *)
| SetByteExpr (* expr.go:2491 *)
| ConcatExpr (* expr.go:2599 *)
| ItxnBeginExpr (* expr.go:2615 *)
| ItxnSubmitExpr (* expr.go:2623 *)
| PopExpr (* expr.go:2665 *)
| SwapExpr (* expr.go:2679 *)
| SqrtExpr (* expr.go:2774 *)
| BalanceExpr (* expr.go:2794 *)
| ExpExpr (* expr.go:2847 *)
| LogExpr (* expr.go:2909 *)
| Extract3Expr (* expr.go:2967 *)
| ExtractUint64Expr (* expr.go:2984 *)
| ItxnNextExpr (* expr.go:3016 *)
| MinBalanceExpr (* expr.go:3024 *)
| BzeroExpr (* expr.go:3060 *)
| GetByteExpr (* expr.go:3068 *)
| Substring3Expr (* expr.go:3084 *)
| ShlExpr (* expr.go:3101 *)
| ShrExpr (* expr.go:3117 *)
| GetBitExpr (* expr.go:3133 *)
| SetBitExpr (* expr.go:3149 *)
| BminusExpr (* expr.go:3204 *)
| BmulExpr (* expr.go:3216 *)
| BdivExpr (* expr.go:3236 *)
| BplusExpr (* expr.go:3256 *)
| GaidsExpr (* expr.go:3291 *)
| LoadsExpr (* expr.go:3308 *)
| StoresExpr (* expr.go:3325 *)
| Dup2Expr (* expr.go:3344 *)
| DivwExpr (* expr.go:3379 *)
| SelectExpr (* expr.go:3396 *)
| BgteqExpr (* expr.go:3414 *)
| BGtExpr (* expr.go:3422 *)
| BytesLeExpr (* expr.go:3438 *)
| BytesGeExpr (* expr.go:3454 *)
| BytesEqExpr (* expr.go:3470 *)
| BytesNeqExpr (* expr.go:3486 *)
| BytesModuloExpr (* expr.go:3502 *)
| BytesBitOrExpr (* expr.go:3522 *)
| BytesBitAndExpr (* expr.go:3534 *)
| BsqrtExpr (* expr.go:3554 *)
| AppGlobalDelExpr (* expr.go:3595 *)
| BltExpr (* expr.go:3609 *)
| BandExpr (* expr.go:3625 *)
| BytesBitXorExpr (* expr.go:3633 *)
| BytesBitNotExpr (* expr.go:3653 *)
| BytesZeroExpr (* expr.go:3672 *)
| AppOptedInExpr (* expr.go:3687 *).

(* All instructions. *)
Inductive expr : Set :=
| Op0 (o : op0)
| ErrExpr (* expr.go:21-21 *)
| RetSubExpr (* expr.go:1642-1642 *)
| ReturnExpr (* expr.go:1681-1682 *)
| EmptyExpr (* expr.go:1519-1520 *)
| EcdsaVerifyExpr (Index_ : N) (* expr.go:174-176 *)
| EcdsaPkDecompressExpr (Index_ : N) (* expr.go:205-207 *)
| EcdsaPkRecoverExpr (Index_ : N) (* expr.go:228-230 *)
| IntcBlockExpr (Values_ : list N) (* expr.go:726-728 *)
| IntcExpr (Index_ : N) (* expr.go:748-750 *)
| BytecBlockExpr (Values_ : list str) (* expr.go:830-832 *)
| BytecExpr (Index_ : N) (* expr.go:852-854 *)
| ArgExpr (Index_ : N) (* expr.go:935-937 *)
| TxnExpr (Field_ : N) (* expr.go:1016-1018 *)
| GlobalExpr (Field_ : N) (* expr.go:1056-1058 *)
| LoadExpr (Index_ : N) (* expr.go:1078-1080 *)
| StoreExpr (Index_ : N) (* expr.go:1096-1098 *)
| TxnaExpr (Field_ : N) (Index_ : N) (* expr.go:1115-1118 *)
| GtxnExpr (Group_ : N) (Field_ : N) (* expr.go:1136-1139 *)
| GtxnsExpr (Field_ : N) (* expr.go:1159-1161 *)
| ProtoExpr (Args_ : N) (Results_ : N) (* expr.go:1180-1183 *)
| LabelExpr (Name_ : str) (* expr.go:1195-1197 *)
| PushBytesExpr (Value_ : str) (Format_ : N) (* expr.go:1243-1246 *)
| PushIntExpr (Value_ : N) (* expr.go:1258-1260 *)
| IntExpr (Value_ : N) (* expr.go:1272-1274 *)
| ByteExpr (Value_ : str) (Format_ : N) (* expr.go:1294-1297 *)
| PragmaExpr (Version_ : N) (* expr.go:1448-1450 *)
| BnzExpr (Label_ : str) (* expr.go:1458-1460 *)
| BzExpr (Label_ : str) (* expr.go:1479-1481 *)
| BExpr (Label_ : str) (* expr.go:1500-1502 *)
| SwitchExpr (Targets_ : list str) (* expr.go:1696-1698 *)
| MatchExpr (Targets_ : list str) (* expr.go:1739-1741 *)
| CallSubExpr (Label_ : str) (* expr.go:1786-1788 *)
| BuryExpr (Depth_ : N) (* expr.go:1845-1847 *)
| PopNExpr (Depth_ : N) (* expr.go:1860-1862 *)
| DupNExpr (Count_ : N) (* expr.go:1876-1878 *)
| Replace2Expr (Start_ : N) (* expr.go:1941-1943 *)
| Base64DecodeExpr (Index_ : N) (* expr.go:1974-1976 *)
| JsonRefExpr (Index_ : N) (* expr.go:2005-2007 *)
| ItxnaExpr (Field_ : N) (Index_ : N) (* expr.go:2096-2099 *)
| GtxnasExpr (Field_ : N) (Index_ : N) (* expr.go:2105-2108 *)
| ItxnasExpr (Field_ : N) (* expr.go:2159-2161 *)
| GitxnasExpr (Index_ : N) (Field_ : N) (* expr.go:2181-2184 *)
| PushIntsExpr (Ints_ : list N) (* expr.go:2204-2206 *)
| MethodExpr (Signature_ : str) (* expr.go:2227-2229 *)
| AddrExpr (Address_ : str) (* expr.go:2241-2243 *)
| PushBytessExpr (Bytess_ : list str) (* expr.go:2249-2251 *)
| EcAddExpr (Group_ : N) (* expr.go:2271-2273 *)
| EcScalarMul (Group_ : N) (* expr.go:2302-2304 *)
| EcPairingCheckExpr (Group_ : N) (* expr.go:2333-2335 *)
| EcMultiExpExpr (Group_ : N) (* expr.go:2364-2366 *)
| EcSubgroupCheckExpr (Group_ : N) (* expr.go:2395-2397 *)
| EcMapToExpr (Group_ : N) (* expr.go:2425-2427 *)
| FrameBuryExpr (Index_ : Z) (* expr.go:2455-2457 *)
| FrameDigExpr (Index_ : Z) (* expr.go:2473-2475 *)
| CoverExpr (Depth_ : N) (* expr.go:2508-2510 *)
| UncoverExpr (Depth_ : N) (* expr.go:2535-2537 *)
| CommentExpr (Text_ : str) (* expr.go:2566-2568 *)
| AssetParamsGetExpr (Field_ : N) (* expr.go:2576-2578 *)
| ItxnExpr (Field_ : N) (* expr.go:2631-2633 *)
| ItxnFieldExpr (Field_ : N) (* expr.go:2651-2653 *)
| GtxnaExpr (Group_ : N) (Field_ : N) (Index_ : N) (* expr.go:2698-2702 *)
| GtxnsaExpr (Field_ : N) (Index_ : N) (* expr.go:2720-2723 *)
| GloadExpr (Group_ : N) (Index_ : N) (* expr.go:2742-2745 *)
| GloadsExpr (Index_ : N) (* expr.go:2758-2760 *)
| TxnasExpr (Field_ : N) (* expr.go:2809-2811 *)
| ExtractExpr (Start_ : N) (Length_ : N) (* expr.go:2831-2834 *)
| AppParamsGetExpr (Field_ : N) (* expr.go:2863-2865 *)
| AcctParamsGetExpr (Field_ : N) (* expr.go:2886-2888 *)
| BlockExpr (Field_ : N) (* expr.go:2923-2925 *)
| VrfVerifyExpr (Field_ : N) (* expr.go:2945-2947 *)
| AssetHoldingGetExpr (Field_ : N) (* expr.go:2992-2994 *)
| GitxnExpr (Index_ : N) (Field_ : N) (* expr.go:3039-3042 *)
| GtxnsasExpr (Field_ : N) (* expr.go:3166-3168 *)
| DigExpr (Index_ : N) (* expr.go:3189-3191 *)
| GaidExpr (Group_ : N) (* expr.go:3276-3278 *)
| SubstringExpr (Start_ : N) (End_ : N) (* expr.go:3363-3366 *)
| GitxnaExpr (Group_ : N) (Field_ : N) (Index_ : N) (* expr.go:3573-3577 *).

(* type Listing []Op, compiler.go:16 *)
Definition listing := list expr.

(* interface Nop: the IsNop methods, expr.go:1199, 1452, 1526, 2570 *)
Definition is_nop (e : expr) : bool :=
  match e with
  | LabelExpr _ | PragmaExpr _ | EmptyExpr | CommentExpr _ => true
  | _ => false
  end.

(* interface Terminator: the IsTerminator methods, expr.go:32, 1679, 1694 *)
Definition is_terminator (e : expr) : bool :=
  match e with
  | ErrExpr | RetSubExpr | ReturnExpr => true
  | _ => false
  end.

(* interface usesLabels: the Labels methods, expr.go:1471-1473, 1492-1494, 1511-1513, 1714-1716, 1761-1763, 1797-1799.
   Every type with a Labels method also has IsBranch.  None = no such method. *)
Definition labels_of (e : expr) : option (list str) :=
  match e with
  | BnzExpr l | BzExpr l | BExpr l | CallSubExpr l => Some [l]
  | SwitchExpr ls | MatchExpr ls => Some ls
  | _ => None
  end.

(* the labels an instruction names; instructions without a Labels method name none *)
(* compiler.go:18-20 usesLabels *)
Definition uses (e : expr) : list str :=
  match labels_of e with Some ls => ls | None => [] end.

(* *LabelExpr type test, with the name *)
(* the case LabelExpr of the linter and the compiler (linter.go:242, compiler.go:63) *)
Definition label_def (e : expr) : option str :=
  match e with LabelExpr n => Some n | _ => None end.

(* the three instructions the unreachable-code rule and the optimizer treat as unconditional
   transfers: *BExpr, *ReturnExpr, *ErrExpr (linter.go:342-349, compiler.go:47-54) *)
Definition is_uncond (e : expr) : bool :=
  match e with BExpr _ | ReturnExpr | ErrExpr => true | _ => false end.
