(* langspec.json: the operands and results of every opcode that is not a jump and does not end
   the program, as types.  The first operand is the deepest one and the last result ends on top.
   The comment gives the opcode and the line of its entry.  For the four opcodes with a variable
   effect the entry's Doc is used instead of Args and Returns; the pseudo instructions int, byte,
   addr and method (not in langspec.json) push one constant.  The elliptic curve opcodes are not
   in langspec.json. *)
From Verif Require Import Base Expr VmOps.

Definition lang_spec (e : expr) : option (list vtype * list vtype) :=
  match e with
  | Op0 Sha3256Expr => Some ([TBytes], [TBytes]) (* sha3_256, 1789 *)
  | Op0 Sha256Expr => Some ([TBytes], [TBytes]) (* sha256, 16 *)
  | Op0 Keccak256Expr => Some ([TBytes], [TBytes]) (* keccak256, 27 *)
  | Op0 Sha512256Expr => Some ([TBytes], [TBytes]) (* sha512_256, 38 *)
  | Op0 ED25519VerifyExpr => Some ([TBytes; TBytes; TBytes], [TUint64]) (* ed25519verify, 49 *)
  | EcdsaVerifyExpr _ => Some ([TBytes; TBytes; TBytes; TBytes; TBytes], [TUint64]) (* ecdsa_verify, 61 *)
  | EcdsaPkDecompressExpr _ => Some ([TBytes], [TBytes; TBytes]) (* ecdsa_pk_decompress, 74 *)
  | EcdsaPkRecoverExpr _ => Some ([TBytes; TUint64; TBytes; TBytes], [TBytes; TBytes]) (* ecdsa_pk_recover, 87 *)
  | Op0 PlusExpr => Some ([TUint64; TUint64], [TUint64]) (* +, 100 *)
  | Op0 MinusExpr => Some ([TUint64; TUint64], [TUint64]) (* -, 112 *)
  | Op0 DivExpr => Some ([TUint64; TUint64], [TUint64]) (* /, 123 *)
  | Op0 MulExpr => Some ([TUint64; TUint64], [TUint64]) (* times, 135 *)
  | Op0 LtExpr => Some ([TUint64; TUint64], [TUint64]) (* <, 147 *)
  | Op0 GtExpr => Some ([TUint64; TUint64], [TUint64]) (* >, 158 *)
  | Op0 LtEqExpr => Some ([TUint64; TUint64], [TUint64]) (* <=, 169 *)
  | Op0 GtEqExpr => Some ([TUint64; TUint64], [TUint64]) (* >=, 180 *)
  | Op0 AndExpr => Some ([TUint64; TUint64], [TUint64]) (* &&, 191 *)
  | Op0 OrExpr => Some ([TUint64; TUint64], [TUint64]) (* ||, 202 *)
  | Op0 EqExpr => Some ([TAny; TAny], [TUint64]) (* ==, 213 *)
  | Op0 NeqExpr => Some ([TAny; TAny], [TUint64]) (* !=, 224 *)
  | Op0 NotExpr => Some ([TUint64], [TUint64]) (* !, 235 *)
  | Op0 LenExpr => Some ([TBytes], [TUint64]) (* len, 246 *)
  | Op0 ItobExpr => Some ([TUint64], [TBytes]) (* itob, 257 *)
  | Op0 BtoiExpr => Some ([TBytes], [TUint64]) (* btoi, 268 *)
  | Op0 ModExpr => Some ([TUint64; TUint64], [TUint64]) (* %, 280 *)
  | Op0 BitOrExpr => Some ([TUint64; TUint64], [TUint64]) (* |, 291 *)
  | Op0 BitAndExpr => Some ([TUint64; TUint64], [TUint64]) (* &, 302 *)
  | Op0 BitXorExpr => Some ([TUint64; TUint64], [TUint64]) (* ^, 313 *)
  | Op0 BitNotExpr => Some ([TUint64], [TUint64]) (* ~, 324 *)
  | Op0 MulwExpr => Some ([TUint64; TUint64], [TUint64; TUint64]) (* mulw, 335 *)
  | Op0 AddwExpr => Some ([TUint64; TUint64], [TUint64; TUint64]) (* addw, 346 *)
  | Op0 DivModwExpr => Some ([TUint64; TUint64; TUint64; TUint64], [TUint64; TUint64; TUint64; TUint64]) (* divmodw, 357 *)
  | IntcBlockExpr _ => Some ([], []) (* intcblock, 369 *)
  | IntcExpr _ => Some ([], [TUint64]) (* intc, 380 *)
  | Op0 Intc0Expr => Some ([], [TUint64]) (* intc_0, 391 *)
  | Op0 Intc1Expr => Some ([], [TUint64]) (* intc_1, 401 *)
  | Op0 Intc2Expr => Some ([], [TUint64]) (* intc_2, 411 *)
  | Op0 Intc3Expr => Some ([], [TUint64]) (* intc_3, 421 *)
  | BytecBlockExpr _ => Some ([], []) (* bytecblock, 431 *)
  | BytecExpr _ => Some ([], [TBytes]) (* bytec, 442 *)
  | Op0 Bytec0Expr => Some ([], [TBytes]) (* bytec_0, 453 *)
  | Op0 Bytec1Expr => Some ([], [TBytes]) (* bytec_1, 463 *)
  | Op0 Bytec2Expr => Some ([], [TBytes]) (* bytec_2, 473 *)
  | Op0 Bytec3Expr => Some ([], [TBytes]) (* bytec_3, 483 *)
  | ArgExpr _ => Some ([], [TBytes]) (* arg, 493 *)
  | Op0 Arg0Expr => Some ([], [TBytes]) (* arg_0, 504 *)
  | Op0 Arg1Expr => Some ([], [TBytes]) (* arg_1, 514 *)
  | Op0 Arg2Expr => Some ([], [TBytes]) (* arg_2, 524 *)
  | Op0 Arg3Expr => Some ([], [TBytes]) (* arg_3, 534 *)
  | TxnExpr _ => Some ([], [TAny]) (* txn, 544 *)
  | GlobalExpr _ => Some ([], [TAny]) (* global, 626 *)
  | LoadExpr _ => Some ([], [TAny]) (* load, 738 *)
  | StoreExpr _ => Some ([TAny], []) (* store, 749 *)
  | TxnaExpr _ _ => Some ([], [TAny]) (* txna, 760 *)
  | GtxnExpr _ _ => Some ([], [TAny]) (* gtxn, 655 *)
  | GtxnsExpr _ => Some ([TUint64], [TAny]) (* gtxns, 802 *)
  | ProtoExpr _ _ => Some ([], []) (* proto, 1644 *)
  | PushBytesExpr _ _ => Some ([], [TBytes]) (* pushbytes, 1566 *)
  | PushIntExpr _ => Some ([], [TUint64]) (* pushint, 1578 *)
  | Op0 BoxGetExpr => Some ([TBytes], [TBytes; TUint64]) (* box_get, 2344 *)
  | Op0 BoxPutExpr => Some ([TBytes; TBytes], []) (* box_put, 2356 *)
  | Op0 BoxCreateExpr => Some ([TBytes; TUint64], [TUint64]) (* box_create, 2289 *)
  | Op0 BoxLenExpr => Some ([TBytes], [TUint64; TUint64]) (* box_len, 2333 *)
  | Op0 BoxDelExpr => Some ([TBytes], [TUint64]) (* box_del, 2322 *)
  | Op0 BoxReplaceExpr => Some ([TBytes; TUint64; TBytes], []) (* box_replace, 2312 *)
  | Op0 BoxExtractExpr => Some ([TBytes; TUint64; TUint64], [TBytes]) (* box_extract, 2301 *)
  | Op0 AppLocalGetExpr => Some ([TAny; TBytes], [TAny]) (* app_local_get, 1365 *)
  | Op0 AppLocalPutExpr => Some ([TAny; TBytes; TAny], []) (* app_local_put, 1413 *)
  | Op0 AppGlobalPutExpr => Some ([TBytes; TAny], []) (* app_global_put, 1424 *)
  | Op0 AppGlobalGetExpr => Some ([TBytes], [TAny]) (* app_global_get, 1389 *)
  | Op0 AppGlobalGetExExpr => Some ([TUint64; TBytes], [TAny; TUint64]) (* app_global_get_ex, 1401 *)
  | Op0 AppLocalGetExExpr => Some ([TAny; TUint64; TBytes], [TAny; TUint64]) (* app_local_get_ex, 1377 *)
  | Op0 AppLocalDelExpr => Some ([TAny; TBytes], []) (* app_local_del, 1434 *)
  | Op0 AssertExpr => Some ([TUint64], []) (* assert, 1023 *)
  | Op0 DupExpr => Some ([TAny], [TAny; TAny]) (* dup, 1075 *)
  | BuryExpr _ => Some ([TAny], []) (* bury, 1033 *)
  | PopNExpr n => Some (repeat TAny (N.to_nat n), []) (* popn, 1044 *)
  | DupNExpr n => Some ([TAny], repeat TAny (S (N.to_nat n))) (* dupn, 1054 *)
  | Op0 ExtractUint16Expr => Some ([TBytes; TUint64], [TUint64]) (* extract_uint16, 1259 *)
  | Op0 ExtractUint32Expr => Some ([TBytes; TUint64], [TUint64]) (* extract_uint32, 1270 *)
  | Op0 Extract64BitsExpr => Some ([TBytes; TUint64], [TUint64]) (* extract_uint64, 1281 *)
  | Replace2Expr _ => Some ([TBytes; TBytes], [TBytes]) (* replace2, 1292 *)
  | Op0 Replace3Expr => Some ([TBytes; TUint64; TBytes], [TBytes]) (* replace3, 1304 *)
  | Base64DecodeExpr _ => Some ([TBytes], [TBytes]) (* base64_decode, 1315 *)
  | JsonRefExpr _ => Some ([TBytes; TBytes], [TAny]) (* json_ref, 1328 *)
  | Op0 Ed25519VerifyBareExpr => Some ([TBytes; TBytes; TBytes], [TUint64]) (* ed25519verify_bare, 1612 *)
  | Op0 BitLenExpr => Some ([TAny], [TUint64]) (* bitlen, 1732 *)
  | Op0 ExpwExpr => Some ([TUint64; TUint64], [TUint64; TUint64]) (* expw, 1755 *)
  | ItxnaExpr _ _ => Some ([], [TAny]) (* itxna, 2155 *)
  | GtxnasExpr _ _ => Some ([TUint64], [TAny]) (* gtxnas, 2389 *)
  | Op0 ArgsExpr => Some ([TUint64], [TBytes]) (* args, 2433 *)
  | Op0 GloadssExpr => Some ([TUint64; TUint64], [TAny]) (* gloadss, 2444 *)
  | ItxnasExpr _ => Some ([TUint64], [TAny]) (* itxnas, 2455 *)
  | GitxnasExpr _ _ => Some ([TUint64], [TAny]) (* gitxnas, 2467 *)
  | PushIntsExpr ns => Some ([], map (fun _ => TUint64) ns) (* pushints, 1601 *)
  | PushBytessExpr bs => Some ([], map (fun _ => TBytes) bs) (* pushbytess, 1590 *)
  | FrameBuryExpr _ => Some ([TAny], []) (* frame_bury, 1666 *)
  | FrameDigExpr _ => Some ([], [TAny]) (* frame_dig, 1655 *)
  | Op0 SetByteExpr => Some ([TBytes; TUint64; TUint64], [TBytes]) (* setbyte, 1225 *)
  | CoverExpr _ => Some ([TAny], [TAny]) (* cover, 1131 *)
  | UncoverExpr _ => Some ([TAny], [TAny]) (* uncover, 1143 *)
  | AssetParamsGetExpr _ => Some ([TUint64], [TAny; TUint64]) (* asset_params_get, 1474 *)
  | Op0 ConcatExpr => Some ([TBytes; TBytes], [TBytes]) (* concat, 1155 *)
  | Op0 ItxnBeginExpr => Some ([], []) (* itxn_begin, 1987 *)
  | Op0 ItxnSubmitExpr => Some ([], []) (* itxn_submit, 2063 *)
  | ItxnExpr _ => Some ([], [TAny]) (* itxn, 2073 *)
  | ItxnFieldExpr _ => Some ([TAny], []) (* itxn_field, 1997 *)
  | Op0 PopExpr => Some ([TAny], []) (* pop, 1065 *)
  | Op0 SwapExpr => Some ([TAny; TAny], [TAny; TAny]) (* swap, 1109 *)
  | GtxnaExpr _ _ _ => Some ([], [TAny]) (* gtxna, 781 *)
  | GtxnsaExpr _ _ => Some ([TUint64], [TAny]) (* gtxnsa, 886 *)
  | GloadExpr _ _ => Some ([], [TAny]) (* gload, 908 *)
  | GloadsExpr _ => Some ([TUint64], [TAny]) (* gloads, 920 *)
  | Op0 SqrtExpr => Some ([TUint64], [TUint64]) (* sqrt, 1721 *)
  | Op0 BalanceExpr => Some ([TAny], [TUint64]) (* balance, 1341 *)
  | TxnasExpr _ => Some ([TUint64], [TAny]) (* txnas, 2367 *)
  | ExtractExpr _ _ => Some ([TBytes], [TBytes]) (* extract, 1236 *)
  | Op0 ExpExpr => Some ([TUint64; TUint64], [TUint64]) (* exp, 1744 *)
  | AppParamsGetExpr _ => Some ([TUint64], [TAny; TUint64]) (* app_params_get, 1502 *)
  | AcctParamsGetExpr _ => Some ([TAny], [TAny; TUint64]) (* acct_params_get, 1527 *)
  | Op0 LogExpr => Some ([TBytes], []) (* log, 1976 *)
  | BlockExpr _ => Some ([TUint64], [TAny]) (* block, 2492 *)
  | VrfVerifyExpr _ => Some ([TBytes; TBytes; TBytes], [TBytes; TUint64]) (* vrf_verify, 2479 *)
  | Op0 Extract3Expr => Some ([TBytes; TUint64; TUint64], [TBytes]) (* extract3, 1248 *)
  | AssetHoldingGetExpr _ => Some ([TAny; TUint64], [TAny; TUint64]) (* asset_holding_get, 1456 *)
  | Op0 ItxnNextExpr => Some ([], []) (* itxn_next, 2176 *)
  | Op0 MinBalanceExpr => Some ([TAny], [TUint64]) (* min_balance, 1554 *)
  | GitxnExpr _ _ => Some ([], [TAny]) (* gitxn, 2186 *)
  | Op0 GetByteExpr => Some ([TBytes; TUint64], [TUint64]) (* getbyte, 1214 *)
  | Op0 Substring3Expr => Some ([TBytes; TUint64; TUint64], [TBytes]) (* substring3, 1179 *)
  | Op0 ShlExpr => Some ([TUint64; TUint64], [TUint64]) (* shl, 1699 *)
  | Op0 ShrExpr => Some ([TUint64; TUint64], [TUint64]) (* shr, 1710 *)
  | Op0 GetBitExpr => Some ([TAny; TUint64], [TUint64]) (* getbit, 1190 *)
  | Op0 SetBitExpr => Some ([TAny; TUint64; TUint64], [TAny]) (* setbit, 1202 *)
  | GtxnsasExpr _ => Some ([TUint64; TUint64], [TAny]) (* gtxnsas, 2411 *)
  | DigExpr _ => Some ([TAny], [TAny; TAny]) (* dig, 1097 *)
  | Op0 BminusExpr => Some ([TBytes; TBytes], [TBytes]) (* b-, 1811 *)
  | Op0 BmulExpr => Some ([TBytes; TBytes], [TBytes]) (* b times, 1833 *)
  | Op0 BdivExpr => Some ([TBytes; TBytes], [TBytes]) (* b/, 1822 *)
  | Op0 BplusExpr => Some ([TBytes; TBytes], [TBytes]) (* b+, 1800 *)
  | GaidExpr _ => Some ([], [TUint64]) (* gaid, 933 *)
  | Op0 GaidsExpr => Some ([TUint64], [TUint64]) (* gaids, 945 *)
  | Op0 LoadsExpr => Some ([TUint64], [TAny]) (* loads, 957 *)
  | Op0 StoresExpr => Some ([TUint64; TAny], []) (* stores, 968 *)
  | Op0 Dup2Expr => Some ([TAny; TAny], [TAny; TAny; TAny; TAny]) (* dup2, 1086 *)
  | SubstringExpr _ _ => Some ([TBytes], [TBytes]) (* substring, 1167 *)
  | Op0 DivwExpr => Some ([TUint64; TUint64; TUint64], [TUint64]) (* divw, 1777 *)
  | Op0 SelectExpr => Some ([TAny; TAny; TUint64], [TAny]) (* select, 1120 *)
  | Op0 BGtExpr => Some ([TBytes; TBytes], [TUint64]) (* b>, 1855 *)
  | Op0 BytesLeExpr => Some ([TBytes; TBytes], [TUint64]) (* b<=, 1866 *)
  | Op0 BytesGeExpr => Some ([TBytes; TBytes], [TUint64]) (* b>=, 1877 *)
  | Op0 BytesEqExpr => Some ([TBytes; TBytes], [TUint64]) (* b==, 1888 *)
  | Op0 BytesNeqExpr => Some ([TBytes; TBytes], [TUint64]) (* b!=, 1899 *)
  | Op0 BytesModuloExpr => Some ([TBytes; TBytes], [TBytes]) (* b%, 1910 *)
  | Op0 BytesBitOrExpr => Some ([TBytes; TBytes], [TBytes]) (* b|, 1921 *)
  | Op0 BytesBitAndExpr => Some ([TBytes; TBytes], [TBytes]) (* b&, 1932 *)
  | Op0 BsqrtExpr => Some ([TBytes], [TBytes]) (* bsqrt, 1766 *)
  | GitxnaExpr _ _ _ => Some ([], [TAny]) (* gitxna, 2268 *)
  | Op0 AppGlobalDelExpr => Some ([TBytes], []) (* app_global_del, 1445 *)
  | Op0 BltExpr => Some ([TBytes; TBytes], [TUint64]) (* b<, 1844 *)
  | Op0 BytesBitXorExpr => Some ([TBytes; TBytes], [TBytes]) (* b^, 1943 *)
  | Op0 BytesBitNotExpr => Some ([TBytes], [TBytes]) (* b~, 1954 *)
  | Op0 BytesZeroExpr => Some ([TUint64], [TBytes]) (* bzero, 1965 *)
  | Op0 AppOptedInExpr => Some ([TAny; TUint64], [TUint64]) (* app_opted_in, 1353 *)
  | IntExpr _ => Some ([], [TUint64])
  | ByteExpr _ _ | AddrExpr _ | MethodExpr _ => Some ([], [TBytes])
  | _ => None
  end.
