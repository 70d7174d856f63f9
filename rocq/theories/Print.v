(* expr.go: the String methods of the instructions, i.e. the text Listing.String (compiler.go:242-251)
   prints.  fmt.Sprintf with %d and %s is written out.  The panic of Bytes.String for a format that
   is neither of the two known ones (expr.go:1310-1311) happens below a Sprintf (expr.go:1249, 1317),
   which recovers it and prints it; so no String method ever panics, although the type res str
   would allow for it. *)
From Verif Require Import Base LexSpec Expr Fields Codec.

(* the String method of a field type (go_algorand.go:1928-2276): the name of the field, the name of
   the end marker, or Type(n) *)
Definition field_text (specs : list field_spec) (ty invalid : string) (f : N) : str :=
  match nth_error specs (N.to_nat f) with
  | Some s => f_name s
  | None =>
      if Nat.eqb (N.to_nat f) (length specs) then bs invalid
      else bs ty ++ "("%char :: dec f ++ [")"%char]
  end.

(* go_algorand.go:1928-2276 *)
Definition txt_TxnField (f : N) : str := field_text txnFieldSpecs "TxnField" "invalidTxnField" f.
Definition txt_GlobalField (f : N) : str := field_text globalFieldSpecs "GlobalField" "invalidGlobalField" f.
Definition txt_AssetParamsField (f : N) : str := field_text assetParamsFieldSpecs "AssetParamsField" "invalidAssetParamsField" f.
Definition txt_AppParamsField (f : N) : str := field_text appParamsFieldSpecs "AppParamsField" "invalidAppParamsField" f.
Definition txt_AcctParamsField (f : N) : str := field_text acctParamsFieldSpecs "AcctParamsField" "invalidAcctParamsField" f.
Definition txt_AssetHoldingField (f : N) : str := field_text assetHoldingFieldSpecs "AssetHoldingField" "invalidAssetHoldingField" f.
Definition txt_BlockField (f : N) : str := field_text blockFieldSpecs "BlockField" "invalidBlockField" f.
Definition txt_VrfStandard (f : N) : str := field_text vrfStandardSpecs "VrfStandard" "invalidVrfStandard" f.

(* strings.Join(l, " ") *)
Fixpoint join (l : list str) : str :=
  match l with
  | [] => []
  | [x] => x
  | x :: r => x ++ " "%char :: join r
  end.

(* strings.ReplaceAll(s, quote, backslash quote) *)
Definition escape_quotes (s : str) : str :=
  flat_map (fun c => if Ascii.eqb c c_quote then [c_bslash; c_quote] else [c]) s.

(* expr.go:1304-1314, as printed by the verb %s *)
Definition bytes_text (v : str) (format : N) : res str :=
  if (format =? 1)%N then Ret (c_quote :: v ++ [c_quote])
  else if (format =? 0)%N then Ret (bs "b64 " ++ b64_encode v)
  else Ret (bs "%!s(PANIC=String method: unsupported bytes format: " ++ dec format ++ bs ")").

(* expr.go, at the lines given *)
Definition print_op0 (o : op0) : str :=
  match o with
  | Sha3256Expr => "sha3_256" (* 40 *)
  | Sha256Expr => "sha256" (* 61 *)
  | Keccak256Expr => "keccak256" (* 92 *)
  | Sha512256Expr => "sha512_256" (* 119 *)
  | ED25519VerifyExpr => "ed25519verify" (* 146 *)
  | PlusExpr => "+" (* 257 *)
  | MinusExpr => "-" (* 286 *)
  | DivExpr => "/" (* 296 *)
  | MulExpr => "*" (* 315 *)
  | LtExpr => "<" (* 335 *)
  | GtExpr => ">" (* 364 *)
  | LtEqExpr => "<=" (* 384 *)
  | GtEqExpr => ">=" (* 395 *)
  | AndExpr => "&&" (* 424 *)
  | OrExpr => "||" (* 435 *)
  | EqExpr => "==" (* 464 *)
  | NeqExpr => "!=" (* 484 *)
  | NotExpr => "!" (* 494 *)
  | LenExpr => "len" (* 512 *)
  | ItobExpr => "itob" (* 530 *)
  | BtoiExpr => "btoi" (* 548 *)
  | ModExpr => "%" (* 566 *)
  | BitOrExpr => "|" (* 594 *)
  | BitAndExpr => "&" (* 604 *)
  | BitXorExpr => "^" (* 632 *)
  | BitNotExpr => "~" (* 642 *)
  | MulwExpr => "mulw" (* 670 *)
  | AddwExpr => "addw" (* 680 *)
  | DivModwExpr => "divmodw" (* 700 *)
  | Intc0Expr => "intc_0" (* 767 *)
  | Intc1Expr => "intc_1" (* 784 *)
  | Intc2Expr => "intc_2" (* 800 *)
  | Intc3Expr => "intc_3" (* 816 *)
  | Bytec0Expr => "bytec_0" (* 871 *)
  | Bytec1Expr => "bytec_1" (* 888 *)
  | Bytec2Expr => "bytec_2" (* 905 *)
  | Bytec3Expr => "bytec_3" (* 921 *)
  | Arg0Expr => "arg_0" (* 954 *)
  | Arg1Expr => "arg_1" (* 970 *)
  | Arg2Expr => "arg_2" (* 986 *)
  | Arg3Expr => "arg_3" (* 1008 *)
  | BoxGetExpr => "box_get" (* 1333 *)
  | BoxPutExpr => "box_put" (* 1350 *)
  | BoxCreateExpr => "box_create" (* 1407 *)
  | BoxLenExpr => "box_len" (* 1377 *)
  | BoxDelExpr => "box_del" (* 1394 *)
  | BoxReplaceExpr => "box_replace" (* 1418 *)
  | BoxExtractExpr => "box_extract" (* 1435 *)
  | AppLocalGetExpr => "app_local_get" (* 1532 *)
  | AppLocalPutExpr => "app_local_put" (* 1548 *)
  | AppGlobalPutExpr => "app_global_put" (* 1564 *)
  | AppGlobalGetExpr => "app_global_get" (* 1579 *)
  | AppGlobalGetExExpr => "app_global_get_ex" (* 1594 *)
  | AppLocalGetExExpr => "app_local_get_ex" (* 1611 *)
  | AppLocalDelExpr => "app_local_del" (* 1629 *)
  | AssertExpr => "assert" (* 1813 *)
  | DupExpr => "dup" (* 1827 *)
  | ExtractUint16Expr => "extract_uint16" (* 1895 *)
  | ExtractUint32Expr => "extract_uint32" (* 1911 *)
  | Extract64BitsExpr => "extract_uint64" (* 1927 *)
  | Replace3Expr => "replace3" (* 1959 *)
  | Ed25519VerifyBareExpr => "ed25519verify_bare" (* 2039 *)
  | BitLenExpr => "bitlen" (* 2060 *)
  | ExpwExpr => "expw" (* 2076 *)
  | ArgsExpr => "args" (* 2130 *)
  | GloadssExpr => "gloadss" (* 2145 *)
  | SetByteExpr => "setbyte" (* 2493 *)
  | ConcatExpr => "concat" (* 2601 *)
  | ItxnBeginExpr => "itxn_begin" (* 2617 *)
  | ItxnSubmitExpr => "itxn_submit" (* 2625 *)
  | PopExpr => "pop" (* 2667 *)
  | SwapExpr => "swap" (* 2681 *)
  | SqrtExpr => "sqrt" (* 2776 *)
  | BalanceExpr => "balance" (* 2796 *)
  | ExpExpr => "exp" (* 2849 *)
  | LogExpr => "log" (* 2911 *)
  | Extract3Expr => "extract3" (* 2969 *)
  | ExtractUint64Expr => "extract_unt64" (* 2986 *)
  | ItxnNextExpr => "itxn_next" (* 3018 *)
  | MinBalanceExpr => "min_balance" (* 3026 *)
  | BzeroExpr => "bzero" (* 3062 *)
  | GetByteExpr => "getbyte" (* 3070 *)
  | Substring3Expr => "substring3" (* 3086 *)
  | ShlExpr => "shl" (* 3103 *)
  | ShrExpr => "shr" (* 3119 *)
  | GetBitExpr => "getbit" (* 3135 *)
  | SetBitExpr => "setbit" (* 3151 *)
  | BminusExpr => "b-" (* 3206 *)
  | BmulExpr => "b*" (* 3218 *)
  | BdivExpr => "b/" (* 3238 *)
  | BplusExpr => "b+" (* 3258 *)
  | GaidsExpr => "gaids" (* 3294 *)
  | LoadsExpr => "loads" (* 3311 *)
  | StoresExpr => "stores" (* 3338 *)
  | Dup2Expr => "dup2" (* 3346 *)
  | DivwExpr => "divw" (* 3381 *)
  | SelectExpr => "select" (* 3398 *)
  | BgteqExpr => "b>=" (* 3416 *)
  | BGtExpr => "b>" (* 3424 *)
  | BytesLeExpr => "b<=" (* 3440 *)
  | BytesGeExpr => "b>=" (* 3456 *)
  | BytesEqExpr => "b==" (* 3472 *)
  | BytesNeqExpr => "b!=" (* 3488 *)
  | BytesModuloExpr => "b%" (* 3504 *)
  | BytesBitOrExpr => "b|" (* 3524 *)
  | BytesBitAndExpr => "b&" (* 3536 *)
  | BsqrtExpr => "bsqrt" (* 3556 *)
  | AppGlobalDelExpr => "app_global_del" (* 3597 *)
  | BltExpr => "b<" (* 3611 *)
  | BandExpr => "b&" (* 3627 *)
  | BytesBitXorExpr => "b^" (* 3635 *)
  | BytesBitNotExpr => "b~" (* 3655 *)
  | BytesZeroExpr => "bzero" (* 3674 *)
  | AppOptedInExpr => "app_opted_in" (* 3689 *)
  end.

Definition print (e : expr) : res str :=
  match e with
  | Op0 o => Ret (print_op0 o)
  | ErrExpr => Ret (bs "err") (* 28-30 *)
  | RetSubExpr => Ret (bs "retsub") (* 1675-1677 *)
  | ReturnExpr => Ret (bs "return") (* 1690-1692 *)
  | EmptyExpr => Ret (bs "") (* 1522-1524 *)
  | EcdsaVerifyExpr Index_ => Ret (bs "ecdsa_verify " ++ dec Index_) (* 182-184 *)
  | EcdsaPkDecompressExpr Index_ => Ret (bs "ecdsa_pk_decompress " ++ dec Index_) (* 222-224 *)
  | EcdsaPkRecoverExpr Index_ => Ret (bs "ecdsa_pk_recover " ++ dec Index_) (* 248-250 *)
  | IntcBlockExpr Values_ => Ret (match Values_ with [] => bs "intcblock" | _ => bs "intcblock " ++ join (map dec Values_) end) (* 730-744 *)
  | IntcExpr Index_ => Ret (bs "intc " ++ dec Index_) (* 752-754 *)
  | BytecBlockExpr Values_ => Ret (match Values_ with [] => bs "bytecblock" | _ => bs "bytecblock " ++ join (map (fun v => bs "0x" ++ hex_encode v) Values_) end) (* 834-848 *)
  | BytecExpr Index_ => Ret (bs "bytec " ++ dec Index_) (* 863-865 *)
  | ArgExpr Index_ => Ret (bs "arg " ++ dec Index_) (* 939-941 *)
  | TxnExpr Field_ => Ret (bs "txn " ++ txt_TxnField Field_) (* 1020-1022 *)
  | GlobalExpr Field_ => Ret (bs "global " ++ txt_GlobalField Field_) (* 1060-1062 *)
  | LoadExpr Index_ => Ret (bs "load " ++ dec Index_) (* 1082-1084 *)
  | StoreExpr Index_ => Ret (bs "store " ++ dec Index_) (* 1109-1111 *)
  | TxnaExpr Field_ Index_ => Ret (bs "txna " ++ txt_TxnField Field_ ++ bs " " ++ dec Index_) (* 1120-1122 *)
  | GtxnExpr Group_ Field_ => Ret (bs "gtxn " ++ dec Group_ ++ bs " " ++ txt_TxnField Field_) (* 1141-1143 *)
  | GtxnsExpr Field_ => Ret (bs "gtxns " ++ txt_TxnField Field_) (* 1163-1165 *)
  | ProtoExpr Args_ Results_ => Ret (bs "proto " ++ dec Args_ ++ bs " " ++ dec Results_) (* 1191-1193 *)
  | LabelExpr Name_ => Ret (Name_ ++ [":"%char]) (* 1201-1203 *)
  | PushBytesExpr Value_ Format_ => mapr (app (bs "pushbytes ")) (bytes_text Value_ Format_) (* 1248-1250 *)
  | PushIntExpr Value_ => Ret (bs "pushint " ++ dec Value_) (* 1262-1264 *)
  | IntExpr Value_ => Ret (bs "int " ++ dec Value_) (* 1283-1285 *)
  | ByteExpr Value_ Format_ => mapr (app (bs "byte ")) (bytes_text Value_ Format_) (* 1316-1318 *)
  | PragmaExpr Version_ => Ret (bs "#pragma version " ++ dec Version_) (* 1454-1456 *)
  | BnzExpr Label_ => Ret (bs "bnz " ++ Label_) (* 1475-1477 *)
  | BzExpr Label_ => Ret (bs "bz " ++ Label_) (* 1496-1498 *)
  | BExpr Label_ => Ret (bs "b " ++ Label_) (* 1515-1517 *)
  | SwitchExpr Targets_ => Ret (bs "switch" ++ match Targets_ with [] => [] | _ => " "%char :: join Targets_ end) (* 1718-1737 *)
  | MatchExpr Targets_ => Ret (bs "match" ++ match Targets_ with [] => [] | _ => " "%char :: join Targets_ end) (* 1765-1784 *)
  | CallSubExpr Label_ => Ret (bs "callsub " ++ Label_) (* 1801-1803 *)
  | BuryExpr Depth_ => Ret (bs "bury " ++ dec Depth_) (* 1856-1858 *)
  | PopNExpr Depth_ => Ret (bs "popn " ++ dec Depth_) (* 1864-1866 *)
  | DupNExpr Count_ => Ret (bs "dupn " ++ dec Count_) (* 1880-1882 *)
  | Replace2Expr Start_ => Ret (bs "repace2 " ++ dec Start_) (* 1945-1947 *)
  | Base64DecodeExpr Index_ => Ret (bs "base64_decode " ++ dec Index_) (* 1994-1996 *)
  | JsonRefExpr Index_ => Ret (bs "json_ref " ++ dec Index_) (* 2025-2027 *)
  | ItxnaExpr Field_ Index_ => Ret (bs "itxna " ++ dec Field_ ++ bs " " ++ dec Index_) (* 2101-2103 *)
  | GtxnasExpr Field_ Index_ => Ret (bs "gtxnas " ++ dec Field_ ++ bs " " ++ dec Index_) (* 2124-2126 *)
  | ItxnasExpr Field_ => Ret (bs "itxnas " ++ txt_TxnField Field_) (* 2177-2179 *)
  | GitxnasExpr Index_ Field_ => Ret (bs "gitxnas " ++ dec Index_ ++ bs " " ++ txt_TxnField Field_) (* 2200-2202 *)
  | PushIntsExpr Ints_ => Ret (bs "pushbytess " ++ join (map dec Ints_)) (* 2216-2225 *)
  | MethodExpr Signature_ => Ret (bs "method """ ++ escape_quotes Signature_ ++ [c_quote]) (* 2231-2233 *)
  | AddrExpr Address_ => Ret (bs "addr " ++ Address_) (* 2245-2247 *)
  | PushBytessExpr Bytess_ => Ret (bs "pushbytess " ++ join (map (fun v => bs "b64 " ++ b64_encode v) Bytess_)) (* 2261-2269 *)
  | EcAddExpr Group_ => Ret (bs "ec_add " ++ dec Group_) (* 2275-2277 *)
  | EcScalarMul Group_ => Ret (bs "ec_scalar_mul " ++ dec Group_) (* 2306-2308 *)
  | EcPairingCheckExpr Group_ => Ret (bs "ec_pairing_check " ++ dec Group_) (* 2337-2339 *)
  | EcMultiExpExpr Group_ => Ret (bs "ec_multi_exp " ++ dec Group_) (* 2368-2370 *)
  | EcSubgroupCheckExpr Group_ => Ret (bs "ec_subgroup_check " ++ dec Group_) (* 2399-2401 *)
  | EcMapToExpr Group_ => Ret (bs "ec_map_to " ++ dec Group_) (* 2429-2431 *)
  | FrameBuryExpr Index_ => Ret (bs "frame_bury " ++ dec_z Index_) (* 2469-2471 *)
  | FrameDigExpr Index_ => Ret (bs "frame_dig " ++ dec_z Index_) (* 2487-2489 *)
  | CoverExpr Depth_ => Ret (bs "cover " ++ dec Depth_) (* 2512-2514 *)
  | UncoverExpr Depth_ => Ret (bs "uncover " ++ dec Depth_) (* 2558-2560 *)
  | CommentExpr Text_ => Ret (bs "//" ++ Text_) (* 2572-2574 *)
  | AssetParamsGetExpr Field_ => Ret (bs "asset_params_get " ++ txt_AssetParamsField Field_) (* 2580-2582 *)
  | ItxnExpr Field_ => Ret (bs "itxn " ++ txt_TxnField Field_) (* 2647-2649 *)
  | ItxnFieldExpr Field_ => Ret (bs "itxn_field " ++ txt_TxnField Field_) (* 2655-2657 *)
  | GtxnaExpr Group_ Field_ Index_ => Ret (bs "gtxna " ++ dec Group_ ++ bs " " ++ txt_TxnField Field_ ++ bs " " ++ dec Index_) (* 2704-2706 *)
  | GtxnsaExpr Field_ Index_ => Ret (bs "gtxnsa " ++ txt_TxnField Field_ ++ bs " " ++ dec Index_) (* 2725-2727 *)
  | GloadExpr Group_ Index_ => Ret (bs "gload " ++ dec Group_ ++ bs " " ++ dec Index_) (* 2747-2749 *)
  | GloadsExpr Index_ => Ret (bs "gloads " ++ dec Index_) (* 2762-2764 *)
  | TxnasExpr Field_ => Ret (bs "txnas " ++ txt_TxnField Field_) (* 2827-2829 *)
  | ExtractExpr Start_ Length_ => Ret (bs "extract " ++ dec Start_ ++ bs " " ++ dec Length_) (* 2836-2838 *)
  | AppParamsGetExpr Field_ => Ret (bs "app_params_get " ++ txt_AppParamsField Field_) (* 2867-2869 *)
  | AcctParamsGetExpr Field_ => Ret (bs "acct_params_get " ++ txt_AcctParamsField Field_) (* 2890-2892 *)
  | BlockExpr Field_ => Ret (bs "block " ++ txt_BlockField Field_) (* 2941-2943 *)
  | VrfVerifyExpr Field_ => Ret (bs "vrf_verify " ++ txt_VrfStandard Field_) (* 2949-2951 *)
  | AssetHoldingGetExpr Field_ => Ret (bs "asset_holding_get " ++ txt_AssetHoldingField Field_) (* 2996-2998 *)
  | GitxnExpr Index_ Field_ => Ret (bs "gitxn " ++ dec Index_ ++ bs " " ++ txt_TxnField Field_) (* 3044-3046 *)
  | GtxnsasExpr Field_ => Ret (bs "gtxnsas " ++ txt_TxnField Field_) (* 3185-3187 *)
  | DigExpr Index_ => Ret (bs "dig " ++ dec Index_) (* 3200-3202 *)
  | GaidExpr Group_ => Ret (bs "gaid " ++ dec Group_) (* 3280-3282 *)
  | SubstringExpr Start_ End_ => Ret (bs "substring " ++ dec Start_ ++ bs " " ++ dec End_) (* 3368-3370 *)
  | GitxnaExpr Group_ Field_ Index_ => Ret (bs "gitxna " ++ dec Group_ ++ bs " " ++ txt_TxnField Field_ ++ bs " " ++ dec Index_) (* 3579-3581 *)
  end.

(* compiler.go:242-251 Listing.String: one line per instruction *)
Fixpoint print_listing (l : listing) : res str :=
  match l with
  | [] => Ret []
  | e :: r => letr s := print e in letr t := print_listing r in Ret (s ++ c_lf :: t)
  end.
