(* langspec.json: the immediate note of every opcode, and the names and types of the fields it takes
   (ImmediateNote, ArgEnum and ArgEnumTypes; U stands for a number and B for bytes).  The comment gives the
   line of the entry.  The fields of the opcodes with the same list are written once. *)
From Verif Require Import Base.

Record lang_op := LangOp { lo_name : string; lo_note : string; lo_enum : list string; lo_types : string }.

(* langspec.json:544 txn, gtxn, gtxns, itxn, gitxn *)
Definition enum_txn : list string :=
  [ "Sender"; "Fee"; "FirstValid"; "FirstValidTime"; "LastValid"; "Note"; "Lease"; "Receiver"; "Amount";
    "CloseRemainderTo"; "VotePK"; "SelectionPK"; "VoteFirst"; "VoteLast"; "VoteKeyDilution"; "Type";
    "TypeEnum"; "XferAsset"; "AssetAmount"; "AssetSender"; "AssetReceiver"; "AssetCloseTo"; "GroupIndex";
    "TxID"; "ApplicationID"; "OnCompletion"; "ApplicationArgs"; "NumAppArgs"; "Accounts"; "NumAccounts";
    "ApprovalProgram"; "ClearStateProgram"; "RekeyTo"; "ConfigAsset"; "ConfigAssetTotal";
    "ConfigAssetDecimals"; "ConfigAssetDefaultFrozen"; "ConfigAssetUnitName"; "ConfigAssetName";
    "ConfigAssetURL"; "ConfigAssetMetadataHash"; "ConfigAssetManager"; "ConfigAssetReserve";
    "ConfigAssetFreeze"; "ConfigAssetClawback"; "FreezeAsset"; "FreezeAssetAccount"; "FreezeAssetFrozen";
    "Assets"; "NumAssets"; "Applications"; "NumApplications"; "GlobalNumUint"; "GlobalNumByteSlice";
    "LocalNumUint"; "LocalNumByteSlice"; "ExtraProgramPages"; "Nonparticipation"; "Logs"; "NumLogs";
    "CreatedAssetID"; "CreatedApplicationID"; "LastLog"; "StateProofPK"; "ApprovalProgramPages";
    "NumApprovalProgramPages"; "ClearStateProgramPages"; "NumClearStateProgramPages" ]%string.

(* langspec.json:626 global *)
Definition enum_global : list string :=
  [ "MinTxnFee"; "MinBalance"; "MaxTxnLife"; "ZeroAddress"; "GroupSize"; "LogicSigVersion"; "Round";
    "LatestTimestamp"; "CurrentApplicationID"; "CreatorAddress"; "CurrentApplicationAddress"; "GroupID";
    "OpcodeBudget"; "CallerApplicationID"; "CallerApplicationAddress" ]%string.

(* langspec.json:760 txna, gtxna, gtxnsa, itxna, gitxna, txnas, gtxnas, gtxnsas *)
Definition enum_txna : list string :=
  [ "ApplicationArgs"; "Accounts"; "Assets"; "Applications"; "Logs"; "ApprovalProgramPages";
    "ClearStateProgramPages" ]%string.

(* langspec.json:1456 asset_holding_get *)
Definition enum_asset_holding_get : list string :=
  [ "AssetBalance"; "AssetFrozen" ]%string.

(* langspec.json:1474 asset_params_get *)
Definition enum_asset_params_get : list string :=
  [ "AssetTotal"; "AssetDecimals"; "AssetDefaultFrozen"; "AssetUnitName"; "AssetName"; "AssetURL";
    "AssetMetadataHash"; "AssetManager"; "AssetReserve"; "AssetFreeze"; "AssetClawback"; "AssetCreator" ]%string.

(* langspec.json:1502 app_params_get *)
Definition enum_app_params_get : list string :=
  [ "AppApprovalProgram"; "AppClearStateProgram"; "AppGlobalNumUint"; "AppGlobalNumByteSlice";
    "AppLocalNumUint"; "AppLocalNumByteSlice"; "AppExtraProgramPages"; "AppCreator"; "AppAddress" ]%string.

(* langspec.json:1527 acct_params_get *)
Definition enum_acct_params_get : list string :=
  [ "AcctBalance"; "AcctMinBalance"; "AcctAuthAddr"; "AcctTotalNumUint"; "AcctTotalNumByteSlice";
    "AcctTotalExtraAppPages"; "AcctTotalAppsCreated"; "AcctTotalAppsOptedIn"; "AcctTotalAssetsCreated";
    "AcctTotalAssets"; "AcctTotalBoxes"; "AcctTotalBoxBytes" ]%string.

(* langspec.json:1997 itxn_field *)
Definition enum_itxn_field : list string :=
  [ "Sender"; "Fee"; "Note"; "Receiver"; "Amount"; "CloseRemainderTo"; "VotePK"; "SelectionPK"; "VoteFirst";
    "VoteLast"; "VoteKeyDilution"; "Type"; "TypeEnum"; "XferAsset"; "AssetAmount"; "AssetSender";
    "AssetReceiver"; "AssetCloseTo"; "ApplicationID"; "OnCompletion"; "ApplicationArgs"; "Accounts";
    "ApprovalProgram"; "ClearStateProgram"; "RekeyTo"; "ConfigAsset"; "ConfigAssetTotal";
    "ConfigAssetDecimals"; "ConfigAssetDefaultFrozen"; "ConfigAssetUnitName"; "ConfigAssetName";
    "ConfigAssetURL"; "ConfigAssetMetadataHash"; "ConfigAssetManager"; "ConfigAssetReserve";
    "ConfigAssetFreeze"; "ConfigAssetClawback"; "FreezeAsset"; "FreezeAssetAccount"; "FreezeAssetFrozen";
    "Assets"; "Applications"; "GlobalNumUint"; "GlobalNumByteSlice"; "LocalNumUint"; "LocalNumByteSlice";
    "ExtraProgramPages"; "Nonparticipation"; "StateProofPK"; "ApprovalProgramPages";
    "ClearStateProgramPages" ]%string.

Definition lang_ops : list lang_op :=
  [ LangOp "err" "" [] "" (* 7 *);
    LangOp "sha256" "" [] "" (* 16 *);
    LangOp "keccak256" "" [] "" (* 27 *);
    LangOp "sha512_256" "" [] "" (* 38 *);
    LangOp "ed25519verify" "" [] "" (* 49 *);
    LangOp "ecdsa_verify" "{uint8 curve index}" [] "" (* 61 *);
    LangOp "ecdsa_pk_decompress" "{uint8 curve index}" [] "" (* 74 *);
    LangOp "ecdsa_pk_recover" "{uint8 curve index}" [] "" (* 87 *);
    LangOp "+" "" [] "" (* 100 *);
    LangOp "-" "" [] "" (* 112 *);
    LangOp "/" "" [] "" (* 123 *);
    LangOp "*" "" [] "" (* 135 *);
    LangOp "<" "" [] "" (* 147 *);
    LangOp ">" "" [] "" (* 158 *);
    LangOp "<=" "" [] "" (* 169 *);
    LangOp ">=" "" [] "" (* 180 *);
    LangOp "&&" "" [] "" (* 191 *);
    LangOp "||" "" [] "" (* 202 *);
    LangOp "==" "" [] "" (* 213 *);
    LangOp "!=" "" [] "" (* 224 *);
    LangOp "!" "" [] "" (* 235 *);
    LangOp "len" "" [] "" (* 246 *);
    LangOp "itob" "" [] "" (* 257 *);
    LangOp "btoi" "" [] "" (* 268 *);
    LangOp "%" "" [] "" (* 280 *);
    LangOp "|" "" [] "" (* 291 *);
    LangOp "&" "" [] "" (* 302 *);
    LangOp "^" "" [] "" (* 313 *);
    LangOp "~" "" [] "" (* 324 *);
    LangOp "mulw" "" [] "" (* 335 *);
    LangOp "addw" "" [] "" (* 346 *);
    LangOp "divmodw" "" [] "" (* 357 *);
    LangOp "intcblock" "{varuint count} [{varuint value}, ...]" [] "" (* 369 *);
    LangOp "intc" "{uint8 int constant index}" [] "" (* 380 *);
    LangOp "intc_0" "" [] "" (* 391 *);
    LangOp "intc_1" "" [] "" (* 401 *);
    LangOp "intc_2" "" [] "" (* 411 *);
    LangOp "intc_3" "" [] "" (* 421 *);
    LangOp "bytecblock" "{varuint count} [({varuint value length} bytes), ...]" [] "" (* 431 *);
    LangOp "bytec" "{uint8 byte constant index}" [] "" (* 442 *);
    LangOp "bytec_0" "" [] "" (* 453 *);
    LangOp "bytec_1" "" [] "" (* 463 *);
    LangOp "bytec_2" "" [] "" (* 473 *);
    LangOp "bytec_3" "" [] "" (* 483 *);
    LangOp "arg" "{uint8 arg index N}" [] "" (* 493 *);
    LangOp "arg_0" "" [] "" (* 504 *);
    LangOp "arg_1" "" [] "" (* 514 *);
    LangOp "arg_2" "" [] "" (* 524 *);
    LangOp "arg_3" "" [] "" (* 534 *);
    LangOp "txn" "{uint8 transaction field index}" enum_txn "BUUUUBBBUBBBUUUBUUUBBBUBUUBUBUBBBUUUUBBBBBBBBUBUUUUUUUUUUUBUUUBBBUBU" (* 544 *);
    LangOp "global" "{uint8 global field index}" enum_global "UUUBUUUUUBBBUUB" (* 626 *);
    LangOp "gtxn" "{uint8 transaction group index} {uint8 transaction field index}" enum_txn "BUUUUBBBUBBBUUUBUUUBBBUBUUBUBUBBBUUUUBBBBBBBBUBUUUUUUUUUUUBUUUBBBUBU" (* 655 *);
    LangOp "load" "{uint8 position in scratch space to load from}" [] "" (* 738 *);
    LangOp "store" "{uint8 position in scratch space to store to}" [] "" (* 749 *);
    LangOp "txna" "{uint8 transaction field index} {uint8 transaction field array index}" enum_txna "BBUUBBB" (* 760 *);
    LangOp "gtxna" "{uint8 transaction group index} {uint8 transaction field index} {uint8 transaction field array index}" enum_txna "BBUUBBB" (* 781 *);
    LangOp "gtxns" "{uint8 transaction field index}" enum_txn "BUUUUBBBUBBBUUUBUUUBBBUBUUBUBUBBBUUUUBBBBBBBBUBUUUUUUUUUUUBUUUBBBUBU" (* 802 *);
    LangOp "gtxnsa" "{uint8 transaction field index} {uint8 transaction field array index}" enum_txna "BBUUBBB" (* 886 *);
    LangOp "gload" "{uint8 transaction group index} {uint8 position in scratch space to load from}" [] "" (* 908 *);
    LangOp "gloads" "{uint8 position in scratch space to load from}" [] "" (* 920 *);
    LangOp "gaid" "{uint8 transaction group index}" [] "" (* 933 *);
    LangOp "gaids" "" [] "" (* 945 *);
    LangOp "loads" "" [] "" (* 957 *);
    LangOp "stores" "" [] "" (* 968 *);
    LangOp "bnz" "{int16 branch offset, big-endian}" [] "" (* 978 *);
    LangOp "bz" "{int16 branch offset, big-endian}" [] "" (* 990 *);
    LangOp "b" "{int16 branch offset, big-endian}" [] "" (* 1002 *);
    LangOp "return" "" [] "" (* 1013 *);
    LangOp "assert" "" [] "" (* 1023 *);
    LangOp "bury" "{uint8 depth}" [] "" (* 1033 *);
    LangOp "popn" "{uint8 stack depth}" [] "" (* 1044 *);
    LangOp "dupn" "{uint8 copy count}" [] "" (* 1054 *);
    LangOp "pop" "" [] "" (* 1065 *);
    LangOp "dup" "" [] "" (* 1075 *);
    LangOp "dup2" "" [] "" (* 1086 *);
    LangOp "dig" "{uint8 depth}" [] "" (* 1097 *);
    LangOp "swap" "" [] "" (* 1109 *);
    LangOp "select" "" [] "" (* 1120 *);
    LangOp "cover" "{uint8 depth}" [] "" (* 1131 *);
    LangOp "uncover" "{uint8 depth}" [] "" (* 1143 *);
    LangOp "concat" "" [] "" (* 1155 *);
    LangOp "substring" "{uint8 start position} {uint8 end position}" [] "" (* 1167 *);
    LangOp "substring3" "" [] "" (* 1179 *);
    LangOp "getbit" "" [] "" (* 1190 *);
    LangOp "setbit" "" [] "" (* 1202 *);
    LangOp "getbyte" "" [] "" (* 1214 *);
    LangOp "setbyte" "" [] "" (* 1225 *);
    LangOp "extract" "{uint8 start position} {uint8 length}" [] "" (* 1236 *);
    LangOp "extract3" "" [] "" (* 1248 *);
    LangOp "extract_uint16" "" [] "" (* 1259 *);
    LangOp "extract_uint32" "" [] "" (* 1270 *);
    LangOp "extract_uint64" "" [] "" (* 1281 *);
    LangOp "replace2" "{uint8 start position}" [] "" (* 1292 *);
    LangOp "replace3" "" [] "" (* 1304 *);
    LangOp "base64_decode" "{uint8 encoding index}" [] "" (* 1315 *);
    LangOp "json_ref" "{uint8 return type}" [] "" (* 1328 *);
    LangOp "balance" "" [] "" (* 1341 *);
    LangOp "app_opted_in" "" [] "" (* 1353 *);
    LangOp "app_local_get" "" [] "" (* 1365 *);
    LangOp "app_local_get_ex" "" [] "" (* 1377 *);
    LangOp "app_global_get" "" [] "" (* 1389 *);
    LangOp "app_global_get_ex" "" [] "" (* 1401 *);
    LangOp "app_local_put" "" [] "" (* 1413 *);
    LangOp "app_global_put" "" [] "" (* 1424 *);
    LangOp "app_local_del" "" [] "" (* 1434 *);
    LangOp "app_global_del" "" [] "" (* 1445 *);
    LangOp "asset_holding_get" "{uint8 asset holding field index}" enum_asset_holding_get "UU" (* 1456 *);
    LangOp "asset_params_get" "{uint8 asset params field index}" enum_asset_params_get "UUUBBBBBBBBB" (* 1474 *);
    LangOp "app_params_get" "{uint8 app params field index}" enum_app_params_get "BBUUUUUBB" (* 1502 *);
    LangOp "acct_params_get" "{uint8 account params field index}" enum_acct_params_get "UUBUUUUUUUUU" (* 1527 *);
    LangOp "min_balance" "" [] "" (* 1554 *);
    LangOp "pushbytes" "{varuint length} {bytes}" [] "" (* 1566 *);
    LangOp "pushint" "{varuint int}" [] "" (* 1578 *);
    LangOp "pushbytess" "{varuint count} [({varuint value length} bytes), ...]" [] "" (* 1590 *);
    LangOp "pushints" "{varuint count} [{varuint value}, ...]" [] "" (* 1601 *);
    LangOp "ed25519verify_bare" "" [] "" (* 1612 *);
    LangOp "callsub" "{int16 branch offset, big-endian}" [] "" (* 1623 *);
    LangOp "retsub" "" [] "" (* 1634 *);
    LangOp "proto" "{uint8 arguments} {uint8 return values}" [] "" (* 1644 *);
    LangOp "frame_dig" "{int8 frame slot}" [] "" (* 1655 *);
    LangOp "frame_bury" "{int8 frame slot}" [] "" (* 1666 *);
    LangOp "switch" "{uint8 branch count} [{int16 branch offset, big-endian}, ...]" [] "" (* 1677 *);
    LangOp "match" "{uint8 branch count} [{int16 branch offset, big-endian}, ...]" [] "" (* 1688 *);
    LangOp "shl" "" [] "" (* 1699 *);
    LangOp "shr" "" [] "" (* 1710 *);
    LangOp "sqrt" "" [] "" (* 1721 *);
    LangOp "bitlen" "" [] "" (* 1732 *);
    LangOp "exp" "" [] "" (* 1744 *);
    LangOp "expw" "" [] "" (* 1755 *);
    LangOp "bsqrt" "" [] "" (* 1766 *);
    LangOp "divw" "" [] "" (* 1777 *);
    LangOp "sha3_256" "" [] "" (* 1789 *);
    LangOp "b+" "" [] "" (* 1800 *);
    LangOp "b-" "" [] "" (* 1811 *);
    LangOp "b/" "" [] "" (* 1822 *);
    LangOp "b*" "" [] "" (* 1833 *);
    LangOp "b<" "" [] "" (* 1844 *);
    LangOp "b>" "" [] "" (* 1855 *);
    LangOp "b<=" "" [] "" (* 1866 *);
    LangOp "b>=" "" [] "" (* 1877 *);
    LangOp "b==" "" [] "" (* 1888 *);
    LangOp "b!=" "" [] "" (* 1899 *);
    LangOp "b%" "" [] "" (* 1910 *);
    LangOp "b|" "" [] "" (* 1921 *);
    LangOp "b&" "" [] "" (* 1932 *);
    LangOp "b^" "" [] "" (* 1943 *);
    LangOp "b~" "" [] "" (* 1954 *);
    LangOp "bzero" "" [] "" (* 1965 *);
    LangOp "log" "" [] "" (* 1976 *);
    LangOp "itxn_begin" "" [] "" (* 1987 *);
    LangOp "itxn_field" "{uint8 transaction field index}" enum_itxn_field "BUBBUBBBUUUBUUUBBBUUBBBBBUUUUBBBBBBBBUBUUUUUUUUUBBB" (* 1997 *);
    LangOp "itxn_submit" "" [] "" (* 2063 *);
    LangOp "itxn" "{uint8 transaction field index}" enum_txn "BUUUUBBBUBBBUUUBUUUBBBUBUUBUBUBBBUUUUBBBBBBBBUBUUUUUUUUUUUBUUUBBBUBU" (* 2073 *);
    LangOp "itxna" "{uint8 transaction field index} {uint8 transaction field array index}" enum_txna "BBUUBBB" (* 2155 *);
    LangOp "itxn_next" "" [] "" (* 2176 *);
    LangOp "gitxn" "{uint8 transaction group index} {uint8 transaction field index}" enum_txn "BUUUUBBBUBBBUUUBUUUBBBUBUUBUBUBBBUUUUBBBBBBBBUBUUUUUUUUUUUBUUUBBBUBU" (* 2186 *);
    LangOp "gitxna" "{uint8 transaction group index} {uint8 transaction field index} {uint8 transaction field array index}" enum_txna "BBUUBBB" (* 2268 *);
    LangOp "box_create" "" [] "" (* 2289 *);
    LangOp "box_extract" "" [] "" (* 2301 *);
    LangOp "box_replace" "" [] "" (* 2312 *);
    LangOp "box_del" "" [] "" (* 2322 *);
    LangOp "box_len" "" [] "" (* 2333 *);
    LangOp "box_get" "" [] "" (* 2344 *);
    LangOp "box_put" "" [] "" (* 2356 *);
    LangOp "txnas" "{uint8 transaction field index}" enum_txna "BBUUBBB" (* 2367 *);
    LangOp "gtxnas" "{uint8 transaction group index} {uint8 transaction field index}" enum_txna "BBUUBBB" (* 2389 *);
    LangOp "gtxnsas" "{uint8 transaction field index}" enum_txna "BBUUBBB" (* 2411 *);
    LangOp "args" "" [] "" (* 2433 *);
    LangOp "gloadss" "" [] "" (* 2444 *);
    LangOp "itxnas" "{uint8 transaction field index}" [] "" (* 2455 *);
    LangOp "gitxnas" "{uint8 transaction group index} {uint8 transaction field index}" [] "" (* 2467 *);
    LangOp "vrf_verify" "{uint8 parameters index}" [] "" (* 2479 *);
    LangOp "block" "{uint8 block field}" [] "" (* 2492 *) ].
