(* go_algorand.go: the field tables of the instructions with a named immediate.
   A field is its position in the table (the Go enumeration value); init (go_algorand.go:1725-1831)
   checks that position and enumeration value agree and that the name of entry i is the String()
   of value i (go_algorand.go:1924-2275), which is the name written here.  Documentation strings
   are left out.  Tables with fewer columns are padded: StackNone/StackAny types that the Go code
   returns as a constant, no array flag, no itxn version. *)
From Verif Require Import Base.

(* go_algorand.go:389-405 StackType *)
Inductive stack_type : Set := StackNone | StackAny | StackUint64 | StackBytes.

(* go_algorand.go:656-664 txnFieldSpec and its eleven siblings *)
Record field_spec : Set := FS {
  f_name : str;         (* field.String() *)
  f_type : stack_type;  (* Type() *)
  f_version : N;        (* Version() *)
  f_array : bool;       (* array, txn fields only *)
  f_itx : N;            (* itxVersion, txn fields only; 0 = never *)
  f_app : bool          (* effects (txn) or mode == modeApp (global) *)
}.

(* go_algorand.go:683-769 *)
Definition txnFieldSpecs : list field_spec :=
 [ FS "Sender" StackBytes 0%N false 5%N false;
   FS "Fee" StackUint64 0%N false 5%N false;
   FS "FirstValid" StackUint64 0%N false 0%N false;
   FS "FirstValidTime" StackUint64 7%N false 0%N false;
   FS "LastValid" StackUint64 0%N false 0%N false;
   FS "Note" StackBytes 0%N false 6%N false;
   FS "Lease" StackBytes 0%N false 0%N false;
   FS "Receiver" StackBytes 0%N false 5%N false;
   FS "Amount" StackUint64 0%N false 5%N false;
   FS "CloseRemainderTo" StackBytes 0%N false 5%N false;
   FS "VotePK" StackBytes 0%N false 6%N false;
   FS "SelectionPK" StackBytes 0%N false 6%N false;
   FS "VoteFirst" StackUint64 0%N false 6%N false;
   FS "VoteLast" StackUint64 0%N false 6%N false;
   FS "VoteKeyDilution" StackUint64 0%N false 6%N false;
   FS "Type" StackBytes 0%N false 5%N false;
   FS "TypeEnum" StackUint64 0%N false 5%N false;
   FS "XferAsset" StackUint64 0%N false 5%N false;
   FS "AssetAmount" StackUint64 0%N false 5%N false;
   FS "AssetSender" StackBytes 0%N false 5%N false;
   FS "AssetReceiver" StackBytes 0%N false 5%N false;
   FS "AssetCloseTo" StackBytes 0%N false 5%N false;
   FS "GroupIndex" StackUint64 0%N false 0%N false;
   FS "TxID" StackBytes 0%N false 0%N false;
   FS "ApplicationID" StackUint64 2%N false 6%N false;
   FS "OnCompletion" StackUint64 2%N false 6%N false;
   FS "ApplicationArgs" StackBytes 2%N true 6%N false;
   FS "NumAppArgs" StackUint64 2%N false 0%N false;
   FS "Accounts" StackBytes 2%N true 6%N false;
   FS "NumAccounts" StackUint64 2%N false 0%N false;
   FS "ApprovalProgram" StackBytes 2%N false 6%N false;
   FS "ClearStateProgram" StackBytes 2%N false 6%N false;
   FS "RekeyTo" StackBytes 2%N false 6%N false;
   FS "ConfigAsset" StackUint64 2%N false 5%N false;
   FS "ConfigAssetTotal" StackUint64 2%N false 5%N false;
   FS "ConfigAssetDecimals" StackUint64 2%N false 5%N false;
   FS "ConfigAssetDefaultFrozen" StackUint64 2%N false 5%N false;
   FS "ConfigAssetUnitName" StackBytes 2%N false 5%N false;
   FS "ConfigAssetName" StackBytes 2%N false 5%N false;
   FS "ConfigAssetURL" StackBytes 2%N false 5%N false;
   FS "ConfigAssetMetadataHash" StackBytes 2%N false 5%N false;
   FS "ConfigAssetManager" StackBytes 2%N false 5%N false;
   FS "ConfigAssetReserve" StackBytes 2%N false 5%N false;
   FS "ConfigAssetFreeze" StackBytes 2%N false 5%N false;
   FS "ConfigAssetClawback" StackBytes 2%N false 5%N false;
   FS "FreezeAsset" StackUint64 2%N false 5%N false;
   FS "FreezeAssetAccount" StackBytes 2%N false 5%N false;
   FS "FreezeAssetFrozen" StackUint64 2%N false 5%N false;
   FS "Assets" StackUint64 3%N true 6%N false;
   FS "NumAssets" StackUint64 3%N false 0%N false;
   FS "Applications" StackUint64 3%N true 6%N false;
   FS "NumApplications" StackUint64 3%N false 0%N false;
   FS "GlobalNumUint" StackUint64 3%N false 6%N false;
   FS "GlobalNumByteSlice" StackUint64 3%N false 6%N false;
   FS "LocalNumUint" StackUint64 3%N false 6%N false;
   FS "LocalNumByteSlice" StackUint64 3%N false 6%N false;
   FS "ExtraProgramPages" StackUint64 4%N false 6%N false;
   FS "Nonparticipation" StackUint64 5%N false 6%N false;
   FS "Logs" StackBytes 5%N true 0%N true;
   FS "NumLogs" StackUint64 5%N false 0%N true;
   FS "CreatedAssetID" StackUint64 5%N false 0%N true;
   FS "CreatedApplicationID" StackUint64 5%N false 0%N true;
   FS "LastLog" StackBytes 6%N false 0%N true;
   FS "StateProofPK" StackBytes 6%N false 6%N false;
   FS "ApprovalProgramPages" StackBytes 7%N true 7%N false;
   FS "NumApprovalProgramPages" StackUint64 7%N false 0%N false;
   FS "ClearStateProgramPages" StackBytes 7%N true 7%N false;
   FS "NumClearStateProgramPages" StackUint64 7%N false 0%N false ].

(* go_algorand.go:980-1005 *)
Definition globalFieldSpecs : list field_spec :=
 [ FS "MinTxnFee" StackUint64 0%N false 0%N false;
   FS "MinBalance" StackUint64 0%N false 0%N false;
   FS "MaxTxnLife" StackUint64 0%N false 0%N false;
   FS "ZeroAddress" StackBytes 0%N false 0%N false;
   FS "GroupSize" StackUint64 0%N false 0%N false;
   FS "LogicSigVersion" StackUint64 2%N false 0%N false;
   FS "Round" StackUint64 2%N false 0%N true;
   FS "LatestTimestamp" StackUint64 2%N false 0%N true;
   FS "CurrentApplicationID" StackUint64 2%N false 0%N true;
   FS "CreatorAddress" StackBytes 3%N false 0%N true;
   FS "CurrentApplicationAddress" StackBytes 5%N false 0%N true;
   FS "GroupID" StackBytes 5%N false 0%N false;
   FS "OpcodeBudget" StackUint64 6%N false 0%N false;
   FS "CallerApplicationID" StackUint64 6%N false 0%N true;
   FS "CallerApplicationAddress" StackBytes 6%N false 0%N true ].

(* go_algorand.go:1065-1068 *)
Definition ecdsaCurveSpecs : list field_spec :=
 [ FS "Secp256k1" StackNone 5%N false 0%N false;
   FS "Secp256r1" StackNone 7%N false 0%N false ].

(* go_algorand.go:2171-2176 *)
Definition ecGroupSpecs : list field_spec :=
 [ FS "BN254_G1" StackNone 9%N false 0%N false;
   FS "BN254_G2" StackNone 9%N false 0%N false;
   FS "BLS12_381_G1" StackNone 9%N false 0%N false;
   FS "BLS12_381_G2" StackNone 9%N false 0%N false ].

(* go_algorand.go:1111-1114 *)
Definition base64EncodingSpecs : list field_spec :=
 [ FS "URLEncoding" StackAny 6%N false 0%N false;
   FS "StdEncoding" StackAny 6%N false 0%N false ].

(* go_algorand.go:1177-1181 *)
Definition jsonRefSpecs : list field_spec :=
 [ FS "JSONString" StackBytes 7%N false 0%N false;
   FS "JSONUint64" StackUint64 7%N false 0%N false;
   FS "JSONObject" StackBytes 7%N false 0%N false ].

(* go_algorand.go:1239-1241 *)
Definition vrfStandardSpecs : list field_spec :=
 [ FS "VrfAlgorand" StackNone 7%N false 0%N false ].

(* go_algorand.go:1310-1313 *)
Definition blockFieldSpecs : list field_spec :=
 [ FS "BlkSeed" StackBytes 7%N false 0%N false;
   FS "BlkTimestamp" StackUint64 7%N false 0%N false ].

(* go_algorand.go:1398-1401 *)
Definition assetHoldingFieldSpecs : list field_spec :=
 [ FS "AssetBalance" StackUint64 2%N false 0%N false;
   FS "AssetFrozen" StackUint64 2%N false 0%N false ].

(* go_algorand.go:1484-1497 *)
Definition assetParamsFieldSpecs : list field_spec :=
 [ FS "AssetTotal" StackUint64 2%N false 0%N false;
   FS "AssetDecimals" StackUint64 2%N false 0%N false;
   FS "AssetDefaultFrozen" StackUint64 2%N false 0%N false;
   FS "AssetUnitName" StackBytes 2%N false 0%N false;
   FS "AssetName" StackBytes 2%N false 0%N false;
   FS "AssetURL" StackBytes 2%N false 0%N false;
   FS "AssetMetadataHash" StackBytes 2%N false 0%N false;
   FS "AssetManager" StackBytes 2%N false 0%N false;
   FS "AssetReserve" StackBytes 2%N false 0%N false;
   FS "AssetFreeze" StackBytes 2%N false 0%N false;
   FS "AssetClawback" StackBytes 2%N false 0%N false;
   FS "AssetCreator" StackBytes 5%N false 0%N false ].

(* go_algorand.go:1575-1585 *)
Definition appParamsFieldSpecs : list field_spec :=
 [ FS "AppApprovalProgram" StackBytes 5%N false 0%N false;
   FS "AppClearStateProgram" StackBytes 5%N false 0%N false;
   FS "AppGlobalNumUint" StackUint64 5%N false 0%N false;
   FS "AppGlobalNumByteSlice" StackUint64 5%N false 0%N false;
   FS "AppLocalNumUint" StackUint64 5%N false 0%N false;
   FS "AppLocalNumByteSlice" StackUint64 5%N false 0%N false;
   FS "AppExtraProgramPages" StackUint64 5%N false 0%N false;
   FS "AppCreator" StackBytes 5%N false 0%N false;
   FS "AppAddress" StackBytes 5%N false 0%N false ].

(* go_algorand.go:1673-1687 *)
Definition acctParamsFieldSpecs : list field_spec :=
 [ FS "AcctBalance" StackUint64 6%N false 0%N false;
   FS "AcctMinBalance" StackUint64 6%N false 0%N false;
   FS "AcctAuthAddr" StackBytes 6%N false 0%N false;
   FS "AcctTotalNumUint" StackUint64 8%N false 0%N false;
   FS "AcctTotalNumByteSlice" StackUint64 8%N false 0%N false;
   FS "AcctTotalExtraAppPages" StackUint64 8%N false 0%N false;
   FS "AcctTotalAppsCreated" StackUint64 8%N false 0%N false;
   FS "AcctTotalAppsOptedIn" StackUint64 8%N false 0%N false;
   FS "AcctTotalAssetsCreated" StackUint64 8%N false 0%N false;
   FS "AcctTotalAssets" StackUint64 8%N false 0%N false;
   FS "AcctTotalBoxes" StackUint64 8%N false 0%N false;
   FS "AcctTotalBoxBytes" StackUint64 8%N false 0%N false ].

(* go_algorand.go:633-638, 1007-1012, 1070-1075, 1116-1121, 1183-1188, 1243-1248, 1315-1320,
   1403-1408, 1499-1504, 1587-1592, 1689-1694, 2178-2183: xxxSpecByField *)
Definition spec_by_field (specs : list field_spec) (f : N) : option field_spec :=
  nth_error specs (N.to_nat f).

(* go_algorand.go:642-649 tfNameSpecMap.get and its siblings: xxxSpecByName[name]; the maps are
   filled by init, later entries overwrite earlier ones. *)
Fixpoint spec_by_name_from (i : N) (specs : list field_spec) (name : str) (acc : option (N * field_spec)) :=
  match specs with
  | [] => acc
  | s :: r => spec_by_name_from (i + 1)%N r name (if seqb (f_name s) name then Some (i, s) else acc)
  end.
Definition spec_by_name (specs : list field_spec) (name : str) : option (N * field_spec) :=
  spec_by_name_from 0 specs name None.

