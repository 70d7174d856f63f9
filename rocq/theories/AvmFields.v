(* The named fields of the AVM and the version that introduced each, from the published reference
   (TEAL.md and the field tables of go-algorand), not from the code.  The position of a name is the
   number of the field.  The elliptic curve groups are left out: no released version had them. *)
From Verif Require Import Base.

Definition since (v : N) (ns : list string) : list (string * N) := map (fun n => (n, v)) ns.

Definition avm_txn : list (string * N) :=
  since 1 ["Sender"; "Fee"; "FirstValid"] ++ since 7 ["FirstValidTime"] ++
  since 1 ["LastValid"; "Note"; "Lease"; "Receiver"; "Amount"; "CloseRemainderTo"; "VotePK"; "SelectionPK";
           "VoteFirst"; "VoteLast"; "VoteKeyDilution"; "Type"; "TypeEnum"; "XferAsset"; "AssetAmount";
           "AssetSender"; "AssetReceiver"; "AssetCloseTo"; "GroupIndex"; "TxID"] ++
  since 2 ["ApplicationID"; "OnCompletion"; "ApplicationArgs"; "NumAppArgs"; "Accounts"; "NumAccounts";
           "ApprovalProgram"; "ClearStateProgram"; "RekeyTo"; "ConfigAsset"; "ConfigAssetTotal";
           "ConfigAssetDecimals"; "ConfigAssetDefaultFrozen"; "ConfigAssetUnitName"; "ConfigAssetName";
           "ConfigAssetURL"; "ConfigAssetMetadataHash"; "ConfigAssetManager"; "ConfigAssetReserve";
           "ConfigAssetFreeze"; "ConfigAssetClawback"; "FreezeAsset"; "FreezeAssetAccount"; "FreezeAssetFrozen"] ++
  since 3 ["Assets"; "NumAssets"; "Applications"; "NumApplications"; "GlobalNumUint"; "GlobalNumByteSlice";
           "LocalNumUint"; "LocalNumByteSlice"] ++
  since 4 ["ExtraProgramPages"] ++
  since 5 ["Nonparticipation"; "Logs"; "NumLogs"; "CreatedAssetID"; "CreatedApplicationID"] ++
  since 6 ["LastLog"; "StateProofPK"] ++
  since 7 ["ApprovalProgramPages"; "NumApprovalProgramPages"; "ClearStateProgramPages"; "NumClearStateProgramPages"].
Definition avm_txn_arrays : list string :=
  ["ApplicationArgs"; "Accounts"; "Assets"; "Applications"; "Logs"; "ApprovalProgramPages"; "ClearStateProgramPages"].
(* the fields itxn_field can set *)
Definition avm_itxn : list (string * N) :=
  since 5 ["Sender"; "Fee"; "Receiver"; "Amount"; "CloseRemainderTo"; "Type"; "TypeEnum"; "XferAsset"; "AssetAmount";
           "AssetSender"; "AssetReceiver"; "AssetCloseTo"; "ConfigAsset"; "ConfigAssetTotal"; "ConfigAssetDecimals";
           "ConfigAssetDefaultFrozen"; "ConfigAssetUnitName"; "ConfigAssetName"; "ConfigAssetURL";
           "ConfigAssetMetadataHash"; "ConfigAssetManager"; "ConfigAssetReserve"; "ConfigAssetFreeze";
           "ConfigAssetClawback"; "FreezeAsset"; "FreezeAssetAccount"; "FreezeAssetFrozen"] ++
  since 6 ["Note"; "VotePK"; "SelectionPK"; "VoteFirst"; "VoteLast"; "VoteKeyDilution"; "ApplicationID";
           "OnCompletion"; "ApplicationArgs"; "Accounts"; "ApprovalProgram"; "ClearStateProgram"; "RekeyTo"; "Assets";
           "Applications"; "GlobalNumUint"; "GlobalNumByteSlice"; "LocalNumUint"; "LocalNumByteSlice";
           "ExtraProgramPages"; "Nonparticipation"; "StateProofPK"] ++
  since 7 ["ApprovalProgramPages"; "ClearStateProgramPages"].
Definition avm_global : list (string * N) :=
  since 1 ["MinTxnFee"; "MinBalance"; "MaxTxnLife"; "ZeroAddress"; "GroupSize"] ++
  since 2 ["LogicSigVersion"; "Round"; "LatestTimestamp"; "CurrentApplicationID"] ++ since 3 ["CreatorAddress"] ++
  since 5 ["CurrentApplicationAddress"; "GroupID"] ++
  since 6 ["OpcodeBudget"; "CallerApplicationID"; "CallerApplicationAddress"].
Definition avm_ecdsa : list (string * N) := since 5 ["Secp256k1"] ++ since 7 ["Secp256r1"].
Definition avm_base64 : list (string * N) := since 6 ["URLEncoding"; "StdEncoding"].
Definition avm_json : list (string * N) := since 7 ["JSONString"; "JSONUint64"; "JSONObject"].
Definition avm_vrf : list (string * N) := since 7 ["VrfAlgorand"].
Definition avm_block : list (string * N) := since 7 ["BlkSeed"; "BlkTimestamp"].
Definition avm_asset_holding : list (string * N) := since 2 ["AssetBalance"; "AssetFrozen"].
Definition avm_asset_params : list (string * N) :=
  since 2 ["AssetTotal"; "AssetDecimals"; "AssetDefaultFrozen"; "AssetUnitName"; "AssetName"; "AssetURL";
           "AssetMetadataHash"; "AssetManager"; "AssetReserve"; "AssetFreeze"; "AssetClawback"] ++
  since 5 ["AssetCreator"].
Definition avm_app_params : list (string * N) :=
  since 5 ["AppApprovalProgram"; "AppClearStateProgram"; "AppGlobalNumUint"; "AppGlobalNumByteSlice";
           "AppLocalNumUint"; "AppLocalNumByteSlice"; "AppExtraProgramPages"; "AppCreator"; "AppAddress"].
Definition avm_acct_params : list (string * N) :=
  since 6 ["AcctBalance"; "AcctMinBalance"; "AcctAuthAddr"] ++
  since 8 ["AcctTotalNumUint"; "AcctTotalNumByteSlice"; "AcctTotalExtraAppPages"; "AcctTotalAppsCreated";
           "AcctTotalAppsOptedIn"; "AcctTotalAssetsCreated"; "AcctTotalAssets"; "AcctTotalBoxes"; "AcctTotalBoxBytes"].

(* number and version of a name *)
Fixpoint field_from (i : N) (t : list (string * N)) (n : string) : option (N * N) :=
  match t with
  | [] => None
  | (m, v) :: r => if String.eqb m n then Some (i, v) else field_from (i + 1)%N r n
  end.
Definition field_of (t : list (string * N)) (n : string) : option (N * N) := field_from 0 t n.
Definition version_of (t : list (string * N)) (n : string) : option N :=
  match find (fun x => String.eqb (fst x) n) t with Some (_, v) => Some v | None => None end.
