(* go_algorand.go, process.go, lsp/lsp.go: what is shown about a field when hovering over it and when it is
   offered as an operand. *)
From Verif Require Import Base LexSpec Codec Fields OpTable Process Query.

(* go_algorand.go:683-769 *)
Definition txn_docs : list string :=
 [ "32 byte address";
   "microalgos";
   "round number";
   "UNIX timestamp of block before txn.FirstValid. Fails if negative";
   "round number";
   "Any data up to 1024 bytes";
   "32 byte lease value";
   "32 byte address";
   "microalgos";
   "32 byte address";
   "32 byte address";
   "32 byte address";
   "The first round that the participation key is valid.";
   "The last round that the participation key is valid.";
   "Dilution for the 2-level participation key";
   "Transaction type as bytes";
   "Transaction type as integer";
   "Asset ID";
   "value in Asset's units";
   "32 byte address. Source of assets if Sender is the Asset's Clawback address.";
   "32 byte address";
   "32 byte address";
   "Position of this transaction within an atomic transaction group. A stand-alone transaction is implicitly element 0 in a group of 1";
   "The computed ID for this transaction. 32 bytes.";
   "ApplicationID from ApplicationCall transaction";
   "ApplicationCall transaction on completion action";
   "Arguments passed to the application in the ApplicationCall transaction";
   "Number of ApplicationArgs";
   "Accounts listed in the ApplicationCall transaction";
   "Number of Accounts";
   "Approval program";
   "Clear state program";
   "32 byte Sender's new AuthAddr";
   "Asset ID in asset config transaction";
   "Total number of units of this asset created";
   "Number of digits to display after the decimal place when displaying the asset";
   "Whether the asset's slots are frozen by default or not, 0 or 1";
   "Unit name of the asset";
   "The asset name";
   "URL";
   "32 byte commitment to unspecified asset metadata";
   "32 byte address";
   "32 byte address";
   "32 byte address";
   "32 byte address";
   "Asset ID being frozen or un-frozen";
   "32 byte address of the account whose asset slot is being frozen or un-frozen";
   "The new frozen value, 0 or 1";
   "Foreign Assets listed in the ApplicationCall transaction";
   "Number of Assets";
   "Foreign Apps listed in the ApplicationCall transaction";
   "Number of Applications";
   "Number of global state integers in ApplicationCall";
   "Number of global state byteslices in ApplicationCall";
   "Number of local state integers in ApplicationCall";
   "Number of local state byteslices in ApplicationCall";
   "Number of additional pages for each of the application's approval and clear state programs. An ExtraProgramPages of 1 means 2048 more total bytes, or 1024 for each program.";
   "Marks an account nonparticipating for rewards";
   "Log messages emitted by an application call (only with `itxn` in v5)";
   "Number of Logs (only with `itxn` in v5)";
   "Asset ID allocated by the creation of an ASA (only with `itxn` in v5)";
   "ApplicationID allocated by the creation of an application (only with `itxn` in v5)";
   "The last message emitted. Empty bytes if none were emitted";
   "64 byte state proof public key";
   "Approval Program as an array of pages";
   "Number of Approval Program pages";
   "ClearState Program as an array of pages";
   "Number of ClearState Program pages" ]%string.

(* go_algorand.go:980-1005 *)
Definition global_docs : list string :=
 [ "microalgos";
   "microalgos";
   "rounds";
   "32 byte address of all zero bytes";
   "Number of transactions in this atomic transaction group. At least 1";
   "Maximum supported version";
   "Current round number";
   "Last confirmed block UNIX timestamp. Fails if negative";
   "ID of current application executing";
   "Address of the creator of the current application";
   "Address that the current application controls";
   "ID of the transaction group. 32 zero bytes if the transaction is not part of a group.";
   "The remaining cost that can be spent by opcodes in this program.";
   "The application ID of the application that called this application. 0 if this application is at the top-level.";
   "The application address of the application that called this application. ZeroAddress if this application is at the top-level." ]%string.

(* go_algorand.go:1065-1068 *)
Definition ecdsa_docs : list string :=
 [ "secp256k1 curve, used in Bitcoin";
   "secp256r1 curve, NIST standard" ]%string.

(* go_algorand.go:1398-1401 *)
Definition holding_docs : list string :=
 [ "Amount of the asset unit held by this account";
   "Is the asset frozen or not" ]%string.

(* go_algorand.go:1484-1497 *)
Definition params_docs : list string :=
 [ "Total number of units of this asset";
   "See AssetParams.Decimals";
   "Frozen by default or not";
   "Asset unit name";
   "Asset name";
   "URL with additional info about the asset";
   "Arbitrary commitment";
   "Manager address";
   "Reserve address";
   "Freeze address";
   "Clawback address";
   "Creator address" ]%string.

(* go_algorand.go:1575-1585 *)
Definition app_docs : list string :=
 [ "Bytecode of Approval Program";
   "Bytecode of Clear State Program";
   "Number of uint64 values allowed in Global State";
   "Number of byte array values allowed in Global State";
   "Number of uint64 values allowed in Local State";
   "Number of byte array values allowed in Local State";
   "Number of Extra Program Pages of code space";
   "Creator address";
   "Address for which this application has authority" ]%string.

(* go_algorand.go:1673-1687 *)
Definition acct_docs : list string :=
 [ "Account balance in microalgos";
   "Minimum required balance for account, in microalgos";
   "Address the account is rekeyed to.";
   "The total number of uint64 values allocated by this account in Global and Local States.";
   "The total number of byte array values allocated by this account in Global and Local States.";
   "The number of extra app code pages used by this account.";
   "The number of existing apps created by this account.";
   "The number of apps this account is opted into.";
   "The number of existing ASAs created by this account.";
   "The numbers of ASAs held by this account (including ASAs this account created).";
   "The number of existing boxes created by this account's app.";
   "The total number of bytes used by this account's app's box keys and values." ]%string.

(* go_algorand.go:2171-2176 *)
Definition ec_docs : list string :=
 [ "G1 of the BN254 curve. Points encoded as 32 byte X following by 32 byte Y";
   "G2 of the BN254 curve. Points encoded as 64 byte X following by 64 byte Y";
   "G1 of the BLS 12-381 curve. Points encoded as 48 byte X following by 48 byte Y";
   "G2 of the BLS 12-381 curve. Points encoded as 96 byte X following by 48 byte Y" ]%string.

(* go_algorand.go:1833-1845 addExtra; neither text is ever empty where it is called *)
Definition add_extra (original extra : str) : str :=
  match original, extra with
  | [], _ => extra
  | _, [] => original
  | _, _ => original ++ (if Ascii.eqb (last original " "%char) "." then bs " " else bs ". ") ++ extra
  end.

(* the column doc of the tables; the kinds without one have empty notes (go_algorand.go:1139-1142, 1206-1209,
   1275-1278, 1347-1349) *)
Definition field_docs (k : imm) : list string :=
  match k with
  | ITxnField | IItxnField | ITxnaField => txn_docs
  | IGlobal => global_docs
  | IEcdsaCurve => ecdsa_docs
  | IAssetHolding => holding_docs
  | IAssetParams => params_docs
  | IAppParams => app_docs
  | IAcctParams => acct_docs
  | IEcGroup => ec_docs
  | _ => []
  end.
(* go_algorand.go:675-681, 971-978 and the other Note methods *)
Definition note (k : imm) (f : N) : str :=
  let doc := match nth_error (field_docs k) (N.to_nat f) with Some d => bs d | None => [] end in
  let app := match field_table k with
             | Some sp => match nth_error sp (N.to_nat f) with Some s => f_app s | None => false end
             | None => false
             end in
  match k with
  | ITxnField | IItxnField | ITxnaField => if app then add_extra doc (bs "Application mode only") else doc
  | IGlobal => if app then add_extra doc (bs "Application mode only.") else doc
  | _ => doc
  end.

(* process.go:2936-3100: fmt.Sprintf of the name, the number and the note.  The text of an opcode is
   left out. *)
Definition field_name (k : imm) (f : N) : str :=
  match field_table k with
  | Some sp => match nth_error sp (N.to_nat f) with Some s => f_name s | None => [] end
  | None => []
  end.
Definition hover_text (k : imm) (f : N) : str :=
  field_name k f ++ bs " = " ++ dec f ++ [c_cr; c_lf] ++ note k f.

(* lsp/lsp.go:1406-1425: an item for an operand; process.go:2780-2788, 3331 for labels *)
Record item := Item { it_label : str; it_detail : option str; it_docs : str }.
Definition items (r : presult) (a : op_arg) : list item :=
  match oa_type a with
  | ILabel =>
      map (fun s => Item (sy_name s)
        (match sy_sig s with Some (i, o) => Some (bs " in: " ++ dec i ++ bs ", out: " ++ dec o) | None => None end) (sy_docs s)) (r_syms r)
  | k =>
      map (fun v => Item (av_name v) (match av_value v with Some n => Some (bs " = " ++ dec n) | None => None end)
        (match av_value v with Some n => note k n | None => [] end)) (arg_vals r a)
  end.
