(* The first AVM version of each opcode, from the published opcode reference (TEAL_opcodes_v1.md to
   TEAL_opcodes_v10.md), not from the code: by version, the opcodes that exist in both modes, those
   of smart contracts and those of logic signatures.  The pseudo instructions byte, int, method and
   addr count as version 1; replace stands for replace2 and replace3. *)
From Verif Require Import Base.

Definition avm_both : list (N * list string) :=
  [ (1%N, ["byte"; "int"; "method"; "addr"; "err"; "sha256"; "keccak256"; "sha512_256"; "+"; "-"; "/"; "*"; "<"; ">";
         "<="; ">="; "&&"; "||"; "=="; "!="; "!"; "len"; "itob"; "btoi"; "%"; "|"; "&"; "^"; "~"; "mulw";
         "intcblock"; "intc"; "intc_0"; "intc_1"; "intc_2"; "intc_3"; "bytecblock"; "bytec"; "bytec_0"; "bytec_1";
         "bytec_2"; "bytec_3"; "txn"; "global"; "gtxn"; "load"; "store"; "bnz"; "pop"; "dup"]);
    (2%N, ["addw"; "txna"; "gtxna"; "bz"; "b"; "return"; "dup2"; "concat"; "substring"; "substring3"]);
    (3%N, ["gtxns"; "gtxnsa"; "assert"; "dig"; "swap"; "select"; "getbit"; "setbit"; "getbyte"; "setbyte";
         "pushbytes"; "pushint"]);
    (4%N, ["divmodw"; "callsub"; "retsub"; "shl"; "shr"; "sqrt"; "bitlen"; "exp"; "expw"; "b+"; "b-"; "b/"; "b*";
         "b<"; "b>"; "b<="; "b>="; "b=="; "b!="; "b%"; "b|"; "b&"; "b^"; "b~"; "bzero"]);
    (5%N, ["ecdsa_verify"; "ecdsa_pk_decompress"; "ecdsa_pk_recover"; "loads"; "stores"; "cover"; "uncover";
         "extract"; "extract3"; "extract_uint16"; "extract_uint32"; "extract_uint64"; "txnas"; "gtxnas"; "gtxnsas"]);
    (6%N, ["bsqrt"; "divw"]);
    (7%N, ["replace"; "replace2"; "replace3"; "base64_decode"; "json_ref"; "ed25519verify_bare"; "sha3_256";
         "vrf_verify"; "block"]);
    (8%N, ["bury"; "popn"; "dupn"; "pushbytess"; "pushints"; "proto"; "frame_dig"; "frame_bury"; "switch"; "match"]) ].
Definition avm_app : list (N * list string) :=
  [ (2%N, ["balance"; "app_opted_in"; "app_local_get"; "app_local_get_ex"; "app_global_get"; "app_global_get_ex";
         "app_local_put"; "app_global_put"; "app_local_del"; "app_global_del"; "asset_holding_get";
         "asset_params_get"]);
    (3%N, ["min_balance"]);
    (4%N, ["gload"; "gloads"; "gaid"; "gaids"]);
    (5%N, ["app_params_get"; "log"; "itxn_begin"; "itxn_field"; "itxn_submit"; "itxn"; "itxna"; "ed25519verify"]);
    (6%N, ["acct_params_get"; "itxn_next"; "gitxn"; "gitxna"; "gloadss"; "itxnas"; "gitxnas"]);
    (8%N, ["box_create"; "box_extract"; "box_replace"; "box_del"; "box_len"; "box_get"; "box_put"]) ].
Definition avm_sig : list (N * list string) :=
  [ (1%N, ["arg"; "arg_0"; "arg_1"; "arg_2"; "arg_3"; "ed25519verify"]);
    (5%N, ["args"]) ].

(* 0: not available *)
Fixpoint first_version (t : list (N * list string)) (n : string) : N :=
  match t with
  | [] => 0%N
  | (v, ns) :: r => if existsb (String.eqb n) ns then v else first_version r n
  end.
Definition avm_version_app (n : string) : N := first_version (avm_both ++ avm_app) n.
Definition avm_version_sig (n : string) : N := first_version (avm_both ++ avm_sig) n.
