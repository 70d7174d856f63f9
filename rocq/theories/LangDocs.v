(* langspec.json: the types of the operands and results on the stack (Args and Returns) and the description
   (Doc) of every opcode with an immediate note.  The comment gives the line of the entry. *)
From Verif Require Import Base.

Record lang_doc := LangDoc { ld_name : string; ld_args : string; ld_returns : string; ld_doc : string }.

(* langspec.json *)
Definition lang_docs : list lang_doc := [
  LangDoc "ecdsa_verify" "BBBBB" "U"
    "for (data A, signature B, C and pubkey D, E) verify the signature of the data against the pubkey => {0 or 1}"; (* 61 *)
  LangDoc "ecdsa_pk_decompress" "B" "BB"
    "decompress pubkey A into components X, Y"; (* 74 *)
  LangDoc "ecdsa_pk_recover" "BUBB" "BB"
    "for (data A, recovery id B, signature C, D) recover a public key"; (* 87 *)
  LangDoc "intcblock" "" ""
    "prepare block of uint64 constants for use by intc"; (* 369 *)
  LangDoc "intc" "" "U"
    "Ith constant from intcblock"; (* 380 *)
  LangDoc "bytecblock" "" ""
    "prepare block of byte-array constants for use by bytec"; (* 431 *)
  LangDoc "bytec" "" "B"
    "Ith constant from bytecblock"; (* 442 *)
  LangDoc "arg" "" "B"
    "Nth LogicSig argument"; (* 493 *)
  LangDoc "txn" "" "."
    "field F of current transaction"; (* 544 *)
  LangDoc "global" "" "."
    "global field F"; (* 626 *)
  LangDoc "gtxn" "" "."
    "field F of the Tth transaction in the current group"; (* 655 *)
  LangDoc "load" "" "."
    "Ith scratch space value. All scratch spaces are 0 at program start."; (* 738 *)
  LangDoc "store" "." ""
    "store A to the Ith scratch space"; (* 749 *)
  LangDoc "txna" "" "."
    "Ith value of the array field F of the current transaction
`txna` can be called using `txn` with 2 immediates."; (* 760 *)
  LangDoc "gtxna" "" "."
    "Ith value of the array field F from the Tth transaction in the current group
`gtxna` can be called using `gtxn` with 3 immediates."; (* 781 *)
  LangDoc "gtxns" "U" "."
    "field F of the Ath transaction in the current group"; (* 802 *)
  LangDoc "gtxnsa" "U" "."
    "Ith value of the array field F from the Ath transaction in the current group
`gtxnsa` can be called using `gtxns` with 2 immediates."; (* 886 *)
  LangDoc "gload" "" "."
    "Ith scratch space value of the Tth transaction in the current group"; (* 908 *)
  LangDoc "gloads" "U" "."
    "Ith scratch space value of the Ath transaction in the current group"; (* 920 *)
  LangDoc "gaid" "" "U"
    "ID of the asset or application created in the Tth transaction of the current group"; (* 933 *)
  LangDoc "bnz" "U" ""
    "branch to TARGET if value A is not zero"; (* 978 *)
  LangDoc "bz" "U" ""
    "branch to TARGET if value A is zero"; (* 990 *)
  LangDoc "b" "" ""
    "branch unconditionally to TARGET"; (* 1002 *)
  LangDoc "bury" "." ""
    "replace the Nth value from the top of the stack with A. bury 0 fails."; (* 1033 *)
  LangDoc "popn" "" ""
    "remove N values from the top of the stack"; (* 1044 *)
  LangDoc "dupn" "." ""
    "duplicate A, N times"; (* 1054 *)
  LangDoc "dig" "." ".."
    "Nth value from the top of the stack. dig 0 is equivalent to dup"; (* 1097 *)
  LangDoc "cover" "." "."
    "remove top of stack, and place it deeper in the stack such that N elements are above it. Fails if stack depth <= N."; (* 1131 *)
  LangDoc "uncover" "." "."
    "remove the value at depth N in the stack and shift above items down so the Nth deep value is on top of the stack. Fails if stack depth <= N."; (* 1143 *)
  LangDoc "substring" "B" "B"
    "A range of bytes from A starting at S up to but not including E. If E < S, or either is larger than the array length, the program fails"; (* 1167 *)
  LangDoc "extract" "B" "B"
    "A range of bytes from A starting at S up to but not including S+L. If L is 0, then extract to the end of the string. If S or S+L is larger than the array length, the program fails"; (* 1236 *)
  LangDoc "replace2" "BB" "B"
    "Copy of A with the bytes starting at S replaced by the bytes of B. Fails if S+len(B) exceeds len(A)
`replace2` can be called using `replace` with 1 immediate."; (* 1292 *)
  LangDoc "base64_decode" "B" "B"
    "decode A which was base64-encoded using _encoding_ E. Fail if A is not base64 encoded with encoding E"; (* 1315 *)
  LangDoc "json_ref" "BB" "."
    "key B's value, of type R, from a [valid](jsonspec.md) utf-8 encoded json object A"; (* 1328 *)
  LangDoc "asset_holding_get" ".U" ".U"
    "X is field F from account A's holding of asset B. Y is 1 if A is opted into B, else 0"; (* 1456 *)
  LangDoc "asset_params_get" "U" ".U"
    "X is field F from asset A. Y is 1 if A exists, else 0"; (* 1474 *)
  LangDoc "app_params_get" "U" ".U"
    "X is field F from app A. Y is 1 if A exists, else 0"; (* 1502 *)
  LangDoc "acct_params_get" "." ".U"
    "X is field F from account A. Y is 1 if A owns positive algos, else 0"; (* 1527 *)
  LangDoc "pushbytes" "" "B"
    "immediate BYTES"; (* 1566 *)
  LangDoc "pushint" "" "U"
    "immediate UINT"; (* 1578 *)
  LangDoc "pushbytess" "" ""
    "push sequences of immediate byte arrays to stack (first byte array being deepest)"; (* 1590 *)
  LangDoc "pushints" "" ""
    "push sequence of immediate uints to stack in the order they appear (first uint being deepest)"; (* 1601 *)
  LangDoc "callsub" "" ""
    "branch unconditionally to TARGET, saving the next instruction on the call stack"; (* 1623 *)
  LangDoc "proto" "" ""
    "Prepare top call frame for a retsub that will assume A args and R return values."; (* 1644 *)
  LangDoc "frame_dig" "" "."
    "Nth (signed) value from the frame pointer."; (* 1655 *)
  LangDoc "frame_bury" "." ""
    "replace the Nth (signed) value from the frame pointer in the stack with A"; (* 1666 *)
  LangDoc "switch" "U" ""
    "branch to the Ath label. Continue at following instruction if index A exceeds the number of labels."; (* 1677 *)
  LangDoc "match" "" ""
    "given match cases from A[1] to A[N], branch to the Ith label where A[I] = B. Continue to the following instruction if no matches are found."; (* 1688 *)
  LangDoc "itxn_field" "." ""
    "set field F of the current inner transaction to A"; (* 1997 *)
  LangDoc "itxn" "" "."
    "field F of the last inner transaction"; (* 2073 *)
  LangDoc "itxna" "" "."
    "Ith value of the array field F of the last inner transaction"; (* 2155 *)
  LangDoc "gitxn" "" "."
    "field F of the Tth transaction in the last inner group submitted"; (* 2186 *)
  LangDoc "gitxna" "" "."
    "Ith value of the array field F from the Tth transaction in the last inner group submitted"; (* 2268 *)
  LangDoc "txnas" "U" "."
    "Ath value of the array field F of the current transaction"; (* 2367 *)
  LangDoc "gtxnas" "U" "."
    "Ath value of the array field F from the Tth transaction in the current group"; (* 2389 *)
  LangDoc "gtxnsas" "UU" "."
    "Bth value of the array field F from the Ath transaction in the current group"; (* 2411 *)
  LangDoc "itxnas" "U" "."
    "Ath value of the array field F of the last inner transaction"; (* 2455 *)
  LangDoc "gitxnas" "U" "."
    "Ath value of the array field F from the Tth transaction in the last inner group submitted"; (* 2467 *)
  LangDoc "vrf_verify" "BBB" "BU"
    "Verify the proof B of message A against pubkey C. Returns vrf output and verification flag."; (* 2479 *)
  LangDoc "block" "U" "."
    "field F of block A. Fail unless A falls between txn.LastValid-1002 and txn.FirstValid (exclusive)" (* 2492 *)
].
