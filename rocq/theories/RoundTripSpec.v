(* Printing and reading again (C13): which instructions survive it. *)
From Verif Require Import Base LexSpec Lexer Expr Fields Strconv Literals Codec OpTable Print Process ProcessSpec.

(* a text that is one word of a line: no blank, no line end, not the start of a string or comment *)
Definition delim (c : ascii) : bool :=
  Ascii.eqb c c_space || Ascii.eqb c c_tab || Ascii.eqb c c_lf || Ascii.eqb c c_cr.
Definition is_word (w : str) : bool :=
  match w with
  | [] => false
  | c :: r =>
      forallb (fun x => negb (delim x)) w && negb (Ascii.eqb c c_quote) &&
      negb (Ascii.eqb c c_slash && match r with d :: _ => Ascii.eqb d c_slash | [] => false end)
  end.

(* a text that is one string of a line: quotes around it and none inside *)
Definition is_string (w : str) : bool :=
  match w with
  | c :: r =>
      Ascii.eqb c c_quote &&
      match rev r with
      | d :: m => Ascii.eqb d c_quote && negb (existsb (fun x => Ascii.eqb x c_quote) m) &&
                  match m with x :: _ => negb (Ascii.eqb x c_bslash) | [] => true end
      | [] => false
      end
  | [] => false
  end.
(* a text that is read as one token with this text *)
Definition one_token (w : str) : bool := is_word w || is_string w.

(* a field with a name that this version knows *)
Definition named (sp : list field_spec) (v f : N) : bool :=
  match nth_error sp (N.to_nat f) with Some x => (f_version x <=? v)%N | None => false end.
Definition named_array (f : N) : bool :=
  match nth_error txnFieldSpecs (N.to_nat f) with Some x => f_array x | None => false end.
Definition named_itxn (v f : N) : bool :=
  match nth_error txnFieldSpecs (N.to_nat f) with
  | Some x => negb (f_itx x =? 0)%N && (f_itx x <=? v)%N
  | None => false
  end.

(* a byte constant that can be written in base 64 as one word *)
Definition plain_bytes (w : str) : bool := is_word (b64_encode w).

(* the instructions whose text does not read back, for version v *)
Definition exceptional (v : N) (e : expr) : bool :=
  match e with
  (* types that Process does not return: printed as extract_unt64, or read as the type it does return *)
  | Op0 (ExtractUint64Expr | BzeroExpr | BgteqExpr | BandExpr) => true
  | Replace2Expr _ => true                       (* printed as repace2 *)
  | PushIntsExpr _ => true                       (* printed as pushbytess *)
  | MethodExpr _ => true                         (* quoted twice *)
  | CommentExpr _ => true                        (* read as an empty line *)
  | GtxnasExpr f t => negb (f =? t)%N            (* operands printed in the wrong order *)
  | PragmaExpr n => (n =? 0)%N                   (* version 256, say *)
  | ByteExpr b _ | PushBytesExpr b _ => negb (plain_bytes b)
  | PushBytessExpr bs => negb (forallb plain_bytes bs)
  | TxnExpr f | GtxnExpr _ f | GtxnsExpr f | ItxnExpr f | GitxnExpr _ f => negb (named txnFieldSpecs v f)
  | TxnaExpr f _ | GtxnaExpr _ f _ | GtxnsaExpr f _ | GitxnaExpr _ f _ | TxnasExpr f | GtxnsasExpr f
  | ItxnasExpr f | GitxnasExpr _ f => negb (named_array f)
  | ItxnFieldExpr f => negb (named_itxn v f)
  | GlobalExpr f => negb (named globalFieldSpecs v f)
  | AssetParamsGetExpr f => negb (named assetParamsFieldSpecs v f)
  | AssetHoldingGetExpr f => negb (named assetHoldingFieldSpecs v f)
  | AppParamsGetExpr f => negb (named appParamsFieldSpecs v f)
  | AcctParamsGetExpr f => negb (named acctParamsFieldSpecs v f)
  | BlockExpr f => negb (named blockFieldSpecs v f)
  | VrfVerifyExpr f => negb (named vrfStandardSpecs v f)
  | LabelExpr n => negb (is_word (n ++ [":"%char]))
  | BnzExpr l | BzExpr l | BExpr l | CallSubExpr l | AddrExpr l => negb (one_token l)
  | SwitchExpr ls | MatchExpr ls => negb (forallb one_token ls)
  | _ => false
  end.

(* every immediate fits its place *)
Definition byte_sized (n : N) : bool := (n <? 256)%N.
Definition word_sized (n : N) : bool := (n <? 18446744073709551616)%N.
Definition immediates_fit (en : env) (e : expr) : bool :=
  match e with
  | EcdsaVerifyExpr n | EcdsaPkDecompressExpr n | EcdsaPkRecoverExpr n | IntcExpr n | BytecExpr n | ArgExpr n
  | LoadExpr n | StoreExpr n | BuryExpr n | PopNExpr n | DupNExpr n | Replace2Expr n | Base64DecodeExpr n
  | JsonRefExpr n | EcAddExpr n | EcScalarMul n | EcPairingCheckExpr n | EcMultiExpExpr n | EcSubgroupCheckExpr n
  | EcMapToExpr n | CoverExpr n | UncoverExpr n | GloadsExpr n | DigExpr n | GaidExpr n | PragmaExpr n
  | TxnExpr n | GlobalExpr n | GtxnsExpr n | ItxnasExpr n | AssetParamsGetExpr n | ItxnExpr n | ItxnFieldExpr n
  | TxnasExpr n | AppParamsGetExpr n | AcctParamsGetExpr n | BlockExpr n | VrfVerifyExpr n | AssetHoldingGetExpr n
  | GtxnsasExpr n => byte_sized n
  | TxnaExpr n m | GtxnExpr n m | ProtoExpr n m | ItxnaExpr n m | GtxnasExpr n m | GitxnasExpr n m | GtxnsaExpr n m
  | GloadExpr n m | ExtractExpr n m | GitxnExpr n m | SubstringExpr n m => byte_sized n && byte_sized m
  | GtxnaExpr n m k | GitxnaExpr n m k => byte_sized n && byte_sized m && byte_sized k
  | IntcBlockExpr ns | PushIntsExpr ns => forallb word_sized ns
  | PushIntExpr n | IntExpr n => word_sized n
  | FrameBuryExpr z | FrameDigExpr z => (-128 <=? z)%Z && (z <? 128)%Z
  | ByteExpr _ f | PushBytesExpr _ f => (f =? 0)%N
  | AddrExpr a => addr_ok en a
  | LabelExpr n => match n with [] => false | _ => true end
  | _ => true
  end.

(* the words of the printed text *)
Definition words (e : expr) : list str :=
  match e with
  | Op0 o => [print_op0 o]
  | ErrExpr => [bs "err"] | RetSubExpr => [bs "retsub"] | ReturnExpr => [bs "return"]
  | EmptyExpr => []
  | EcdsaVerifyExpr n => [bs "ecdsa_verify"; dec n]
  | EcdsaPkDecompressExpr n => [bs "ecdsa_pk_decompress"; dec n]
  | EcdsaPkRecoverExpr n => [bs "ecdsa_pk_recover"; dec n]
  | IntcBlockExpr ns => bs "intcblock" :: map dec ns
  | IntcExpr n => [bs "intc"; dec n]
  | BytecBlockExpr ws => bs "bytecblock" :: map (fun v => bs "0x" ++ hex_encode v) ws
  | BytecExpr n => [bs "bytec"; dec n]
  | ArgExpr n => [bs "arg"; dec n]
  | TxnExpr f => [bs "txn"; txt_TxnField f]
  | GlobalExpr f => [bs "global"; txt_GlobalField f]
  | LoadExpr n => [bs "load"; dec n]
  | StoreExpr n => [bs "store"; dec n]
  | TxnaExpr f i => [bs "txna"; txt_TxnField f; dec i]
  | GtxnExpr t f => [bs "gtxn"; dec t; txt_TxnField f]
  | GtxnsExpr f => [bs "gtxns"; txt_TxnField f]
  | ProtoExpr a r => [bs "proto"; dec a; dec r]
  | LabelExpr n => [n ++ [":"%char]]
  | PushBytesExpr w _ => [bs "pushbytes"; bs "b64"; b64_encode w]
  | PushIntExpr n => [bs "pushint"; dec n]
  | IntExpr n => [bs "int"; dec n]
  | ByteExpr w _ => [bs "byte"; bs "b64"; b64_encode w]
  | PragmaExpr n => [bs "#pragma"; bs "version"; dec n]
  | BnzExpr l => [bs "bnz"; l] | BzExpr l => [bs "bz"; l] | BExpr l => [bs "b"; l]
  | SwitchExpr ls => bs "switch" :: ls
  | MatchExpr ls => bs "match" :: ls
  | CallSubExpr l => [bs "callsub"; l]
  | BuryExpr n => [bs "bury"; dec n]
  | PopNExpr n => [bs "popn"; dec n]
  | DupNExpr n => [bs "dupn"; dec n]
  | Base64DecodeExpr n => [bs "base64_decode"; dec n]
  | JsonRefExpr n => [bs "json_ref"; dec n]
  | ItxnaExpr f i => [bs "itxna"; dec f; dec i]
  | GtxnasExpr f i => [bs "gtxnas"; dec f; dec i]
  | ItxnasExpr f => [bs "itxnas"; txt_TxnField f]
  | GitxnasExpr i f => [bs "gitxnas"; dec i; txt_TxnField f]
  | AddrExpr a => [bs "addr"; a]
  | PushBytessExpr ws => bs "pushbytess" :: flat_map (fun w => [bs "b64"; b64_encode w]) ws
  | EcAddExpr n => [bs "ec_add"; dec n]
  | EcScalarMul n => [bs "ec_scalar_mul"; dec n]
  | EcPairingCheckExpr n => [bs "ec_pairing_check"; dec n]
  | EcMultiExpExpr n => [bs "ec_multi_exp"; dec n]
  | EcSubgroupCheckExpr n => [bs "ec_subgroup_check"; dec n]
  | EcMapToExpr n => [bs "ec_map_to"; dec n]
  | FrameBuryExpr z => [bs "frame_bury"; dec_z z]
  | FrameDigExpr z => [bs "frame_dig"; dec_z z]
  | CoverExpr n => [bs "cover"; dec n]
  | UncoverExpr n => [bs "uncover"; dec n]
  | AssetParamsGetExpr f => [bs "asset_params_get"; txt_AssetParamsField f]
  | ItxnExpr f => [bs "itxn"; txt_TxnField f]
  | ItxnFieldExpr f => [bs "itxn_field"; txt_TxnField f]
  | GtxnaExpr t f i => [bs "gtxna"; dec t; txt_TxnField f; dec i]
  | GtxnsaExpr f i => [bs "gtxnsa"; txt_TxnField f; dec i]
  | GloadExpr t i => [bs "gload"; dec t; dec i]
  | GloadsExpr n => [bs "gloads"; dec n]
  | TxnasExpr f => [bs "txnas"; txt_TxnField f]
  | ExtractExpr a b => [bs "extract"; dec a; dec b]
  | AppParamsGetExpr f => [bs "app_params_get"; txt_AppParamsField f]
  | AcctParamsGetExpr f => [bs "acct_params_get"; txt_AcctParamsField f]
  | BlockExpr f => [bs "block"; txt_BlockField f]
  | VrfVerifyExpr f => [bs "vrf_verify"; txt_VrfStandard f]
  | AssetHoldingGetExpr f => [bs "asset_holding_get"; txt_AssetHoldingField f]
  | GitxnExpr t f => [bs "gitxn"; dec t; txt_TxnField f]
  | GtxnsasExpr f => [bs "gtxnsas"; txt_TxnField f]
  | DigExpr n => [bs "dig"; dec n]
  | GaidExpr n => [bs "gaid"; dec n]
  | SubstringExpr a b => [bs "substring"; dec a; dec b]
  | GitxnaExpr t f i => [bs "gitxna"; dec t; txt_TxnField f; dec i]
  | Replace2Expr _ | PushIntsExpr _ | MethodExpr _ | CommentExpr _ => []
  end.

(* the version after an instruction *)
Definition next_version (v : N) (e : expr) : N := match e with PragmaExpr n => n | _ => v end.
(* a listing that starts at version v and survives *)
Fixpoint all_survive (en : env) (v : N) (l : listing) : bool :=
  match l with
  | [] => true
  | e :: r => immediates_fit en e && negb (exceptional v e) && all_survive en (next_version v e) r
  end.
