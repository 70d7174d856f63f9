(* process.go: from the source text to the listing, the diagnostics and the symbol tables.

   Simplifications.  The text of error messages is replaced by a reason.  A panic(recoverable{})
   is the outcome Recover, any other panic is Crash.  base32DecodeAnyPadding
   (go_algorand.go:377-388) and types.DecodeAddress (a base 32 text with a checksum, from a
   dependency that is not in the repository) are parameters: the theorems hold for every choice.
   refc (map[string]int) is the list of the counted names.  c.line (process.go:3179) is written
   and never read; it is left out. *)
From Verif Require Import Base LexSpec Lexer Expr Linter Fields Strconv Literals Codec OpTable.

Record env := Env {
  b32_decode : str -> option str;   (* base32DecodeAnyPadding *)
  addr_ok : str -> bool             (* types.DecodeAddress succeeds *)
}.

(* ------------------------------------------------------------------------------------------ *)
(* docContext: the table Ops (process.go:1451-1548) *)

(* process.go:290-295 opItemArg; NewOpArgType has one value per reading method, so the model uses
   imm for it *)
Record op_arg := OpArg { oa_name : string; oa_type : imm; oa_array : bool; oa_optional : bool }.
(* process.go:548-553 docContext *)
Record doc := Doc { dc_args : list op_arg; dc_sig : N; dc_app : N; dc_optional : bool }.
(* process.go:555-563 *)
Definition doc_arg (a : op_arg) (d : doc) : doc :=
  let a' := if dc_optional d then OpArg (oa_name a) (oa_type a) (oa_array a) true else a in
  Doc (dc_args d ++ [a']) (dc_sig d) (dc_app d) (dc_optional d || oa_optional a).

(* process.go:585-833: the zero values docContext returns *)
Definition zero_val (k : imm) : imm_val k :=
  match k with
  | IInt8 => 0%Z
  | IBytes | ILabel | IAddr | ISignature => []
  | _ => 0%N
  end.

(* process.go:565-833 *)
Fixpoint doc_run (p : prog) (d : doc) : doc :=
  match p with
  | Emit _ => d
  | MinVersion v p => doc_run p (Doc (dc_args d) v v (dc_optional d))
  | ModeMinVersion m v p =>
      doc_run p (match m with
                 | ModeSig => Doc (dc_args d) v (dc_app d) (dc_optional d)
                 | ModeApp => Doc (dc_args d) (dc_sig d) v (dc_optional d)
                 | ModeNone => d
                 end)
  | Read k n f => doc_run (f (zero_val k)) (doc_arg (OpArg n k false false) d)
  | ReadMaybe n f => doc_run (f (Some 0%N)) (doc_arg (OpArg n IUint8 false true) d)
  | ReadInts n f => doc_run (f []) (doc_arg (OpArg n IInt true false) d)
  | ReadBytess n f => doc_run (f []) (doc_arg (OpArg n IBytes true false) d)
  | ReadLabels n f => doc_run (f []) (doc_arg (OpArg n ILabel true false) d)
  end.
(* process.go:1456-1463 *)
Definition doc_of (p : prog) : doc := doc_run p (Doc [] 1 1 false).

(* process.go:1446-1449 Ops.Get, 1451-1548: later entries of opsList replace earlier ones *)
Definition ops_get (name : str) : option prog :=
  match find (fun x => seqb (bs (fst x)) name) (rev ops_list) with
  | Some (_, p) => Some p
  | None => None
  end.

(* ------------------------------------------------------------------------------------------ *)
(* parserContext *)

(* parser.go:9-15 parseError: why it was reported (process.go:933, 951, 956, 3210, 3287, 3291 and the readers) *)
Inductive reason : Set :=
| RMissing (name : string)   (* missing arg *)
| RValue                     (* the argument is not what is expected *)
| RTooMany                   (* too many values *)
| RUnknownOp (text : str)    (* unknown opcode *)
| RLabelName                 (* missing label name *)
| RPragmaName (text : str)   (* unexpected #pragma *)
| RPragmaValue.              (* version must be at least 1 *)

(* the implementations of Diagnostic (diag.go:25-34): lexer.go:127-132, parser.go:9-15, 41-51 *)
Inductive diag_kind : Set :=
| KLex (m : lexmsg)
| KParse (r : reason)
| KMode (m : mode)           (* opcode not available in the current mode *)
| KVersion (min current : N) (* opcode requires version >= min *)
| KLint (e : line_error).

(* diag.go:25-34 *)
Record diagnostic := Diag { dg_line : nat; dg_b : nat; dg_e : nat; dg_kind : diag_kind }.

(* parser.go:33-39, 69-75, lexer.go:150-156, process.go:3260, 3271, 3311 *)
Definition dg_rule (d : diagnostic) : str :=
  match dg_kind d with
  | KLex _ => "SYNTAX"
  | KParse _ => "PARSE"
  | KMode _ => "LINT0007"
  | KVersion _ _ => "LINT0008"
  | KLint e => le_rule e
  end.
(* parser.go:33-35, 69-71, lexer.go:150-152; process.go:3259, 3270, 3310 *)
Definition dg_severity (d : diagnostic) : nat :=
  match dg_kind d with KLint e => le_severity e | _ => 1 end.

(* symbols.go:19-26 labelSymbol; sig is filled in at the end *)
Record symbol := Symbol {
  sy_name : str; sy_l : nat; sy_b : nat; sy_e : nat; sy_docs : str; sy_sig : option (N * N) }.

(* process.go:2528-2534 RequiredVersion *)
Record required := Required { rq_line : nat; rq_b : nat; rq_e : nat; rq_version : N }.

(* process.go:859-881 parserContext, and the locals lts, ops, lsyms, vers of Process (3173-3176) *)
Record pctx := Pctx {
  p_mode : mode; p_version : N; p_ops : listing;
  p_ts : list token; p_i : nat;                         (* args *)
  p_diag : list diagnostic;
  p_nums : list token; p_strs : list token; p_keys : list token; p_mcrs : list token; p_refs : list token;
  p_vtok : option token;
  p_protos : list (str * (N * N));                      (* the last entry of a name comes first *)
  p_refc : list str;
  p_label : option str;
  p_comments : list str;
  p_optoks : list token; p_syms : list symbol; p_vers : list required; p_lts : list (list token)
}.

(* assignments and appends to the fields of parserContext and to these locals, one definition each *)
Definition set_mode x c := Pctx x (p_version c) (p_ops c) (p_ts c) (p_i c) (p_diag c) (p_nums c) (p_strs c) (p_keys c) (p_mcrs c) (p_refs c) (p_vtok c) (p_protos c) (p_refc c) (p_label c) (p_comments c) (p_optoks c) (p_syms c) (p_vers c) (p_lts c).
Definition set_version x c := Pctx (p_mode c) x (p_ops c) (p_ts c) (p_i c) (p_diag c) (p_nums c) (p_strs c) (p_keys c) (p_mcrs c) (p_refs c) (p_vtok c) (p_protos c) (p_refc c) (p_label c) (p_comments c) (p_optoks c) (p_syms c) (p_vers c) (p_lts c).
Definition set_i x c := Pctx (p_mode c) (p_version c) (p_ops c) (p_ts c) x (p_diag c) (p_nums c) (p_strs c) (p_keys c) (p_mcrs c) (p_refs c) (p_vtok c) (p_protos c) (p_refc c) (p_label c) (p_comments c) (p_optoks c) (p_syms c) (p_vers c) (p_lts c).
Definition set_args ts c := Pctx (p_mode c) (p_version c) (p_ops c) ts 0 (p_diag c) (p_nums c) (p_strs c) (p_keys c) (p_mcrs c) (p_refs c) (p_vtok c) (p_protos c) (p_refc c) (p_label c) (p_comments c) (p_optoks c) (p_syms c) (p_vers c) (p_lts c).
Definition add_diag d c := Pctx (p_mode c) (p_version c) (p_ops c) (p_ts c) (p_i c) (p_diag c ++ [d]) (p_nums c) (p_strs c) (p_keys c) (p_mcrs c) (p_refs c) (p_vtok c) (p_protos c) (p_refc c) (p_label c) (p_comments c) (p_optoks c) (p_syms c) (p_vers c) (p_lts c).
Definition add_num t c := Pctx (p_mode c) (p_version c) (p_ops c) (p_ts c) (p_i c) (p_diag c) (p_nums c ++ [t]) (p_strs c) (p_keys c) (p_mcrs c) (p_refs c) (p_vtok c) (p_protos c) (p_refc c) (p_label c) (p_comments c) (p_optoks c) (p_syms c) (p_vers c) (p_lts c).
Definition add_str t c := Pctx (p_mode c) (p_version c) (p_ops c) (p_ts c) (p_i c) (p_diag c) (p_nums c) (p_strs c ++ [t]) (p_keys c) (p_mcrs c) (p_refs c) (p_vtok c) (p_protos c) (p_refc c) (p_label c) (p_comments c) (p_optoks c) (p_syms c) (p_vers c) (p_lts c).
Definition add_key t c := Pctx (p_mode c) (p_version c) (p_ops c) (p_ts c) (p_i c) (p_diag c) (p_nums c) (p_strs c) (p_keys c ++ [t]) (p_mcrs c) (p_refs c) (p_vtok c) (p_protos c) (p_refc c) (p_label c) (p_comments c) (p_optoks c) (p_syms c) (p_vers c) (p_lts c).
Definition add_mcr t c := Pctx (p_mode c) (p_version c) (p_ops c) (p_ts c) (p_i c) (p_diag c) (p_nums c) (p_strs c) (p_keys c) (p_mcrs c ++ [t]) (p_refs c) (p_vtok c) (p_protos c) (p_refc c) (p_label c) (p_comments c) (p_optoks c) (p_syms c) (p_vers c) (p_lts c).
Definition add_ref t c := Pctx (p_mode c) (p_version c) (p_ops c) (p_ts c) (p_i c) (p_diag c) (p_nums c) (p_strs c) (p_keys c) (p_mcrs c) (p_refs c ++ [t]) (p_vtok c) (p_protos c) (p_refc c) (p_label c) (p_comments c) (p_optoks c) (p_syms c) (p_vers c) (p_lts c).
Definition set_vtok t c := Pctx (p_mode c) (p_version c) (p_ops c) (p_ts c) (p_i c) (p_diag c) (p_nums c) (p_strs c) (p_keys c) (p_mcrs c) (p_refs c) (Some t) (p_protos c) (p_refc c) (p_label c) (p_comments c) (p_optoks c) (p_syms c) (p_vers c) (p_lts c).
Definition set_comments x c := Pctx (p_mode c) (p_version c) (p_ops c) (p_ts c) (p_i c) (p_diag c) (p_nums c) (p_strs c) (p_keys c) (p_mcrs c) (p_refs c) (p_vtok c) (p_protos c) (p_refc c) (p_label c) x (p_optoks c) (p_syms c) (p_vers c) (p_lts c).
Definition add_optok t c := Pctx (p_mode c) (p_version c) (p_ops c) (p_ts c) (p_i c) (p_diag c) (p_nums c) (p_strs c) (p_keys c) (p_mcrs c) (p_refs c) (p_vtok c) (p_protos c) (p_refc c) (p_label c) (p_comments c) (p_optoks c ++ [t]) (p_syms c) (p_vers c) (p_lts c).
Definition add_sym s c := Pctx (p_mode c) (p_version c) (p_ops c) (p_ts c) (p_i c) (p_diag c) (p_nums c) (p_strs c) (p_keys c) (p_mcrs c) (p_refs c) (p_vtok c) (p_protos c) (p_refc c) (p_label c) (p_comments c) (p_optoks c) (p_syms c ++ [s]) (p_vers c) (p_lts c).
Definition add_ver r c := Pctx (p_mode c) (p_version c) (p_ops c) (p_ts c) (p_i c) (p_diag c) (p_nums c) (p_strs c) (p_keys c) (p_mcrs c) (p_refs c) (p_vtok c) (p_protos c) (p_refc c) (p_label c) (p_comments c) (p_optoks c) (p_syms c) (p_vers c ++ [r]) (p_lts c).
Definition add_lts l c := Pctx (p_mode c) (p_version c) (p_ops c) (p_ts c) (p_i c) (p_diag c) (p_nums c) (p_strs c) (p_keys c) (p_mcrs c) (p_refs c) (p_vtok c) (p_protos c) (p_refc c) (p_label c) (p_comments c) (p_optoks c) (p_syms c) (p_vers c) (p_lts c ++ [l]).

(* process.go:887-905 *)
Definition emit_op (e : expr) (c : pctx) : pctx :=
  Pctx (p_mode c) (p_version c) (p_ops c ++ [e]) (p_ts c) (p_i c) (p_diag c) (p_nums c) (p_strs c)
    (p_keys c) (p_mcrs c) (p_refs c) (p_vtok c)
    (match e, p_label c with ProtoExpr a r, Some n => (n, (a, r)) :: p_protos c | _, _ => p_protos c end)
    (p_refc c ++ uses e)
    (match e with LabelExpr n => Some n | _ => p_label c end)
    (p_comments c) (p_optoks c) (p_syms c) (p_vers c) (p_lts c).

(* outcomes of a function that may panic (process.go:914-917, 3182-3191); no counterpart in the code *)
Inductive out (A : Type) : Type :=
| OK (a : A) (c : pctx)
| Recover (c : pctx)
| Crash
| Fuel.
Arguments OK {A}. Arguments Recover {A}. Arguments Crash {A}. Arguments Fuel {A}.
(* sequencing of such functions *)
Definition P (A : Type) := pctx -> out A.
Definition pret {A} (a : A) : P A := fun c => OK a c.
Definition pbind {A B} (m : P A) (f : A -> P B) : P B :=
  fun c => match m c with
           | OK a c' => f a c'
           | Recover c' => Recover c'
           | Crash => Crash
           | Fuel => Fuel
           end.
Notation "x <~ m ; f" := (pbind m (fun x => f)) (at level 61, m at next level, right associativity).
Notation "m ;~ f" := (pbind m (fun _ => f)) (at level 61, right associativity).
Definition pmod (f : pctx -> pctx) : P unit := fun c => OK tt (f c).
Definition get : P pctx := fun c => OK c c.
Definition of_res {A} (r : res A) : P A :=
  fun c => match r with Ret a => OK a c | Panic => Crash | OutOfFuel => Fuel end.

(* Token{} (parser.go:386, 394); its type is the empty string, which no code looks at *)
Definition zero_tok : token := Token [] 0 0 0 TokEol.

(* parser.go:372-399 *)
Definition arg_scan : P bool :=
  fun c =>
    if p_i c <=? length (p_ts c)
    then OK (S (p_i c) <=? length (p_ts c)) (set_i (S (p_i c)) c)
    else OK false c.
(* a.ts[a.i-2] and a.ts[a.i-1]; the index is in range because i never exceeds len(ts)+1 *)
Definition arg_prev (c : pctx) : res token :=
  if 1 <? p_i c then index (p_ts c) (p_i c - 2) else Ret zero_tok.
Definition arg_curr (c : pctx) : res token :=
  if (0 <? p_i c) && (p_i c <=? length (p_ts c)) then index (p_ts c) (p_i c - 1) else Ret zero_tok.
Definition curr : P token := fun c => of_res (arg_curr c) c.
Definition prev : P token := fun c => of_res (arg_prev c) c.
Definition text : P str := t <~ curr ; pret (tok_v t).

(* process.go:914-929 *)
Definition fail_tok {A} (t : token) (r : reason) : P A :=
  fun c => Recover (add_diag (Diag (tok_l t) (tok_b t) (tok_e t) (KParse r)) c).
Definition fail_curr {A} (r : reason) : P A := t <~ curr ; fail_tok t r.
Definition fail_prev {A} (r : reason) : P A := t <~ prev ; fail_tok t r.

(* process.go:931-935 *)
Definition must_read_arg (name : string) : P unit :=
  ok <~ arg_scan ; if ok then pret tt else fail_prev (RMissing name).

(* c.nums = append(c.nums, c.args.Curr()) and alike (process.go:1163, 972, 1306, 939, 1085) *)
Definition num_curr : P unit := t <~ curr ; pmod (add_num t).
Definition str_curr : P unit := t <~ curr ; pmod (add_str t).
Definition key_curr : P unit := t <~ curr ; pmod (add_key t).
Definition mcr_curr : P unit := t <~ curr ; pmod (add_mcr t).
Definition ref_curr : P unit := t <~ curr ; pmod (add_ref t).

(* a conversion with an error result, followed by c.failCurr(err) (process.go:1158-1161 and alike) *)
Definition or_fail {A} (o : option A) : P A :=
  match o with Some a => pret a | None => fail_curr RValue end.

(* parser.go:95-365: a field by name, subject to its version, or by number; the flag says by name *)
Definition read_field (specs : list field_spec) (v : N) (s : str) : option (N * bool) :=
  match spec_by_name specs s with
  | Some (f, sp) => if (v <? f_version sp)%N then None else Some (f, true)
  | None => match read_uint8 s with Some n => Some (n, false) | None => None end
  end.
(* parser.go:284-318 readTxnField, in its three contexts *)
Definition read_txn_field (k : imm) (v : N) (s : str) : option (N * bool) :=
  match spec_by_name txnFieldSpecs s with
  | Some (f, sp) =>
      match k with
      | ITxnaField => if f_array sp then Some (f, true) else None
      | IItxnField =>
          if (f_itx sp =? 0)%N then None else if (v <? f_itx sp)%N then None else Some (f, true)
      | _ => if (v <? f_version sp)%N then None else Some (f, true)
      end
  | None => match read_uint8 s with Some n => Some (n, false) | None => None end
  end.

(* process.go:1001-1080, 1092-1103, 1143-1154, 1202-1259, 1350-1360: put the token into strs or nums *)
Definition classified (o : option (N * bool)) : P N :=
  x <~ or_fail o ; (if snd x then str_curr else num_curr) ;~ pret (fst x).

(* go_algorand.go:856-894, 1816-1829 txnTypeMap (short names and descriptions) and onCompletionMap;
   parser.go:329-346 *)
Definition txn_type_map : list (string * N) :=
  [ ("unknown", 0); ("pay", 1); ("keyreg", 2); ("acfg", 3); ("axfer", 4); ("afrz", 5); ("appl", 6);
    ("Unknown type. Invalid transaction", 0); ("Payment", 1); ("KeyRegistration", 2);
    ("AssetConfig", 3); ("AssetTransfer", 4); ("AssetFreeze", 5); ("ApplicationCall", 6) ]%N.
Definition on_completion_map : list (string * N) :=
  [ ("NoOp", 0); ("OptIn", 1); ("CloseOut", 2); ("ClearState", 3); ("UpdateApplication", 4);
    ("DeleteApplication", 5) ]%N.
Definition lookup (m : list (string * N)) (s : str) : option N :=
  match find (fun x => seqb (bs (fst x)) s) m with Some (_, n) => Some n | None => None end.
Definition read_const_int (s : str) : option N :=
  match lookup txn_type_map s with
  | Some n => Some n
  | None => match lookup on_completion_map s with Some n => Some n | None => parse_uint s 0 64 end
  end.

(* strings.HasPrefix, strings.HasSuffix (process.go:1265, 3206) *)
Definition has_prefix (p : string) (s : str) : bool := seqb (firstn (length (bs p)) s) (bs p).
Definition has_suffix (p : string) (s : str) : bool :=
  (length (bs p) <=? length s) && seqb (skipn (length s - length (bs p)) s) (bs p).
(* strings.IndexRune for an ASCII character (process.go:1266, 1271) *)
Fixpoint index_of (x : ascii) (s : str) : option nat :=
  match s with
  | [] => None
  | c :: r => if Ascii.eqb c x then Some 0 else match index_of x r with Some n => Some (S n) | None => None end
  end.

(* arg[open+1 : close], process.go:1266-1278, 1282-1293 *)
Definition in_parens (arg : str) (decode : str -> option str) : P str :=
  match index_of ")" arg with
  | None => fail_curr RValue
  | Some close =>
      let open := match index_of "(" arg with Some n => n | None => 0 end in
      inner <~ of_res (slice arg (open + 1) close) ;
      v <~ or_fail (decode inner) ;
      str_curr ;~ pret v
  end.

(* process.go:1262-1345 parseBytes, with mustRead (1397-1400) *)
Definition parse_bytes (en : env) : P str :=
  arg <~ text ;
  if has_prefix "base32(" arg || has_prefix "b32(" arg then in_parens arg (b32_decode en)
  else if has_prefix "base64(" arg || has_prefix "b64(" arg then in_parens arg b64_decode
  else if has_prefix "0x" arg then
    v <~ or_fail (hex_decode (skipn 2 arg)) ; str_curr ;~ pret v
  else if seqb arg (bs "base32") || seqb arg (bs "b32") then
    key_curr ;~ must_read_arg "literal" ;~ l <~ text ;
    v <~ or_fail (b32_decode en l) ; str_curr ;~ pret v
  else if seqb arg (bs "base64") || seqb arg (bs "b64") then
    key_curr ;~ must_read_arg "literal" ;~ l <~ text ;
    v <~ or_fail (b64_decode l) ; str_curr ;~ pret v
  else if (1 <? length arg) && match nth_error arg 0, nth_error arg (length arg - 1) with
                               | Some a, Some b => Ascii.eqb a c_quote && Ascii.eqb b c_quote
                               | _, _ => false
                               end then
    o <~ of_res (parse_string_literal arg) ; v <~ or_fail o ; str_curr ;~ pret v
  else fail_curr RValue.

(* process.go:1157-1199 *)
Definition parse_num {A} (read : str -> option A) : P A :=
  s <~ text ; v <~ or_fail (read s) ; num_curr ;~ pret v.

(* process.go:977-992; value[0] and value[len-1] *)
Definition parse_signature : P str :=
  s <~ text ;
  a <~ of_res (index s 0) ;
  b <~ of_res (if Ascii.eqb a c_quote then index s (length s - 1) else Ret a) ;
  if negb (Ascii.eqb a c_quote) || negb (Ascii.eqb b c_quote) then fail_curr RValue
  else str_curr ;~ text.

(* the reading methods of parserContext after the argument is scanned: process.go:964-1104, 1140-1360, and
   1363-1435 for those that start with mustReadArg *)
Definition parse_imm (en : env) (k : imm) : P (imm_val k) :=
  match k with
  | IUint8 => parse_num read_uint8                                     (* 1179-1188 *)
  | IInt8 => parse_num read_int8                                       (* 1190-1199 *)
  | IInt => parse_num (fun s => parse_uint s 0 64)                     (* 1157-1166 *)
  | IConstInt => parse_num read_const_int                              (* 1168-1177 *)
  | IBytes => parse_bytes en
  | ILabel => ref_curr ;~ text                                         (* 1083-1087 *)
  | IAddr => s <~ text ; if addr_ok en s then str_curr ;~ pret s else fail_curr RValue  (* 964-975 *)
  | ISignature => parse_signature
  | ITxnField => s <~ text ; c <~ get ; classified (read_txn_field ITxnField (p_version c) s)
  | IItxnField => s <~ text ; c <~ get ; classified (read_txn_field IItxnField (p_version c) s)
  | ITxnaField => s <~ text ; c <~ get ; classified (read_txn_field ITxnaField (p_version c) s)
  | IJsonRef => s <~ text ; c <~ get ; classified (read_field jsonRefSpecs (p_version c) s)
  | IEcdsaCurve => s <~ text ; c <~ get ; classified (read_field ecdsaCurveSpecs (p_version c) s)
  | IGlobal => s <~ text ; c <~ get ; classified (read_field globalFieldSpecs (p_version c) s)
  | IAssetHolding => s <~ text ; c <~ get ; classified (read_field assetHoldingFieldSpecs (p_version c) s)
  | IAssetParams => s <~ text ; c <~ get ; classified (read_field assetParamsFieldSpecs (p_version c) s)
  | IAppParams => s <~ text ; c <~ get ; classified (read_field appParamsFieldSpecs (p_version c) s)
  | IAcctParams => s <~ text ; c <~ get ; classified (read_field acctParamsFieldSpecs (p_version c) s)
  | IVrf => s <~ text ; c <~ get ; classified (read_field vrfStandardSpecs (p_version c) s)
  | IBlock => s <~ text ; c <~ get ; classified (read_field blockFieldSpecs (p_version c) s)
  | IEcGroup => s <~ text ; c <~ get ; classified (read_field ecGroupSpecs (p_version c) s)
  | IBase64 => s <~ text ; c <~ get ; classified (read_field base64EncodingSpecs (p_version c) s)
  end.

(* for c.args.Scan() { ... }, process.go:1109-1112, 1120-1123, 1131-1135 *)
Fixpoint read_loop {A} (fuel : nat) (item : P A) : P (list A) :=
  match fuel with
  | 0 => fun _ => Fuel
  | S fuel =>
      ok <~ arg_scan ;
      if ok then x <~ item ; r <~ read_loop fuel item ; pret (x :: r) else pret []
  end.
Definition read_array {A} (item : P A) : P (list A) :=
  fun c => read_loop (S (length (p_ts c))) item c.

(* the opcode functions (OpTable.v) with a parserContext; process.go:1106-1138 for the arrays *)
Fixpoint run_prog (en : env) (p : prog) : P unit :=
  match p with
  | Emit e => pmod (emit_op e)
  | MinVersion _ p | ModeMinVersion _ _ p => run_prog en p              (* 907-912: empty *)
  | Read k n f => must_read_arg n ;~ x <~ parse_imm en k ; run_prog en (f x)
  | ReadMaybe n f =>                                                    (* 1383-1390 *)
      ok <~ arg_scan ;
      if ok then x <~ parse_num read_uint8 ; run_prog en (f (Some x)) else run_prog en (f None)
  | ReadInts n f =>                                                     (* 1128-1138: the token is added twice *)
      xs <~ read_array (x <~ parse_num (fun s => parse_uint s 0 64) ; num_curr ;~ pret x) ;
      run_prog en (f xs)
  | ReadBytess n f => xs <~ read_array (parse_bytes en) ; run_prog en (f xs)
  | ReadLabels n f => xs <~ read_array (s <~ text ; ref_curr ;~ pret s) ; run_prog en (f xs)
  end.

(* process.go:937-962 mustReadPragma and 1572-1575 opPragma *)
Definition op_pragma : P unit :=
  mcr_curr ;~
  must_read_arg "name" ;~
  name <~ text ;
  if seqb name (bs "version") then
    mcr_curr ;~
    must_read_arg "version value" ;~
    v <~ parse_num (fun s => parse_uint s 0 64) ;
    t <~ curr ;
    pmod (set_vtok t) ;~
    (if (v <? 1)%N then fail_curr RPragmaValue else pret tt) ;~
    pmod (set_version v) ;~
    pmod (emit_op (PragmaExpr (u8 v)))
  else fail_curr (RPragmaName name).

(* process.go:2498-2514 *)
Definition line_begin (l : list token) : nat := match l with [] => 0 | t :: _ => tok_b t end.
Definition line_end (l : list token) : nat :=
  match nth_error l (length l - 1) with Some t => tok_e t | None => 0 end.

(* strings.TrimSpace (process.go:3199): the UTF-8 encodings of the Unicode white space *)
Definition white_space : list str :=
  map (map ascii_of_N)
    [ [9]; [10]; [11]; [12]; [13]; [32]; [194; 133]; [194; 160]; [225; 154; 128];
      [226; 128; 128]; [226; 128; 129]; [226; 128; 130]; [226; 128; 131]; [226; 128; 132];
      [226; 128; 133]; [226; 128; 134]; [226; 128; 135]; [226; 128; 136]; [226; 128; 137];
      [226; 128; 138]; [226; 128; 168]; [226; 128; 169]; [226; 128; 175]; [226; 129; 159];
      [227; 128; 128] ]%N.
Definition strip_prefix (p s : str) : option str :=
  if seqb (firstn (length p) s) p then Some (skipn (length p) s) else None.
Fixpoint strip_first (ps : list str) (s : str) : option str :=
  match ps with
  | [] => None
  | p :: r => match strip_prefix p s with Some t => Some t | None => strip_first r s end
  end.
Fixpoint trim_left (fuel : nat) (ps : list str) (s : str) : str :=
  match fuel with
  | 0 => s
  | S fuel => match strip_first ps s with Some t => trim_left fuel ps t | None => s end
  end.
Definition trim_space (s : str) : str :=
  let l := trim_left (length s) white_space s in
  rev (trim_left (length l) (map (@rev ascii) white_space) (rev l)).

(* strings.Join(c.comments, newline), process.go:3220 *)
Fixpoint join_lines (l : list str) : str :=
  match l with [] => [] | [x] => x | x :: r => x ++ c_lf :: join_lines r end.

(* process.go:3241-3289 *)
Definition run_op (en : env) (p : prog) : P unit :=
  t <~ curr ;
  pmod (add_optok t) ;~
  c <~ get ;
  let d := doc_of p in
  let min := match p_mode c with ModeApp => dc_app d | ModeSig => dc_sig d | ModeNone => 0%N end in
  (if (min =? 0)%N then pmod (add_diag (Diag (tok_l t) (tok_b t) (tok_e t) (KMode (p_mode c)))) else pret tt) ;~
  (if (p_version c <? min)%N then
     pmod (add_diag (Diag (tok_l t) (tok_b t) (tok_e t) (KVersion min (p_version c)))) ;~
     pmod (add_ver (Required (tok_l t) (line_begin (p_ts c)) (line_end (p_ts c)) min))
   else pret tt) ;~
  run_prog en p ;~
  c' <~ get ;
  if p_i c' <? length (p_ts c') then
    ok <~ arg_scan ; if ok then fail_curr RTooMany else pret tt
  else pret tt.

(* process.go:3193-3294, the body of the function with the deferred recover *)
Definition line_body (en : env) : P unit :=
  ok <~ arg_scan ;
  if negb ok then pmod (emit_op EmptyExpr)
  else
    t <~ curr ;
    match tok_t t with
    | TokComment =>
        (if seqb (trim_space (tok_v t)) (bs "#pragma mode logicsig") then pmod (set_mode ModeSig)
         else pmod (fun c => set_comments (p_comments c ++ [tok_v t]) c)) ;~
        pmod (emit_op EmptyExpr)
    | _ =>
        if has_suffix ":" (tok_v t) then
          let name := firstn (length (tok_v t) - 1) (tok_v t) in
          if Nat.eqb (length name) 0 then fail_curr RLabelName
          else
            pmod (fun c => add_sym (Symbol name (tok_l t) (tok_b t) (tok_e t) (join_lines (p_comments c)) None) c) ;~
            pmod (emit_op (LabelExpr name)) ;~
            pmod (set_comments [])
        else if seqb (tok_v t) [] then pmod (emit_op EmptyExpr)
        else if seqb (tok_v t) (bs "#pragma") then op_pragma
        else
          match ops_get (tok_v t) with
          | Some p => run_op en p
          | None => fail_curr (RUnknownOp (tok_v t))
          end
    end.

(* process.go:3178-3191, 3295-3298 *)
Definition process_line (en : env) (l : list token) (c : pctx) : res pctx :=
  match line_body en (set_args l c) with
  | OK _ c' => Ret (add_lts (p_ts c') c')
  | Recover c' => let c'' := emit_op EmptyExpr c' in Ret (add_lts (p_ts c'') c'')
  | Crash => Panic
  | Fuel => OutOfFuel
  end.
Fixpoint process_lines (en : env) (ls : list (list token)) (c : pctx) : res pctx :=
  match ls with
  | [] => Ret c
  | l :: r => letr c' := process_line en l c in process_lines en r c'
  end.

(* process.go:3144-3162: acc is ts[p:i] *)
Fixpoint split_lines (ts : list token) (acc : list token) : list (list token) :=
  match ts with
  | [] => []
  | t :: r =>
      match tok_t t with
      | TokEol => acc :: split_lines r []
      | _ => match r with [] => [acc ++ [t]] | _ => split_lines r (acc ++ [t]) end
      end
  end.

(* process.go:3164-3171: the line up to its last comment that is not the first token *)
Definition is_comment (t : token) : bool := match tok_t t with TokComment => true | _ => false end.
Fixpoint cut_from (i : nat) (l : list token) : option nat :=
  match l with
  | [] => None
  | t :: r =>
      match cut_from (S i) r with
      | Some n => Some n
      | None => if is_comment t then Some i else None
      end
  end.
Definition cut_line (l : list token) : list token :=
  match l with
  | [] => []
  | t :: r => match cut_from 1 r with Some n => firstn n l | None => l end
  end.

(* process.go:2552-2579 ProcessResult *)
Record presult := Result {
  r_mode : mode; r_version : N; r_vtok : option token; r_vers : list required;
  r_diag : list diagnostic;
  r_miss : list token; r_syms : list symbol; r_refs : list token;
  r_tokens : list token; r_listing : listing; r_lines : list (list token);
  r_ops : list token; r_nums : list token; r_strs : list token; r_keys : list token; r_mcrs : list token;
  r_reds : list redundant_line; r_refc : list str
}.

(* process.go:3303-3313 *)
Definition lint_diag (lts : list (list token)) (e : line_error) : res diagnostic :=
  letr ln := index lts (le_line e) in
  Ret (Diag (le_line e) (line_begin ln) (line_end ln) (KLint e)).
Fixpoint lint_diags (lts : list (list token)) (es : list line_error) : res (list diagnostic) :=
  match es with
  | [] => Ret []
  | e :: r => letr d := lint_diag lts e in letr ds := lint_diags lts r in Ret (d :: ds)
  end.

(* process.go:3327-3334 *)
Definition proto_of (ps : list (str * (N * N))) (n : str) : option (N * N) :=
  match find (fun x => seqb (fst x) n) ps with Some (_, x) => Some x | None => None end.
Definition with_sig (ps : list (str * (N * N))) (s : symbol) : symbol :=
  Symbol (sy_name s) (sy_l s) (sy_b s) (sy_e s) (sy_docs s) (proto_of ps (sy_name s)).

(* process.go:3123-3127; lexer.go:127-148 *)
Definition lex_diag (e : lexer_error) : diagnostic := Diag (le_l e) (le_li e) (le_li e) (KLex (le_msg e)).

(* process.go:3133-3142 *)
Definition ctx0 (ds : list diagnostic) : pctx :=
  Pctx ModeApp 1 [] [] 0 ds [] [] [] [] [] None [] [] None [] [] [] [] [].

(* process.go:3300-3363: everything after the loop over the lines *)
Definition finish (ts : list token) (c : pctx) : res presult :=
  letr ds := lint_diags (p_lts c) (lint (p_ops c)) in
  let names := map sy_name (p_syms c) in
  Ret (Result (p_mode c) (p_version c) (p_vtok c) (p_vers c) (p_diag c ++ ds)
         (filter (fun t => negb (mem (tok_v t) names)) (p_refs c))
         (map (with_sig (p_protos c)) (p_syms c)) (p_refs c)
         ts (p_ops c) (p_lts c) (p_optoks c) (p_nums c) (p_strs c) (p_keys c) (p_mcrs c)
         (lint_redundant (p_ops c)) (p_refc c)).

(* process.go:3132-3364 *)
Definition process (en : env) (src : str) : res presult :=
  letr x := tokenize src in
  let '(ts, errs) := x in
  letr c := process_lines en (map cut_line (split_lines ts [])) (ctx0 (map lex_diag errs)) in
  finish ts c.
