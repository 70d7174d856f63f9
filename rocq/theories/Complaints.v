(* The texts about an operand that is not what is expected: the errors of the conversions in
   process.go:944-1360 and parser.go:77-365, which Process.v reduces to RValue. *)
From Verif Require Import Base LexSpec Lexer Expr Linter Fields Strconv Literals Codec OpTable Process.

(* strconv.ErrSyntax and strconv.ErrRange (Go standard library, src/strconv/atoi.go) *)
Inductive num_error : Set := NumSyntax | NumRange.

(* the loop of strconv.ParseUint: a character that is no digit and a value that is too large (max and
   beyond) are errors as soon as they are met *)
Fixpoint digits_error (base0 : bool) (base max n : N) (s : str) : option num_error :=
  match s with
  | [] => None
  | c :: r =>
      if base0 && Ascii.eqb c "_" then digits_error base0 base max n r
      else
        match digit_of c with
        | Some d =>
            if (d <? base)%N then
              if (max <=? n * base + d)%N then Some NumRange else digits_error base0 base max (n * base + d)%N r
            else Some NumSyntax
        | None => Some NumSyntax
        end
  end.
(* the error of strconv.ParseUint(s, base, bits) *)
Definition uint_error (s : str) (base bits : N) : option num_error :=
  match s with
  | [] => Some NumSyntax
  | _ =>
      let '(b, d) := if (base =? 0)%N then prefix0 s else (base, s) in
      match digits_error (base =? 0)%N b (2 ^ bits)%N 0 d with
      | Some e => Some e
      | None => if (base =? 0)%N && has_underscore d && negb (underscore_ok s) then Some NumSyntax else None
      end
  end.
(* the error of strconv.ParseInt(s, base, bits) *)
Definition int_error (s : str) (base bits : N) : option num_error :=
  match s with
  | [] => Some NumSyntax
  | c :: r =>
      let neg := Ascii.eqb c "-" in
      let d := if neg || Ascii.eqb c "+" then r else s in
      match uint_error d base bits with
      | Some e => Some e
      | None =>
          match parse_uint d base bits with
          | Some n => if (if neg then 2 ^ (bits - 1) <? n else 2 ^ (bits - 1) <=? n)%N then Some NumRange else None
          | None => None
          end
      end
  end.

(* the error of parseStringLiteral, go_algorand.go:309-375; n and rest as in literal_loop (Literals.v) *)
Inductive literal_error : Set :=
| LNoQuotes (* 313 *)
| LEscInHex (* 327 *)
| LEscape (c : ascii) (* 351 *)
| LHexEnd (* 357 *)
| LHexNum (s : str) (e : num_error) (* 361 *)
| LEscEnd. (* 371 *)
Fixpoint loop_error (n : nat) (rest : str) (esc hex : bool) : option literal_error :=
  match n with
  | 0 => if esc || hex then Some LEscEnd else None
  | S n' =>
      match rest with
      | [] => None
      | c :: r =>
          if Ascii.eqb c c_bslash && negb esc then
            if hex then Some LEscInHex else loop_error n' r true hex
          else
            let plain :=
              if hex then
                match n' with
                | 0 => Some LHexEnd
                | S n'' =>
                    match r with
                    | [] => None
                    | c2 :: r2 =>
                        match uint_error [c; c2] 16 8 with
                        | Some e => Some (LHexNum [c; c2] e)
                        | None => loop_error n'' r2 false false
                        end
                    end
                end
              else loop_error n' r false false in
            if esc then
              if Ascii.eqb c "n" || Ascii.eqb c "r" || Ascii.eqb c "t" || Ascii.eqb c c_bslash || Ascii.eqb c c_quote then plain
              else if Ascii.eqb c "x" then loop_error n' r false true
              else Some (LEscape c)
            else plain
      end
  end.
Definition string_error (s : str) : option literal_error :=
  match nth_error s 0, nth_error s (length s - 1) with
  | Some a, Some b =>
      if negb (Ascii.eqb a c_quote) || negb (Ascii.eqb b c_quote) then Some LNoQuotes
      else loop_error (length s - 2) (skipn 1 s) false false
  | _, _ => None
  end.

(* why an operand is refused *)
Inductive cause : Set :=
| CUint (s : str) (e : num_error)       (* strconv.ParseUint; parser.go:87, 321, 340 *)
| CInt (s : str) (e : num_error)        (* strconv.ParseInt; parser.go:78 *)
| CField (s : str) (e : num_error)      (* neither a name nor a number; parser.go:108, 127, ..., 314, 361 *)
| CTooNew (need got : N)                (* parser.go:100, 119, ..., 306, 353 *)
| CNotArray                             (* parser.go:290 *)
| CNotInner                             (* parser.go:300 *)
| CParen (enc : string)                 (* process.go:1268, 1284 *)
| CBytes (s : str)                      (* process.go:1342 *)
| CLiteral (e : literal_error)          (* process.go:1336 *)
| CQuotes                               (* process.go:985 *)
| CLibrary.                             (* the errors of base32, base64, hex and DecodeAddress; process.go:969, 1272-1325 *)

(* parser.go:95-281, 348-365 *)
Definition field_error (specs : list field_spec) (v : N) (s : str) : option cause :=
  match spec_by_name specs s with
  | Some (_, sp) => if (v <? f_version sp)%N then Some (CTooNew (f_version sp) v) else None
  | None => match uint_error s 10 8 with Some e => Some (CField s e) | None => None end
  end.
(* parser.go:284-318 *)
Definition txn_field_error (k : imm) (v : N) (s : str) : option cause :=
  match spec_by_name txnFieldSpecs s with
  | Some (_, sp) =>
      match k with
      | ITxnaField => if f_array sp then None else Some CNotArray
      | IItxnField =>
          if (f_itx sp =? 0)%N then Some CNotInner
          else if (v <? f_itx sp)%N then Some (CTooNew (f_itx sp) v) else None
      | _ => if (v <? f_version sp)%N then Some (CTooNew (f_version sp) v) else None
      end
  | None => match uint_error s 10 8 with Some e => Some (CField s e) | None => None end
  end.

(* parser.go:329-346 *)
Definition const_error (s : str) : option num_error :=
  match lookup txn_type_map s with
  | Some _ => None
  | None => match lookup on_completion_map s with Some _ => None | None => uint_error s 0 64 end
  end.

(* a conversion of a library: go_algorand.go:377-388, process.go:1288, 1297, 1323 *)
Definition library {A} (o : option A) : option cause := match o with Some _ => None | None => Some CLibrary end.

(* process.go:1262-1345; the texts are the operand and what follows it *)
Definition parens_error (enc : string) (arg : str) (decode : str -> option str) : option cause :=
  match index_of ")" arg with
  | None => Some (CParen enc)
  | Some close =>
      let open := match index_of "(" arg with Some n => n | None => 0 end in
      match slice arg (open + 1) close with Ret inner => library (decode inner) | _ => None end
  end.
Definition bytes_error (en : env) (arg : str) (rest : list str) : option cause :=
  if has_prefix "base32(" arg || has_prefix "b32(" arg then parens_error "base32" arg (b32_decode en)
  else if has_prefix "base64(" arg || has_prefix "b64(" arg then parens_error "base64" arg b64_decode
  else if has_prefix "0x" arg then library (hex_decode (skipn 2 arg))
  else if seqb arg (bs "base32") || seqb arg (bs "b32") then
    match rest with l :: _ => library (b32_decode en l) | [] => None end
  else if seqb arg (bs "base64") || seqb arg (bs "b64") then
    match rest with l :: _ => library (b64_decode l) | [] => None end
  else if (1 <? length arg) && match nth_error arg 0, nth_error arg (length arg - 1) with
                               | Some a, Some b => Ascii.eqb a c_quote && Ascii.eqb b c_quote
                               | _, _ => false
                               end then
    match string_error arg with Some e => Some (CLiteral e) | None => None end
  else Some (CBytes arg).

Definition of_num (f : num_error -> cause) (o : option num_error) : option cause :=
  match o with Some e => Some (f e) | None => None end.

(* process.go:964-1104, 1140-1360: the operand s of kind k, with version v in force, and the texts behind it *)
Definition operand_error (en : env) (v : N) (k : imm) (s : str) (rest : list str) : option cause :=
  match k with
  | IUint8 => of_num (CUint s) (uint_error s 10 8)
  | IInt8 => of_num (CInt s) (int_error s 10 8)
  | IInt => of_num (CUint s) (uint_error s 0 64)
  | IConstInt => of_num (CUint s) (const_error s)
  | IBytes => bytes_error en s rest
  | ILabel => None
  | IAddr => if addr_ok en s then None else Some CLibrary
  | ISignature =>
      match nth_error s 0, nth_error s (length s - 1) with
      | Some a, Some b => if negb (Ascii.eqb a c_quote) || negb (Ascii.eqb b c_quote) then Some CQuotes else None
      | _, _ => Some CQuotes (* value[0] would panic, but the text of a token is never empty *)
      end
  | ITxnField => txn_field_error ITxnField v s
  | IItxnField => txn_field_error IItxnField v s
  | ITxnaField => txn_field_error ITxnaField v s
  | IJsonRef => field_error jsonRefSpecs v s
  | IEcdsaCurve => field_error ecdsaCurveSpecs v s
  | IGlobal => field_error globalFieldSpecs v s
  | IAssetHolding => field_error assetHoldingFieldSpecs v s
  | IAssetParams => field_error assetParamsFieldSpecs v s
  | IAppParams => field_error appParamsFieldSpecs v s
  | IAcctParams => field_error acctParamsFieldSpecs v s
  | IVrf => field_error vrfStandardSpecs v s
  | IBlock => field_error blockFieldSpecs v s
  | IEcGroup => field_error ecGroupSpecs v s
  | IBase64 => field_error base64EncodingSpecs v s
  end.

(* ------------------------------------------------------------------------------------------ *)
(* the texts *)

(* strconv.Quote of printable ASCII; other characters are left out *)
Fixpoint quote_chars (s : str) : option str :=
  match s with
  | [] => Some []
  | c :: r =>
      if in_chars " " "~" c then
        match quote_chars r with
        | Some q => Some (if Ascii.eqb c c_quote || Ascii.eqb c c_bslash then c_bslash :: c :: q else c :: q)
        | None => None
        end
      else None
  end.
(* NumError.Error, src/strconv/atoi.go *)
Definition num_text (f : string) (s : str) (e : num_error) : option str :=
  match quote_chars s with
  | Some q =>
      Some (bs "strconv." ++ bs f ++ bs ": parsing " ++ c_quote :: q ++ c_quote ::
            bs (match e with NumSyntax => ": invalid syntax" | NumRange => ": value out of range" end))
  | None => None
  end.
(* go_algorand.go:313-371; the character of %c is ASCII, others are left out *)
Definition literal_text (e : literal_error) : option str :=
  match e with
  | LNoQuotes => Some (bs "no quotes")
  | LEscInHex => Some (bs "escape seq inside hex number")
  | LEscape c => if (byte c <? 128)%N then Some (bs "invalid escape seq " ++ [c_bslash; c]) else None
  | LHexEnd => Some (bs "non-terminated hex seq")
  | LHexNum s e => num_text "ParseUint" s e
  | LEscEnd => Some (bs "non-terminated escape seq")
  end.
Definition prefixed (p : str) (o : option str) : option str := match o with Some s => Some (p ++ s) | None => None end.
Definition cause_text (c : cause) : option str :=
  match c with
  | CUint s e => num_text "ParseUint" s e
  | CInt s e => num_text "ParseInt" s e
  | CField s e => prefixed (bs "failed to parse txn field: ") (num_text "ParseUint" s e)
  | CTooNew need got => Some (bs "not available in this version (need >= " ++ dec need ++ bs ", got: " ++ dec got ++ bs ")")
  | CNotArray => Some (bs "not available in array context")
  | CNotInner => Some (bs "not available for internal transactions")
  | CParen enc => Some (bs "byte " ++ bs enc ++ bs " arg lacks close paren")
  | CBytes s => Some (bs "byte arg did not parse: " ++ s)
  | CLiteral e => literal_text e
  | CQuotes => Some (bs "missing quotes")
  | CLibrary => None
  end.

(* errors.Wrapf: process.go:1160, 1171, 1182, 1193, 1204, 1219, 1234, 1250, 1351; the other kinds pass the error on *)
Definition wrapping (k : imm) (name : string) : str :=
  let w s := bs s ++ bs name ++ bs ": " in
  match k with
  | IInt | IConstInt => w "failed to parse uint64: "
  | IUint8 => w "failed to parse uint8: "
  | IInt8 => w "failed to parse int8: "
  | IEcGroup => w "failed to parse EC group field: "
  | IBase64 => w "failed to parse base64 encoding field: "
  | IJsonRef => w "failed to parse JSON ref field: "
  | ITxnField | IItxnField | ITxnaField => w "failed to parse txn field: "
  | IEcdsaCurve => w "failed to parse ESCDS curve index: "
  | _ => []
  end.

(* what is said about a refused operand: its kind, the name it is read by, and the cause *)
Record complaint : Set := Complaint { c_kind : imm; c_name : string; c_cause : cause }.
Definition complaint_text (c : complaint) : option str := prefixed (wrapping (c_kind c) (c_name c)) (cause_text (c_cause c)).
