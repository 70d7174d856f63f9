(* What Process is meant to compute, line by line, without positions or bookkeeping. *)
From Verif Require Import Base LexSpec Lexer Expr Linter Fields Strconv Literals Codec OpTable Process.

Definition texts (l : list token) : list str := map tok_v l.

(* ------------------------------------------------------------------------------------------ *)
(* operands: from the texts after the opcode to the value read and the texts left over *)

Definition between_parens (a : str) : option str :=
  match index_of ")" a, index_of "(" a with
  | Some c, Some o => if o <? c then Some (firstn (c - (o + 1)) (skipn (o + 1) a)) else None
  | _, _ => None
  end.

Definition obind {A B} (o : option A) (f : A -> option B) : option B :=
  match o with Some a => f a | None => None end.

(* byte constants *)
Definition byte_operand (en : env) (a : str) (r : list str) : option (str * list str) :=
  if has_prefix "base32(" a || has_prefix "b32(" a then
    obind (between_parens a) (fun x => obind (b32_decode en x) (fun v => Some (v, r)))
  else if has_prefix "base64(" a || has_prefix "b64(" a then
    obind (between_parens a) (fun x => obind (b64_decode x) (fun v => Some (v, r)))
  else if has_prefix "0x" a then obind (hex_decode (skipn 2 a)) (fun v => Some (v, r))
  else if seqb a (bs "base32") || seqb a (bs "b32") then
    match r with l :: r' => obind (b32_decode en l) (fun v => Some (v, r')) | [] => None end
  else if seqb a (bs "base64") || seqb a (bs "b64") then
    match r with l :: r' => obind (b64_decode l) (fun v => Some (v, r')) | [] => None end
  else
    match parse_string_literal a with
    | Ret (Some v) => if 1 <? length a then Some (v, r) else None
    | _ => None
    end.

Definition quoted (a : str) : bool :=
  match a with c :: _ => Ascii.eqb c c_quote && Ascii.eqb (last a c) c_quote | [] => false end.

Definition fst_of (o : option (N * bool)) : option N := obind o (fun x => Some (fst x)).

(* the other operands are one text each *)
Definition operand_value (en : env) (v : N) (k : imm) (a : str) : option (imm_val k) :=
  match k with
  | IUint8 => read_uint8 a
  | IInt8 => read_int8 a
  | IInt => parse_uint a 0 64
  | IConstInt => read_const_int a
  | IBytes => None
  | ILabel => Some a
  | IAddr => if addr_ok en a then Some a else None
  | ISignature => if quoted a then Some a else None
  | ITxnField => fst_of (read_txn_field ITxnField v a)
  | IItxnField => fst_of (read_txn_field IItxnField v a)
  | ITxnaField => fst_of (read_txn_field ITxnaField v a)
  | IJsonRef => fst_of (read_field jsonRefSpecs v a)
  | IEcdsaCurve => fst_of (read_field ecdsaCurveSpecs v a)
  | IGlobal => fst_of (read_field globalFieldSpecs v a)
  | IAssetHolding => fst_of (read_field assetHoldingFieldSpecs v a)
  | IAssetParams => fst_of (read_field assetParamsFieldSpecs v a)
  | IAppParams => fst_of (read_field appParamsFieldSpecs v a)
  | IAcctParams => fst_of (read_field acctParamsFieldSpecs v a)
  | IVrf => fst_of (read_field vrfStandardSpecs v a)
  | IBlock => fst_of (read_field blockFieldSpecs v a)
  | IEcGroup => fst_of (read_field ecGroupSpecs v a)
  | IBase64 => fst_of (read_field base64EncodingSpecs v a)
  end.
Definition operand (en : env) (v : N) (k : imm) (a : str) (r : list str) : option (imm_val k * list str) :=
  match k with
  | IBytes => byte_operand en a r
  | k => obind (operand_value en v k a) (fun x => Some (x, r))
  end.

Fixpoint all_ints (l : list str) : option (list N) :=
  match l with
  | [] => Some []
  | a :: r => obind (parse_uint a 0 64) (fun x => obind (all_ints r) (fun xs => Some (x :: xs)))
  end.
Fixpoint all_bytes (en : env) (fuel : nat) (l : list str) : option (list str) :=
  match fuel, l with
  | _, [] => Some []
  | 0, _ => None
  | S fuel, a :: r =>
      obind (byte_operand en a r) (fun x => obind (all_bytes en fuel (snd x)) (fun xs => Some (fst x :: xs)))
  end.

(* The mistake in texts that are no operands: how many texts follow the one at fault, and what is wrong
   with it.  An operand that is missing is missed behind the last text. *)
Definition fault : Type := (nat * reason)%type.
Definition encoding (a : str) : bool :=
  (seqb a (bs "base32") || seqb a (bs "b32")) || (seqb a (bs "base64") || seqb a (bs "b64")).
Definition byte_fault (a : str) (r : list str) : fault :=
  if encoding a then match r with [] => (0, RMissing "literal") | _ :: r' => (length r', RValue) end
  else (length r, RValue).
Definition operand_fault (k : imm) (a : str) (r : list str) : fault :=
  match k with IBytes => byte_fault a r | _ => (length r, RValue) end.
(* the first of the texts that is no operand *)
Fixpoint ints_fault (l : list str) : fault :=
  match l with
  | [] => (0, RValue)
  | a :: r => match parse_uint a 0 64 with Some _ => ints_fault r | None => (length r, RValue) end
  end.
Fixpoint bytes_fault (en : env) (fuel : nat) (l : list str) : fault :=
  match fuel, l with
  | S fuel, a :: r => match byte_operand en a r with Some x => bytes_fault en fuel (snd x) | None => byte_fault a r end
  | _, _ => (0, RValue)
  end.

(* an opcode with its operands: the instruction, and the texts that are left over *)
Fixpoint assemble (en : env) (v : N) (p : prog) (args : list str) : option (expr * list str) :=
  match p with
  | Emit e => Some (e, args)
  | MinVersion _ p | ModeMinVersion _ _ p => assemble en v p args
  | Read k _ f =>
      match args with
      | [] => None
      | a :: r => obind (operand en v k a r) (fun x => assemble en v (f (fst x)) (snd x))
      end
  | ReadMaybe _ f =>
      match args with
      | [] => assemble en v (f None) []
      | a :: r => obind (read_uint8 a) (fun x => assemble en v (f (Some x)) r)
      end
  | ReadInts _ f => obind (all_ints args) (fun xs => assemble en v (f xs) [])
  | ReadBytess _ f => obind (all_bytes en (length args) args) (fun xs => assemble en v (f xs) [])
  | ReadLabels _ f => assemble en v (f args) []
  end.

(* and the mistake, if they are no instruction *)
Fixpoint prog_fault (en : env) (v : N) (p : prog) (args : list str) : fault :=
  match p with
  | Emit _ => (0, RValue)
  | MinVersion _ p | ModeMinVersion _ _ p => prog_fault en v p args
  | Read k n f =>
      match args with
      | [] => (0, RMissing n)
      | a :: r =>
          match operand en v k a r with
          | Some x => prog_fault en v (f (fst x)) (snd x)
          | None => operand_fault k a r
          end
      end
  | ReadMaybe _ f =>
      match args with
      | [] => prog_fault en v (f None) []
      | a :: r => match read_uint8 a with Some x => prog_fault en v (f (Some x)) r | None => (length r, RValue) end
      end
  | ReadInts _ f => match all_ints args with Some xs => prog_fault en v (f xs) [] | None => ints_fault args end
  | ReadBytess _ f =>
      match all_bytes en (length args) args with
      | Some xs => prog_fault en v (f xs) []
      | None => bytes_fault en (length args) args
      end
  | ReadLabels _ f => prog_fault en v (f args) []
  end.

(* ------------------------------------------------------------------------------------------ *)
(* lines: the tokens of a line, a trailing comment removed *)

Definition label_name (a : str) : option str :=
  match rev a with
  | c :: n => if Ascii.eqb c ":" then Some (rev n) else None
  | [] => None
  end.

Inductive line_kind : Type :=
| LBlank
| LComment (w : str)
| LLabel (name : str)            (* name may be empty: an error *)
| LPragma (args : list str)
| LOp (p : prog) (args : list str)
| LUnknown.

Definition kind_of (l : list token) : line_kind :=
  match l with
  | [] => LBlank
  | t :: r =>
      match tok_t t with
      | TokComment => LComment (tok_v t)
      | _ =>
          match label_name (tok_v t) with
          | Some n => LLabel n
          | None =>
              if seqb (tok_v t) (bs "#pragma") then LPragma (texts r)
              else match ops_get (tok_v t) with Some p => LOp p (texts r) | None => LUnknown end
          end
      end
  end.

(* #pragma version N; further texts are ignored *)
Definition pragma_version (args : list str) : option N :=
  match args with
  | a :: b :: _ =>
      if seqb a (bs "version") then
        match parse_uint b 0 64 with Some v => if (v =? 0)%N then None else Some v | None => None end
      else None
  | _ => None
  end.

Definition pragma_fault (args : list str) : fault :=
  match args with
  | [] => (0, RMissing "name")
  | a :: r =>
      if seqb a (bs "version") then
        match r with
        | [] => (0, RMissing "version value")
        | b :: r' => (length r', match parse_uint b 0 64 with Some _ => RPragmaValue | None => RValue end)
        end
      else (length r, RPragmaName a)
  end.

(* the version and the mode after a line *)
Definition version_after (v : N) (l : list token) : N :=
  match kind_of l with
  | LPragma args => match pragma_version args with Some v' => v' | None => v end
  | _ => v
  end.
(* the token of the version, kept for a later change of it *)
Definition version_token (l : list token) : option token :=
  match l, kind_of l with
  | _ :: a :: b :: _, LPragma _ =>
      if seqb (tok_v a) (bs "version") then match parse_uint (tok_v b) 0 64 with Some _ => Some b | None => None end else None
  | _, _ => None
  end.
Definition token_after (o : option token) (l : list token) : option token :=
  match version_token l with Some t => Some t | None => o end.
Definition mode_after (m : mode) (l : list token) : mode :=
  match kind_of l with
  | LComment w => if seqb (trim_space w) (bs "#pragma mode logicsig") then ModeSig else m
  | _ => m
  end.

(* the instructions a line adds to the listing *)
Definition entries (en : env) (v : N) (l : list token) : list expr :=
  match kind_of l with
  | LBlank | LComment _ | LUnknown => [EmptyExpr]
  | LLabel n => match n with [] => [EmptyExpr] | _ => [LabelExpr n] end
  | LPragma args =>
      match pragma_version args with Some v' => [PragmaExpr (v' mod 256)%N] | None => [EmptyExpr] end
  | LOp p args =>
      match assemble en v p args with
      | Some (e, []) => [e]
      | Some (e, _ :: _) => [e; EmptyExpr]
      | None => [EmptyExpr]
      end
  end.

(* a line with more operands than its opcode takes *)
Definition surplus (en : env) (v : N) (l : list token) : bool :=
  match kind_of l with
  | LOp p args => match assemble en v p args with Some (_, _ :: _) => true | _ => false end
  | _ => false
  end.

(* the lines of the document that define a label, and the texts that name one *)
Definition defines (l : list token) : list (token * str) :=
  match l, kind_of l with
  | t :: _, LLabel (c :: n) => [(t, c :: n)]
  | _, _ => []
  end.

Definition branch_names : list string := ["b"; "bz"; "bnz"; "callsub"].
Definition table_names : list string := ["switch"; "match"].
Definition one_of (names : list string) (s : str) : bool := existsb (fun n => seqb (bs n) s) names.
Definition names_labels (l : list token) : list token :=
  match l with
  | t :: r =>
      match kind_of l with
      | LOp _ _ =>
          if one_of branch_names (tok_v t) then firstn 1 r
          else if one_of table_names (tok_v t) then r else []
      | _ => []
      end
  | [] => []
  end.

(* the first version an opcode may be used in, by mode; 0: never *)
Definition min_version (m : mode) (p : prog) : N :=
  match m with ModeApp => dc_app (doc_of p) | ModeSig => dc_sig (doc_of p) | ModeNone => 0%N end.

Definition gate (m : mode) (v : N) (l : list token) : list diagnostic :=
  match l, kind_of l with
  | t :: _, LOp p _ =>
      (if (min_version m p =? 0)%N then [Diag (tok_l t) (tok_b t) (tok_e t) (KMode m)] else []) ++
      (if (v <? min_version m p)%N then [Diag (tok_l t) (tok_b t) (tok_e t) (KVersion (min_version m p) v)] else [])
  | _, _ => []
  end.

(* the comments collected above a line *)
Definition comments_after (cs : list str) (l : list token) : list str :=
  match kind_of l with
  | LComment w => if seqb (trim_space w) (bs "#pragma mode logicsig") then cs else cs ++ [w]
  | LLabel (_ :: _) => []
  | _ => cs
  end.

(* the tokens of a line as the lexer makes them: none is empty, except for an empty comment *)
Definition line_ok (l : list token) : Prop :=
  match l with
  | [] => True
  | t :: r => (tok_t t = TokComment \/ tok_v t <> []) /\ Forall (fun t => tok_v t <> []) r
  end.

(* the errors of a line, apart from the version and mode of its opcode *)
Definition error_at (t : token) (r : reason) : diagnostic := Diag (tok_l t) (tok_b t) (tok_e t) (KParse r).
Definition reports (l : list token) (f : fault) (ds : list diagnostic) : Prop :=
  exists t, ds = [error_at t (snd f)] /\ nth_error l (length l - S (fst f)) = Some t.
Definition line_errors (en : env) (v : N) (l : list token) (ds : list diagnostic) : Prop :=
  match l, kind_of l with
  | t :: _, LLabel [] => ds = [error_at t RLabelName]
  | t :: _, LUnknown => ds = [error_at t (RUnknownOp (tok_v t))]
  | _, LPragma args =>
      match pragma_version args with
      | Some _ => ds = []
      | None => reports l (pragma_fault args) ds
      end
  | _, LOp p args =>
      match assemble en v p args with
      | Some (_, []) => ds = []
      | Some (_, _ :: s) => reports l (length s, RTooMany) ds
      | None => reports l (prog_fault en v p args) ds
      end
  | _, _ => ds = []
  end.

(* the opcode token of a line and the version it needs *)
Definition op_token (l : list token) : list token :=
  match l, kind_of l with t :: _, LOp _ _ => [t] | _, _ => [] end.
Definition needs (m : mode) (v : N) (l : list token) : list required :=
  match l, kind_of l with
  | t :: _, LOp p _ =>
      if (v <? min_version m p)%N then [Required (tok_l t) (line_begin l) (line_end l) (min_version m p)] else []
  | _, _ => []
  end.

(* the label above a proto gets its signature *)
Definition sig_step (s : option str * list (str * (N * N))) (e : expr) : option str * list (str * (N * N)) :=
  match e, s with
  | LabelExpr n, (_, ps) => (Some n, ps)
  | ProtoExpr a r, (Some n, ps) => (Some n, (n, (a, r)) :: ps)
  | _, s => s
  end.

Definition define_symbol (cs : list str) (d : token * str) : symbol :=
  Symbol (snd d) (tok_l (fst d)) (tok_b (fst d)) (tok_e (fst d)) (join_lines cs) None.

(* ------------------------------------------------------------------------------------------ *)
(* the lines of a document: the tokens between the line ends; what follows the last line end is a
   line if it has a token *)
Definition is_eol (t : token) : bool := match tok_t t with TokEol => true | _ => false end.
Inductive Lines : list token -> list (list token) -> Prop :=
| Lines_none : Lines [] []
| Lines_last l : l <> [] -> existsb is_eol l = false -> Lines l [l]
| Lines_eol l t r ls : existsb is_eol l = false -> is_eol t = true -> Lines r ls -> Lines (l ++ t :: r) (l :: ls).

(* the code of a line: up to the comment that ends it; a comment alone on its line stays *)
Fixpoint until_comment (l : list token) : list token :=
  match l with [] => [] | t :: r => if is_comment t then [] else t :: until_comment r end.
Definition code_of (l : list token) : list token :=
  match l with [] => [] | t :: r => t :: until_comment r end.

(* the tokens of line i *)
Fixpoint sorted_from (c : nat) (l : list token) : Prop :=
  match l with [] => True | t :: r => c <= tok_b t <= tok_e t /\ sorted_from (tok_e t) r end.
Definition line_at (i : nat) (l : list token) : Prop := Forall (fun t => tok_l t = i) l /\ sorted_from 0 l.
Fixpoint lines_at (i : nat) (ls : list (list token)) : Prop :=
  match ls with [] => True | l :: r => line_at i l /\ lines_at (S i) r end.

(* the version and the mode along the lines *)
Fixpoint last_version (v : N) (ls : list (list token)) : N :=
  match ls with [] => v | l :: r => last_version (version_after v l) r end.
Fixpoint last_mode (m : mode) (ls : list (list token)) : mode :=
  match ls with [] => m | l :: r => last_mode (mode_after m l) r end.

Fixpoint last_token (o : option token) (ls : list (list token)) : option token :=
  match ls with [] => o | l :: r => last_token (token_after o l) r end.

(* what the lines contribute, in order *)
Fixpoint all_entries (en : env) (v : N) (ls : list (list token)) : list expr :=
  match ls with [] => [] | l :: r => entries en v l ++ all_entries en (version_after v l) r end.
Fixpoint all_gates (m : mode) (v : N) (ls : list (list token)) : list diagnostic :=
  match ls with [] => [] | l :: r => gate m v l ++ all_gates (mode_after m l) (version_after v l) r end.
Fixpoint all_needs (m : mode) (v : N) (ls : list (list token)) : list required :=
  match ls with [] => [] | l :: r => needs m v l ++ all_needs (mode_after m l) (version_after v l) r end.
Fixpoint all_symbols (cs : list str) (ls : list (list token)) : list symbol :=
  match ls with [] => [] | l :: r => map (define_symbol cs) (defines l) ++ all_symbols (comments_after cs l) r end.
Fixpoint all_errors (en : env) (m : mode) (v : N) (ls : list (list token)) (ds : list diagnostic) : Prop :=
  match ls with
  | [] => ds = []
  | l :: r => exists a b, ds = gate m v l ++ a ++ b /\ line_errors en v l a /\
                          all_errors en (mode_after m l) (version_after v l) r b
  end.
(* the lines with too many operands *)
Fixpoint all_surplus (en : env) (v : N) (ls : list (list token)) : nat :=
  match ls with
  | [] => 0
  | l :: r => (if surplus en v l then 1 else 0) + all_surplus en (version_after v l) r
  end.

(* a diagnostic that covers a part of the line l: from the start of one of its tokens to the end of
   another; a line without tokens is covered at its start *)
Definition covers (l : list token) (d : diagnostic) : Prop :=
  dg_b d <= dg_e d /\
  ((l = [] /\ dg_b d = 0 /\ dg_e d = 0) \/
   exists t t', In t l /\ In t' l /\ dg_b d = tok_b t /\ dg_e d = tok_e t').

(* the mode and the version in force on line i *)
Definition mode_at (i : nat) (ls : list (list token)) : mode := last_mode ModeApp (firstn i ls).
Definition version_at (i : nat) (ls : list (list token)) : N := last_version 1 (firstn i ls).
Definition gates_on (i : nat) (ds : list diagnostic) : list diagnostic :=
  filter (fun d => match dg_kind d with KMode _ | KVersion _ _ => Nat.eqb (dg_line d) i | _ => false end) ds.
