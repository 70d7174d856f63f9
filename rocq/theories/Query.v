(* process.go:2498-3110: the queries over the result of Process.

   Simplifications.  Lines and columns that come from a client are Z (Go int, read from JSON, possibly
   negative); those of tokens are nat.  The documentation texts (opDocByName and the notes of the
   fields) are not modelled: DocAt returns which documentation is shown.  A loop over a range of
   lines skips the lines at and after len(r.Lines), so it is a loop over the lines that exist. *)
From Verif Require Import Base LexSpec Lexer Expr Linter Fields Strconv Literals Codec OpTable Print Process Semantics.

(* lexer.go:28-42, symbols.go:43-57, process.go:2536-2550 *)
Definition tok_range (t : token) : range :=
  Range (Z.of_nat (tok_l t)) (Z.of_nat (tok_b t)) (Z.of_nat (tok_l t)) (Z.of_nat (tok_e t)).
Definition sym_range (s : symbol) : range :=
  Range (Z.of_nat (sy_l s)) (Z.of_nat (sy_b s)) (Z.of_nat (sy_l s)) (Z.of_nat (sy_e s)).
Definition req_range (r : required) : range :=
  Range (Z.of_nat (rq_line r)) (Z.of_nat (rq_b r)) (Z.of_nat (rq_line r)) (Z.of_nat (rq_e r)).

(* process.go:2516-2526 Line.ImmAt: the immediate at a column *)
Fixpoint imm_at_from (idx : nat) (l : list token) (pos : Z) : option (token * nat) :=
  match l with
  | [] => None
  | t :: r =>
      if (0 <? idx) && (Z.of_nat (tok_b t) <=? pos)%Z && (pos <=? Z.of_nat (tok_e t))%Z then Some (t, idx - 1)
      else imm_at_from (S idx) r pos
  end.
Definition imm_at (l : list token) (pos : Z) : option (token * nat) := imm_at_from 0 l pos.

(* process.go:2599-2621 *)
Definition symbols_within (r : presult) (rg : range) : list symbol :=
  filter (fun s => overlaps rg (sym_range s)) (r_syms r).
Definition refs_within (r : presult) (rg : range) : list token :=
  filter (fun t => overlaps rg (tok_range t)) (r_refs r).
(* process.go:2815-2833 *)
Definition sym_by_name (r : presult) (n : str) : list symbol := filter (fun s => seqb (sy_name s) n) (r_syms r).
Definition ref_by_name (r : presult) (n : str) : list token := filter (fun t => seqb (tok_v t) n) (r_refs r).
(* process.go:2581-2597 *)
Definition symbols_for_ref (r : presult) (rg : range) : list symbol :=
  match refs_within r rg with
  | [] => []
  | ref :: _ => sym_by_name r (tok_v ref)
  end.
(* process.go:2835-2849 *)
Definition sym_or_ref_at (r : presult) (rg : range) : str :=
  match symbols_within r rg with
  | s :: _ => sy_name s
  | [] => match refs_within r rg with t :: _ => tok_v t | [] => [] end
  end.

(* process.go:1446-1449, 2623-2628: the arguments of an opcode *)
Definition op_args (name : str) : option (list op_arg) :=
  match ops_get name with Some p => Some (dc_args (doc_of p)) | None => None end.

(* r.Lines[l] *)
Definition line_of (r : presult) (l : Z) : res (list token) :=
  if (l <? 0)%Z then Panic else index (r_lines r) (Z.to_nat l).
(* process.go:2853, 2909: len(r.Lines) <= l *)
Definition past_end (r : presult) (l : Z) : bool := (Z.of_nat (length (r_lines r)) <=? l)%Z.

(* ------------------------------------------------------------------------------------------ *)
(* named values *)

(* process.go:61-235: the table behind a kind of argument, and the version a field is offered from;
   None: not one of OpArgTypes *)
Definition field_table (k : imm) : option (list field_spec) :=
  match k with
  | ITxnField | IItxnField | ITxnaField => Some txnFieldSpecs
  | IJsonRef => Some jsonRefSpecs
  | IEcdsaCurve => Some ecdsaCurveSpecs
  | IGlobal => Some globalFieldSpecs
  | IAssetHolding => Some assetHoldingFieldSpecs
  | IAssetParams => Some assetParamsFieldSpecs
  | IAppParams => Some appParamsFieldSpecs
  | IAcctParams => Some acctParamsFieldSpecs
  | IVrf => Some vrfStandardSpecs
  | IBlock => Some blockFieldSpecs
  | IEcGroup => Some ecGroupSpecs
  | IBase64 => Some base64EncodingSpecs
  | IUint8 | IInt8 | IInt | IConstInt | IBytes | ILabel | IAddr | ISignature => None
  end.
Definition offered (k : imm) (s : field_spec) : bool :=
  match k with
  | ITxnaField => f_array s
  | IItxnField => negb (f_itx s =? 0)%N
  | _ => true
  end.
Definition offered_from (k : imm) (s : field_spec) : N :=
  match k with IItxnField => f_itx s | _ => f_version s end.

(* process.go:2669-2681; strconv.Atoi is parse_int in base 10 with 64 bits *)
Definition arg_field_name (k : imm) (v : Z) : option str :=
  match field_table k with
  | None => None
  | Some sp =>
      if (v <? 0)%Z then None
      else match nth_error sp (Z.to_nat v) with
           | Some s => if offered k s && negb (seqb (f_name s) []) then Some (f_name s) else None
           | None => None
           end
  end.

(* strconv.Atoi (process.go:2720, 2941-3095) *)
Definition atoi (s : str) : option Z := parse_int s 10 64.

(* process.go:2683-2774 InlayHints *)
Definition named_hint (args : option (list op_arg)) (i : nat) (t : token) : list (token * str) :=
  match args, i with
  | Some args, S idx =>
      match nth_error args idx, atoi (tok_v t) with
      | Some a, Some v => match arg_field_name (oa_type a) v with Some n => [(t, n)] | None => [] end
      | _, _ => []
      end
  | _, _ => []
  end.
Definition printable (c : ascii) : bool := (32 <=? byte c)%N && (byte c <=? 126)%N.
Definition decoded_hint (t : token) : list (token * str) :=
  match tok_t t with
  | TokValue =>
      if has_prefix "0x" (tok_v t) then
        match hex_decode (skipn 2 (tok_v t)) with
        | Some w => if forallb printable w then [(t, w)] else []
        | None => []
        end
      else []
  | _ => []
  end.
Fixpoint line_hints (args : option (list op_arg)) (rg : range) (i : nat) (l : list token) : list (token * str) * list (token * str) :=
  match l with
  | [] => ([], [])
  | t :: r =>
      let '(n, d) := line_hints args rg (S i) r in
      if overlaps (tok_range t) rg then (named_hint args i t ++ n, decoded_hint t ++ d) else (n, d)
  end.
Definition hints_of_line (rg : range) (l : list token) : list (token * str) * list (token * str) :=
  line_hints (match l with t :: _ => op_args (tok_v t) | [] => None end) rg 0 l.
Fixpoint hints_from (rg : range) (li : nat) (ls : list (list token)) : list (token * str) * list (token * str) :=
  match ls with
  | [] => ([], [])
  | l :: r =>
      let '(n, d) := hints_from rg (S li) r in
      if (r_sl rg <=? Z.of_nat li)%Z && (Z.of_nat li <=? r_el rg)%Z then
        let '(n', d') := hints_of_line rg l in (n' ++ n, d' ++ d)
      else (n, d)
  end.
(* named and decoded hints; a negative first line is an index out of range *)
Definition inlay_hints (r : presult) (rg : range) : res (list (token * str) * list (token * str)) :=
  if (r_sl rg <=? r_el rg)%Z && (r_sl rg <? 0)%Z then Panic
  else Ret (hints_from rg 0 (r_lines r)).

(* ------------------------------------------------------------------------------------------ *)
(* arguments *)

(* process.go:2630-2638 opItemArgVal, without the documentation *)
Record arg_val := ArgVal { av_name : str; av_value : option N; av_version : N }.

Fixpoint vals_from (k : imm) (i : N) (sp : list field_spec) : list arg_val :=
  match sp with
  | [] => []
  | s :: r => (if offered k s then [ArgVal (f_name s) (Some i) (offered_from k s)] else []) ++ vals_from k (i + 1)%N r
  end.
(* process.go:2776-2813 ArgVals; the order of the maps is not specified *)
Definition arg_vals (r : presult) (a : op_arg) : list arg_val :=
  match oa_type a with
  | ILabel => map (fun s => ArgVal (sy_name s) None 0%N) (r_syms r)
  | IConstInt =>
      map (fun x => ArgVal (bs (fst x)) (Some (snd x)) 0%N)
        (filter (fun x => negb (snd x =? 0)%N) txn_type_map ++ on_completion_map)
  | k =>
      match field_table k with
      | Some sp => filter (fun v => (av_version v <=? r_version r)%N) (vals_from k 0 sp)
      | None => []
      end
  end.

(* process.go:2851-2892 ArgAt: the argument (None: no such argument) and its number *)
Definition arg_at (r : presult) (l ch : Z) : res (option op_arg * Z) :=
  if past_end r l then Ret (None, (-1)%Z)
  else
    letr ln := line_of r l in
    let curr := match imm_at ln ch with Some (_, idx) => Z.of_nat idx | None => (Z.of_nat (length ln) - 1)%Z end in
    letr op := index ln 0 in
    match op_args (tok_v op) with
    | None => Ret (None, (-1)%Z)
    | Some args =>
        let n := Z.of_nat (length args) in
        let curr :=
          if (0 <? n)%Z && (n <=? curr)%Z && match nth_error args (length args - 1) with Some a => oa_array a | None => false end
          then (n - 1)%Z else curr in
        if (n <=? curr)%Z then Ret (None, curr)
        else letr a := index args (Z.to_nat curr) in Ret (Some a, curr)
    end.
(* process.go:2894-2905 *)
Definition arg_vals_at (r : presult) (l ch : Z) : res (list arg_val) :=
  letr x := arg_at r l ch in
  Ret (match fst x with Some a => arg_vals r a | None => [] end).

(* what a hover shows *)
(* what DocAt (process.go:2907-3112) returns the text of *)
Inductive shown : Set := NoDoc | OpDoc (name : str) | FieldDoc (k : imm) (f : N).

(* go_algorand.go:633-638 and its relatives: specs[f] after a check against len(specs) only *)
Definition spec_by_field (sp : list field_spec) (v : Z) : res (option N) :=
  if (Z.of_nat (length sp) <=? v)%Z then Ret None
  else if (v <? 0)%Z then Panic else Ret (Some (Z.to_N v)).

(* process.go:2927-3100, one case of the switch *)
Definition field_doc (k : imm) (s : str) : res shown :=
  match k, field_table k with
  | IEcGroup, _ | _, None => Ret NoDoc
  | _, Some sp =>
      match spec_by_name sp s with
      | Some (f, _) => Ret (FieldDoc k f)
      | None =>
          match atoi s with
          | Some v => letr o := spec_by_field sp v in Ret (match o with Some f => FieldDoc k f | None => NoDoc end)
          | None => Ret NoDoc
          end
      end
  end.
(* process.go:2914-3107: the first token around the column; i is its number *)
Fixpoint doc_tok (ln : list token) (i : nat) (l : list token) (ch : Z) : res shown :=
  match l with
  | [] => Ret NoDoc
  | t :: r =>
      if (ch <? Z.of_nat (tok_b t))%Z || (Z.of_nat (tok_e t) <? ch)%Z then doc_tok ln (S i) r ch
      else
        match i with
        | 0 => Ret (match ops_get (tok_v t) with Some _ => OpDoc (tok_v t) | None => NoDoc end)
        | S _ =>
            match imm_at ln ch with
            | None => Ret NoDoc
            | Some (tok, idx) =>
                letr op := index ln 0 in
                match op_args (tok_v op) with
                | None => Ret NoDoc
                | Some args =>
                    let last_array := match nth_error args (length args - 1) with Some a => oa_array a | None => false end in
                    let idx := if (0 <? length args) && (length args <=? idx) && last_array then length args - 1 else idx in
                    match nth_error args idx with
                    | Some a => field_doc (oa_type a) (tok_v tok)
                    | None => Ret NoDoc
                    end
                end
            end
        end
  end.
(* process.go:2907-3110 DocAt *)
Definition doc_at (r : presult) (l ch : Z) : res shown :=
  if past_end r l then Ret NoDoc
  else letr ln := line_of r l in doc_tok ln 0 ln ch.
