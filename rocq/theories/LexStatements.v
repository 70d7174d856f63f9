(** Vocabulary used to state the lexer properties (C01-C06). *)
From Verif Require Import Base Lexer LexSpec.

Definition is_eol_tok (t : token) : bool := match tok_t t with TokEol => true | _ => false end.

(** The value of a token is the text it covers, up to the documented changes. *)
Definition token_text (t : token) (raw : str) : Prop :=
  match tok_t t with
  | TokEol => tok_v t = raw /\ (raw = [c_lf] \/ raw = [c_cr; c_lf] \/ raw = [c_cr])
  | TokComment => raw = c_slash :: c_slash :: tok_v t
  | TokValue =>
      (tok_v t = raw /\ ends_before (fun c => c <> c_quote) raw /\ Forall (fun c => ~ is_delim c) raw) \/
      (exists w v, raw = c_quote :: w ++ [c_quote] /\ Unescaped w v /\ tok_v t = c_quote :: v ++ [c_quote])
  end.

(** A gap of blanks followed by the text of a token. *)
Definition seg : Type := str * str.
Definition seg_text (s : seg) : str := fst s ++ snd s.

(** [ts] tiles [src]: blanks, token, blanks, token, ..., and a tail without tokens. *)
Definition Tiles (src : str) (ts : list token) (segs : list seg) (tail : str) : Prop :=
  src = concat (map seg_text segs) ++ tail /\
  Forall2 (fun s t => Forall is_blank (fst s) /\ snd s <> [] /\
                      tok_e t = tok_b t + length (snd s) /\ token_text t (snd s)) segs ts.

Definition blank_tail (tail : str) : Prop := Forall is_blank tail.
Definition open_string_tail (tail : str) : Prop :=
  exists gap w, tail = gap ++ c_quote :: w /\ Forall is_blank gap /\ quotes_escaped w.

(** Positions: walking over the segments from byte [off], on line [line] which starts at
    byte [start], every token has the line and line-relative offsets of its text. *)
Fixpoint Placed (line start off : nat) (segs : list seg) (ts : list token) : Prop :=
  match segs, ts with
  | [], [] => True
  | (gap, raw) :: segs', t :: ts' =>
      let o := off + length gap in
      let o' := o + length raw in
      tok_l t = line /\ start + tok_b t = o /\ start + tok_e t = o' /\
      (if is_eol_tok t then Placed (S line) o' o' segs' ts' else Placed line start o' segs' ts')
  | _, _ => False
  end.

Definition pos_lt (t u : token) : Prop :=
  tok_l t < tok_l u \/ (tok_l t = tok_l u /\ tok_b t < tok_b u).

(** Cursor calls and their observable answers. *)
Inductive lop := OScan | OReturn | OCurr.
Inductive lout := OutBool (b : bool) | OutTok (t : option token).

Fixpoint run_lexer (ops : list lop) (z : lexer) : res (list lout) :=
  match ops with
  | [] => Ret []
  | OScan :: ops' => letr r := z_scan z in
                     letr o := run_lexer ops' (fst r) in Ret (OutBool (snd r) :: o)
  | OReturn :: ops' => letr o := run_lexer ops' (fst (z_return z)) in
                       Ret (OutBool (snd (z_return z)) :: o)
  | OCurr :: ops' => letr t := z_curr z in letr o := run_lexer ops' z in Ret (OutTok t :: o)
  end.

(** The specification: a cursor over a fixed list, [None] before the first Scan. *)
Fixpoint run_cursor (ts : list token) (c : option nat) (ops : list lop) : list lout :=
  match ops with
  | [] => []
  | OScan :: ops' =>
      let n := match c with None => 0 | Some n => Nat.min (S n) (length ts) end in
      OutBool (n <? length ts) :: run_cursor ts (Some n) ops'
  | OReturn :: ops' =>
      match c with
      | Some (S n) => OutBool true :: run_cursor ts (Some n) ops'
      | _ => OutBool false :: run_cursor ts c ops'
      end
  | OCurr :: ops' =>
      OutTok (match c with Some n => nth_error ts n | None => None end) :: run_cursor ts c ops'
  end.

(** Bytes the lexer treats specially. *)
Definition special (c : ascii) : Prop :=
  c = c_quote \/ c = c_bslash \/ c = c_slash \/ is_delim c.

Definition map_token (g : ascii -> ascii) (t : token) : token :=
  Token (map g (tok_v t)) (tok_l t) (tok_b t) (tok_e t) (tok_t t).
