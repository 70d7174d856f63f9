(** Model of lexer.go. *)
From Verif Require Import Base Utf8.

(** lexer.go:10-16 *)
Inductive toktype := TokEol | TokValue | TokComment.

(** lexer.go:18-26 *)
Record token := Token {
  tok_v : str;      (* value *)
  tok_l : nat;      (* line *)
  tok_b : nat;      (* begin *)
  tok_e : nat;      (* end *)
  tok_t : toktype }.

(** lexer.go:127-132; [msg] is one of two constant texts. *)
Inductive lexmsg := IncompleteString | IncompleteComment.
Record lexer_error := LexErr { le_l : nat; le_li : nat; le_msg : lexmsg }.

(** lexer.go:64-78.  Indices are [nat]; [z.p - z.lb] and [z.i - z.lb] never
    go below zero (LexerProofs.v, [lx_wf]). *)
Record lexer := Lexer {
  zp : nat; zi : nat; zl : nat; zlb : nat; zli : nat;
  zts : list token; ztsi : nat; zdiag : list lexer_error; zsrc : str }.

(** The zero value [&Lexer{Source: src}] (process.go:3115). *)
Definition new_lexer (src : str) : lexer :=
  {| zp := 0; zi := 0; zl := 0; zlb := 0; zli := 0; zts := []; ztsi := 0; zdiag := []; zsrc := src |}.

(** lexer.go:80-87 *)
Definition z_fail (z : lexer) (m : lexmsg) : lexer :=
  Lexer (zp z) (zi z) (zl z) (zlb z) (zli z) (zts z) (ztsi z)
        (zdiag z ++ [LexErr (zl z) (zli z) m]) (zsrc z).

(** lexer.go:89-92 *)
Definition z_inc (z : lexer) (n : nat) : lexer :=
  Lexer (zp z) (zi z + n) (zl z) (zlb z) (zli z + n) (zts z) (ztsi z) (zdiag z) (zsrc z).

(** [z.p = z.i] *)
(* the position after a value without emit: z.p = z.i, as at lexer.go:104, 184, 222, 244, 265 *)
Definition z_mark (z : lexer) : lexer :=
  Lexer (zi z) (zi z) (zl z) (zlb z) (zli z) (zts z) (ztsi z) (zdiag z) (zsrc z).

(** [z.ts = append(z.ts, Token{l: z.l, b: z.p - z.lb, e: z.i - z.lb, v: v, t: t})],
    the idiom of lexer.go:95-102, 178-185, 236-243, 257-264. *)
Definition z_append (z : lexer) (v : str) (t : toktype) : lexer :=
  Lexer (zp z) (zi z) (zl z) (zlb z) (zli z)
        (zts z ++ [Token v (zl z) (zp z - zlb z) (zi z - zlb z) t])
        (ztsi z) (zdiag z) (zsrc z).

(** lexer.go:106-111: [z.l++; z.li = 0; z.lb = z.i] *)
Definition z_newline (z : lexer) : lexer :=
  Lexer (zp z) (zi z) (S (zl z)) (zi z) 0 (zts z) (ztsi z) (zdiag z) (zsrc z).

(** lexer.go:94-112 *)
Definition z_emit (z : lexer) (t : toktype) : res lexer :=
  letr v := slice (zsrc z) (zp z) (zi z) in
  let z := z_mark (z_append z v t) in
  match t with
  | TokEol => Ret (z_newline z)
  | _ => Ret z
  end.

(** [utf8.DecodeRune(z.Source[z.i:])]; the slice expression panics when
    [z.i > len(z.Source)]. *)
(* utf8.DecodeRune(z.Source[z.i:]) (lexer.go:159, 168, 199, ...) *)
Definition z_rune_at (z : lexer) (i : nat) : res (N * nat) :=
  if i <=? length (zsrc z) then Ret (decode_rune (skipn i (zsrc z))) else Panic.

Local Open Scope char_scope.
(* the runes the lexer compares with (lexer.go:116-121, 162-171, 281-291, 308-320) *)
Definition r_quote := rune_of """".
Definition r_bslash := rune_of "\".
Definition r_slash := rune_of "/".
Definition r_space := rune_of " ".
Definition r_tab := rune_of (ascii_of_N 9).
Definition r_lf := rune_of (ascii_of_N 10).
Definition r_cr := rune_of (ascii_of_N 13).
Close Scope char_scope.

(** lexer.go:114-125 *)
Definition is_terminating (c : N) : bool :=
  ((c =? r_cr) || (c =? r_lf) || (c =? r_space) || (c =? r_tab))%N.

(** [strings.ReplaceAll] at lexer.go:173: drop the backslash of every backslash-quote pair. *)
Fixpoint unescape_quotes (s : str) : str :=
  match s with
  | [] => []
  | c :: s' =>
    match s' with
    | d :: s'' =>
      if (byte c =? r_bslash)%N && (byte d =? r_quote)%N
      then d :: unescape_quotes s''
      else c :: unescape_quotes s'
    | [] => [c]
    end
  end.

(* lexer.go:173 *)
Definition quote_str : str := bs """".

(** lexer.go:162-191, the loop reading a quoted string; [p] is the previous rune. *)
Fixpoint read_string (fuel : nat) (p : N) (z : lexer) : res lexer :=
  match fuel with
  | 0 => OutOfFuel
  | S fuel' =>
    if zi z =? length (zsrc z) then Ret (z_fail z IncompleteString)
    else
      letr cn := z_rune_at z (zi z) in
      let '(c, n) := cn in
      if ((c =? r_quote) && negb (p =? r_bslash))%N then
        let z := z_inc z n in
        letr s := slice (zsrc z) (zp z + 1) (zi z - 1) in
        let v := quote_str ++ unescape_quotes s ++ quote_str in
        Ret (z_mark (z_append z v TokValue))
      else read_string fuel' c (z_inc z n)
  end.

(** lexer.go:193-207, the loop reading an unquoted value. *)
Fixpoint read_word (fuel : nat) (z : lexer) : res lexer :=
  match fuel with
  | 0 => OutOfFuel
  | S fuel' =>
    if zi z =? length (zsrc z) then z_emit z TokValue
    else
      letr cn := z_rune_at z (zi z) in
      let '(c, n) := cn in
      if is_terminating c then z_emit z TokValue
      else read_word fuel' (z_inc z n)
  end.

(** lexer.go:158-208 *)
Definition read_value (fuel : nat) (z : lexer) : res lexer :=
  letr pn := z_rune_at z (zi z) in
  let '(p, n) := pn in
  if (p =? r_quote)%N then read_string fuel p (z_inc z n) else read_word fuel z.

(** lexer.go:210-224 *)
Fixpoint skip_whitespace (fuel : nat) (z : lexer) : res lexer :=
  match fuel with
  | 0 => OutOfFuel
  | S fuel' =>
    if zi z =? length (zsrc z) then Ret z
    else
      letr cn := z_rune_at z (zi z) in
      let '(c, n) := cn in
      if (negb (c =? r_space) && negb (c =? r_tab))%N then Ret z
      else skip_whitespace fuel' (z_mark (z_inc z n))
  end.

(** lexer.go:226-272 *)
Fixpoint read_comment (fuel : nat) (z : lexer) : res lexer :=
  match fuel with
  | 0 => OutOfFuel
  | S fuel' =>
    let l := zi z - zp z in
    if zi z =? length (zsrc z) then
      if l <? 2 then Ret (z_fail z IncompleteComment)
      else
        letr v := slice (zsrc z) (zp z + 2) (zi z) in
        Ret (z_mark (z_append z v TokComment))
    else
      letr cn := z_rune_at z (zi z) in
      let '(c, n) := cn in
      if l <? 2 then
        if negb (c =? r_slash)%N then Ret (z_fail z IncompleteComment)
        else read_comment fuel' (z_inc z n)
      else if ((c =? r_cr) || (c =? r_lf))%N then
        letr v := slice (zsrc z) (zp z + 2) (zi z) in
        Ret (z_mark (z_append z v TokComment))
      else read_comment fuel' (z_inc z n)
  end.

(** lexer.go:274-302 *)
Fixpoint read_eol (fuel : nat) (z : lexer) : res lexer :=
  match fuel with
  | 0 => OutOfFuel
  | S fuel' =>
    if zi z =? length (zsrc z) then z_emit z TokEol
    else
      letr cn := z_rune_at z (zi z) in
      let '(c, n) := cn in
      if (c =? r_cr)%N then
        let z := z_inc z n in
        if zi z <? length (zsrc z) then
          letr cn2 := z_rune_at z (zi z) in
          let '(c2, n2) := cn2 in
          z_emit (if (c2 =? r_lf)%N then z_inc z n2 else z) TokEol
        else z_emit z TokEol
      else if (c =? r_lf)%N then z_emit (z_inc z n) TokEol
      else read_eol fuel' (z_inc z n)
  end.

(** Fuel for one call: every iteration of every loop consumes at least one byte. *)
(* every loop of lexer.go:158-331 reads at least one byte a turn *)
Definition z_fuel (z : lexer) : nat := S (length (zsrc z)).

(** lexer.go:304-323 *)
Definition read_tokens (z : lexer) : res lexer :=
  letr z := skip_whitespace (z_fuel z) z in
  if zi z <? length (zsrc z) then
    letr cn := z_rune_at z (zi z) in
    let '(c, n) := cn in
    letr nc := (if zi z + n <? length (zsrc z)
                then mapr fst (z_rune_at z (zi z + n)) else Ret 0%N) in
    if ((c =? r_slash) && (nc =? r_slash))%N then read_comment (z_fuel z) z
    else if ((c =? r_lf) || (c =? r_cr))%N then read_eol (z_fuel z) z
    else read_value (z_fuel z) z
  else Ret z.

(** lexer.go:325-331 *)
Definition z_read (z : lexer) : res lexer :=
  if zi z =? length (zsrc z) then Ret z else read_tokens z.

(** [z.tsi = n] *)
(* lexer.go:333-353: the index of the next token *)
Definition z_set_tsi (z : lexer) (n : nat) : lexer :=
  Lexer (zp z) (zi z) (zl z) (zlb z) (zli z) (zts z) n (zdiag z) (zsrc z).

(** lexer.go:333-341 *)
Definition z_return (z : lexer) : lexer * bool :=
  match ztsi z with
  | 0 => (z, false)
  | S n => (z_set_tsi z n, true)
  end.

(** lexer.go:343-353 *)
Definition z_scan (z : lexer) : res (lexer * bool) :=
  let z := if ztsi z <? length (zts z) then z_set_tsi z (S (ztsi z)) else z in
  letr z := (if length (zts z) =? ztsi z then z_read z else Ret z) in
  Ret (z, ztsi z <? length (zts z)).

(** The zero [Token{}]; its type is the empty string in Go. *)
(* lexer.go:355-361 *)
Definition zero_token : option token := None.

(** lexer.go:355-361; [None] is the zero token. *)
Definition z_curr (z : lexer) : res (option token) :=
  if length (zts z) =? ztsi z then Ret zero_token
  else letr t := index (zts z) (ztsi z) in Ret (Some t).

(** lexer.go:363-365 *)
Definition z_errors (z : lexer) : list lexer_error := zdiag z.

(** The scanning loop of process.go:3114-3128 and of the tests:
    [for z.Scan() { ts = append(ts, z.Curr()) }]. *)
Fixpoint scan_all (fuel : nat) (z : lexer) (acc : list token) : res (lexer * list token) :=
  match fuel with
  | 0 => OutOfFuel
  | S fuel' =>
    letr r := z_scan z in
    let '(z, ok) := r in
    if ok then
      letr t := z_curr z in
      match t with
      | Some t => scan_all fuel' z (acc ++ [t])
      | None => Panic
      end
    else Ret (z, acc)
  end.

(** All tokens and errors of a source. *)
(* for z.Scan() { append(z.Curr()) } and z.Errors() (process.go:3114-3130) *)
Definition tokenize (src : str) : res (list token * list lexer_error) :=
  letr r := scan_all (S (S (length src))) (new_lexer src) [] in
  Ret (snd r, zdiag (fst r)).
