(* The texts of the diagnostics, as the client is shown them (lsp/lsp.go:770). *)
From Verif Require Import Base LexSpec Lexer Expr Linter Codec OpTable Process.

(* fmt.Sprintf with %s between double quotes: the text goes in as it is (linter.go:62, 84, 169) *)
Definition quoted (s : str) : str := c_quote :: s ++ [c_quote].

(* the Error methods, linter.go:61-63, 83-85, 104-106, 125-127, 168-170, 189-191, 210-212 *)
Definition lint_text (e : line_error) : str :=
  match e with
  | DuplicateLabelError _ n => bs "duplicate label: " ++ quoted n
  | UnusedLabelError _ n => bs "unused label: " ++ quoted n
  | UnreachableCodeError _ => bs "unreachable code"
  | BJustBeforeLabelError _ => bs "unconditional branch just before the target label"
  | MissingLabelError _ n => bs "missing label: " ++ quoted n
  | InfiniteLoopError _ => bs "infinite loop"
  | PragmaVersionAfterInstrError _ => bs "#pragma version is only allowed before instructions"
  end.

(* process.go:843-852 ProgramMode.String *)
Definition mode_text (m : mode) : str :=
  match m with ModeApp => bs "application" | ModeSig => bs "logicsig" | ModeNone => bs "(unknown)" end.

(* process.go:933, 951, 956, 3210, 3287, 3291.  The texts about an operand that is not what is
   expected (process.go:985, 1160-1351) hold the error of the conversion that failed, most of them
   an error of strconv, base32 or base64; they are in Complaints.v. *)
Definition reason_text (r : reason) : option str :=
  match r with
  | RMissing n => Some (bs "missing arg: " ++ bs n)
  | RValue => None
  | RTooMany => Some (bs "too many values")
  | RUnknownOp s => Some (bs "unknown opcode: " ++ s)
  | RLabelName => Some (bs "missing label name")
  | RPragmaName s => Some (bs "unexpected #pragma: " ++ s)
  | RPragmaValue => Some (bs "version must be at least 1")
  end.

(* the String methods: lexer.go:146-148 (164, 231, 251), parser.go:29-31, 65-67 (process.go:3255, 3266, 3306) *)
Definition message (d : diagnostic) : option str :=
  match dg_kind d with
  | KLex IncompleteString => Some (bs "incomplete string")
  | KLex IncompleteComment => Some (bs "incomplete comment")
  | KParse r => reason_text r
  | KMode m => Some (bs "opcode not available in the current mode: " ++ mode_text m)
  | KVersion min v => Some (bs "opcode requires version >= " ++ dec min ++ bs " (current: " ++ dec v ++ bs ")")
  | KLint e => Some (lint_text e)
  end.
