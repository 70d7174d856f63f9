(* C99: the messages about a document, each with what it claims. *)
From Verif Require Import Base LexSpec Lexer Expr Linter Fields Literals Codec OpTable Process ProcessSpec ErrorSpec DiagSpec.
From Verif Require Flow LintSpec.

(* the message m about line i of the document is true: src is the text, r what was read from it *)
Inductive true_message (en : env) (src : str) (r : presult) (i : nat) : str -> Prop :=
| TOpen ps w : Lexes src (ps ++ [POpen w]) -> i = lines_behind ps -> true_message en src r i (bs "incomplete string")
| TMissing l t n : nth_error (r_lines r) i = Some l -> mistake en (version_at i (r_lines r)) l t (RMissing n) ->
    true_message en src r i (bs "missing arg: " ++ bs n)
| TTooMany l t : nth_error (r_lines r) i = Some l -> mistake en (version_at i (r_lines r)) l t RTooMany ->
    true_message en src r i (bs "too many values")
(* the first word of the line is no opcode *)
| TUnknown t rest : nth_error (r_lines r) i = Some (t :: rest) -> kind_of (t :: rest) = LUnknown ->
    true_message en src r i (bs "unknown opcode: " ++ tok_v t)
| TLabelName t rest : nth_error (r_lines r) i = Some (t :: rest) -> kind_of (t :: rest) = LLabel [] ->
    true_message en src r i (bs "missing label name")
| TPragma t a rest : nth_error (r_lines r) i = Some (t :: a :: rest) -> kind_of (t :: a :: rest) = LPragma (texts (a :: rest)) ->
    tok_v a <> bs "version" -> true_message en src r i (bs "unexpected #pragma: " ++ tok_v a)
| TPragmaZero l t : nth_error (r_lines r) i = Some l -> mistake en (version_at i (r_lines r)) l t RPragmaValue ->
    true_message en src r i (bs "version must be at least 1")
(* the opcode and the mode or the version in force *)
| TMode t rest p args n : nth_error (r_lines r) i = Some (t :: rest) -> kind_of (t :: rest) = LOp p args ->
    min_version (mode_at i (r_lines r)) p = 0%N ->
    (mode_at i (r_lines r) = ModeApp /\ n = "application" \/ mode_at i (r_lines r) = ModeSig /\ n = "logicsig")%string ->
    true_message en src r i (bs "opcode not available in the current mode: " ++ bs n)
| TVersion t rest p args : nth_error (r_lines r) i = Some (t :: rest) -> kind_of (t :: rest) = LOp p args ->
    (version_at i (r_lines r) < min_version (mode_at i (r_lines r)) p)%N ->
    true_message en src r i (bs "opcode requires version >= " ++ dec (min_version (mode_at i (r_lines r)) p) ++
                             bs " (current: " ++ dec (version_at i (r_lines r)) ++ bs ")")
(* the program *)
| TDuplicate j n : Flow.defines (r_listing r) i n -> Flow.defines (r_listing r) j n -> j <> i ->
    true_message en src r i (bs "duplicate label: """ ++ n ++ bs """")
| TUnused n : Flow.defines (r_listing r) i n -> ~ Flow.used (r_listing r) n ->
    true_message en src r i (bs "unused label: """ ++ n ++ bs """")
| TUnreachable : LintSpec.instruction_at (r_listing r) i -> LintSpec.after_unconditional (r_listing r) i ->
    true_message en src r i (bs "unreachable code")
| TBranch : LintSpec.b_before_own_label (r_listing r) i ->
    true_message en src r i (bs "unconditional branch just before the target label")
| TNoLabel n : Flow.names_at (r_listing r) i n -> (forall k, ~ Flow.defines (r_listing r) k n) ->
    true_message en src r i (bs "missing label: """ ++ n ++ bs """")
| TLoop : closed_loop (r_listing r) i -> true_message en src r i (bs "infinite loop")
| TPragmaLate j : LintSpec.pragma_at (r_listing r) i -> j < i ->
    LintSpec.instruction_at (r_listing r) j \/ LintSpec.pragma_at (r_listing r) j ->
    true_message en src r i (bs "#pragma version is only allowed before instructions").
