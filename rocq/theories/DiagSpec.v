(* C89: everything the diagnostics of a document stand for, in one place. *)
From Verif Require Import Base LexSpec Lexer Expr Linter Fields Literals Codec OpTable Process ProcessSpec ErrorSpec.
From Verif Require Flow LintSpec.

(* line i is a b back to the nearest label of that name, and nothing from the label to it ends the
   program or names a label that is defined elsewhere *)
Definition closed_loop (l : listing) (i : nat) : Prop :=
  exists j n, nth_error l i = Some (BExpr n) /\ j < i /\ Flow.defines l j n /\
    (forall k, j < k < i -> ~ Flow.defines l k n) /\
    forall k e, j <= k <= i -> nth_error l k = Some e ->
      e <> ErrExpr /\ e <> ReturnExpr /\ e <> RetSubExpr /\
      forall m d, Flow.names e m -> Flow.defines l d m -> j <= d <= i.

(* what there is to be found in a program *)
Inductive finding (l : listing) : line_error -> Prop :=
| FDuplicate i j n : Flow.defines l i n -> Flow.defines l j n -> j <> i -> finding l (DuplicateLabelError i n)
| FUnused i n : Flow.defines l i n -> ~ Flow.used l n -> finding l (UnusedLabelError i n)
| FUnreachable i : LintSpec.instruction_at l i -> LintSpec.after_unconditional l i -> finding l (UnreachableCodeError i)
| FBranch i : LintSpec.b_before_own_label l i -> finding l (BJustBeforeLabelError i)
| FMissing i n : Flow.names_at l i n -> (forall k, ~ Flow.defines l k n) -> finding l (MissingLabelError i n)
| FLoop i : closed_loop l i -> finding l (InfiniteLoopError i)
| FPragma i j : LintSpec.pragma_at l i -> j < i -> LintSpec.instruction_at l j \/ LintSpec.pragma_at l j ->
    finding l (PragmaVersionAfterInstrError i).

(* the line and the column behind a row of pieces *)
Definition lines_behind (ps : list piece) : nat :=
  length (filter (fun p => match p with PEol _ => true | _ => false end) ps).
Definition column_behind (ps : list piece) : nat :=
  fold_left (fun c p => match p with PEol _ => 0 | _ => c + length (piece_text p) end) ps 0.

(* what is reported about a document: src is its text, r the lines and the listing read from it *)
Inductive reported (en : env) (src : str) (r : presult) : diagnostic -> Prop :=
(* the text ends inside a string: the error is where it ends *)
| ROpen ps w (b := column_behind (ps ++ [POpen w])) : Lexes src (ps ++ [POpen w]) ->
    reported en src r (Diag (lines_behind ps) b b (KLex IncompleteString))
| RMistake i l t rs : nth_error (r_lines r) i = Some l -> mistake en (version_at i (r_lines r)) l t rs ->
    reported en src r (Diag i (tok_b t) (tok_e t) (KParse rs))
| RMode i t rest p args : nth_error (r_lines r) i = Some (t :: rest) -> kind_of (t :: rest) = LOp p args ->
    min_version (mode_at i (r_lines r)) p = 0%N ->
    reported en src r (Diag i (tok_b t) (tok_e t) (KMode (mode_at i (r_lines r))))
| RVersion i t rest p args m : nth_error (r_lines r) i = Some (t :: rest) -> kind_of (t :: rest) = LOp p args ->
    min_version (mode_at i (r_lines r)) p = m -> (version_at i (r_lines r) < m)%N ->
    reported en src r (Diag i (tok_b t) (tok_e t) (KVersion m (version_at i (r_lines r))))
| RFinding e l : finding (r_listing r) e -> nth_error (r_lines r) (le_line e) = Some l ->
    reported en src r (Diag (le_line e) (match l with t :: _ => tok_b t | [] => 0 end)
                            (match rev l with t :: _ => tok_e t | [] => 0 end) (KLint e)).

(* an opcode that may be used in the mode and the version in force *)
Definition available (m : mode) (v : N) (l : list token) : Prop :=
  forall p args, kind_of l = LOp p args -> (0 < min_version m p <= v)%N.

(* a program nothing is wrong with *)
Record sound_program (l : listing) : Prop := {
  io_once : Flow.unique_labels l;
  io_used : forall i n, Flow.defines l i n -> Flow.used l n;
  io_defined : forall i n, Flow.names_at l i n -> exists k, Flow.defines l k n;
  io_alive : forall i, LintSpec.instruction_at l i -> ~ LintSpec.after_unconditional l i;
  io_needed : forall i, ~ LintSpec.b_before_own_label l i;
  io_leaves : forall i, ~ closed_loop l i;
  io_pragma : forall i j, LintSpec.pragma_at l i -> j < i -> ~ LintSpec.instruction_at l j /\ ~ LintSpec.pragma_at l j
}.
