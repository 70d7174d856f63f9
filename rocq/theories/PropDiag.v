(* Property C89: the diagnostics of a document. *)
From Verif Require Import Base LexSpec Lexer Expr Linter Fields Literals Codec OpTable Process ProcessSpec ErrorSpec DiagSpec DiagProofs
  Semantics Query Lsp LspSpec LspProofs PropProcess PropLsp.
From Verif Require Flow LintSpec.

(* ---------------------------------------------------------------- C89: diagnostics are exact *)
(* What is reported about a document is exactly what is wrong with its text, its lines and the
   program they make, each at its place. *)
Theorem C89 en src r d : process en src = Ret r -> (In d (r_diag r) <-> reported en src r d).
Proof. exact (reports_exact en src r d). Qed.
Print Assumptions C89.

(* Nothing is reported if and only if the text is complete, every line is a statement that may be
   used where it is, and the program is in order. *)
Theorem C89_clean en src r : process en src = Ret r ->
  (r_diag r = [] <->
   (forall ps w, ~ Lexes src (ps ++ [POpen w])) /\
   (forall i l, nth_error (r_lines r) i = Some l ->
      statement en (version_at i (r_lines r)) l /\ available (mode_at i (r_lines r)) (version_at i (r_lines r)) l) /\
   sound_program (r_listing r)).
Proof. exact (nothing_reported en src r). Qed.
Print Assumptions C89_clean.

(* then every label that is named is defined on one line, and every label defined is named *)
Theorem C89_labels en src r n : process en src = Ret r -> r_diag r = [] ->
  (Flow.used (r_listing r) n <-> exists k, Flow.defines (r_listing r) k n) /\
  forall i j, Flow.defines (r_listing r) i n -> Flow.defines (r_listing r) j n -> i = j.
Proof.
  intros E D. apply (nothing_reported en src r E) in D as (_ & _ & O). split.
  - split; [intros [i I]; exact (io_defined _ O i n I)|intros [k K]; exact (io_used _ O k n K)].
  - intros i j. apply (io_once _ O).
Qed.
Print Assumptions C89_labels.

(* the reports that are no more than warnings: the program runs as well with them *)
Theorem C89_severity en src r d : process en src = Ret r -> In d (r_diag r) ->
  (dg_severity d = 2 /\ exists e, dg_kind d = KLint e /\
     ((exists i n, e = UnusedLabelError i n) \/ (exists i, e = UnreachableCodeError i) \/ exists i, e = BJustBeforeLabelError i)) \/
  (dg_severity d = 1 /\ forall e, dg_kind d = KLint e ->
     (exists i n, e = DuplicateLabelError i n) \/ (exists i n, e = MissingLabelError i n) \/
     (exists i, e = InfiniteLoopError i) \/ exists i, e = PragmaVersionAfterInstrError i).
Proof.
  intros _ _. destruct d as [l b e k]. cbn [dg_kind dg_severity]. unfold dg_severity. cbn [dg_kind].
  destruct k as [| | | |x]; try (right; split; [reflexivity|]; intros y H; discriminate H).
  destruct x; cbn [le_severity];
    try (left; split; [reflexivity|]; eexists; split; [reflexivity|]; eauto 6; fail);
    right; (split; [reflexivity|]; intros y H; injection H as <-; eauto 8).
Qed.
Print Assumptions C89_severity.

(* the server reports them, for the text it was last sent *)
Theorem C89_server en es s out uri id t r : run en start es = Ret (s, out) -> s_exit s = false -> s_shutdown s = false ->
  latest uri es = Some t -> process (l_env en) t = Ret r ->
  written (handle en s (Call id (Diagnostic (Params (Some uri))))) = Ret [Reply id (ADiagnostic (r_diag r))].
Proof.
  intros R X D L E. rewrite (answers_latest en es s out uri id (Diagnostic (Params (Some uri))) R X D eq_refl), L.
  unfold just_opened. cbn [handle s_shutdown]. unfold results, get_doc. cbn [s_docs find fst].
  rewrite (proj2 (seqb_eq uri uri) eq_refl). cbn [d_res d_text]. rewrite E. reflexivity.
Qed.
Print Assumptions C89_server.

(* one report of each kind *)
Example C89_ex : match process env0 (lines ["int 1"; "#pragma version 3"; "gload 0 0"; "a:"; "a: "; "b c"; "  int 1 "; "c:"; "b c"; "b d"; "d:"; "zzz";
    "//#pragma mode logicsig"; "log"; "b x"; "byte ""abc"]) with
  Ret r => r_diag r =
    [Diag 15 10 10 (KLex IncompleteString); Diag 2 0 5 (KVersion 4 3); Diag 11 0 3 (KParse (RUnknownOp (bs "zzz"))); Diag 13 0 3 (KMode ModeSig);
     Diag 15 0 4 (KParse (RMissing "value"));
     Diag 3 0 2 (KLint (DuplicateLabelError 3 (bs "a"))); Diag 4 0 2 (KLint (DuplicateLabelError 4 (bs "a")));
     Diag 3 0 2 (KLint (UnusedLabelError 3 (bs "a"))); Diag 4 0 2 (KLint (UnusedLabelError 4 (bs "a")));
     Diag 6 2 7 (KLint (UnreachableCodeError 6)); Diag 9 0 3 (KLint (UnreachableCodeError 9));
     Diag 9 0 3 (KLint (BJustBeforeLabelError 9)); Diag 14 0 3 (KLint (MissingLabelError 14 (bs "x")));
     Diag 8 0 3 (KLint (InfiniteLoopError 8)); Diag 1 0 17 (KLint (PragmaVersionAfterInstrError 1))] | _ => False end.
Proof. vm_compute. reflexivity. Qed.
Example C89_clean_ex : match process env0 (lines ["#pragma version 8"; "int 3"; "loop:"; "int 1"; "-"; "dup"; "bnz loop"; "return"]) with
  Ret r => r_diag r = [] /\ length (r_listing r) = 8 | _ => False end.
Proof. vm_compute. split; reflexivity. Qed.
Example C89_server_ex : outputs [open_ (lines ["b x"]); said 1 (Diagnostic (Params (Some doc1))); change_ [lines ["x:"; "b x"]]; said 2 (Diagnostic (Params (Some doc1)))] =
  Ret [Reply (NumId 1) (ADiagnostic [Diag 0 0 1 (KVersion 2 1); Diag 0 0 3 (KLint (MissingLabelError 0 (bs "x")))]);
       Reply (NumId 2) (ADiagnostic [Diag 1 0 1 (KVersion 2 1); Diag 1 0 3 (KLint (InfiniteLoopError 1))])].
Proof. vm_compute. reflexivity. Qed.
