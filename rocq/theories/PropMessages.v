(* Property C99: what the messages say. *)
From Verif Require Import Base LexSpec Lexer Expr Linter Fields Strconv Literals Codec OpTable Process ProcessSpec
  ErrorSpec DiagSpec Messages MessageSpec MessageProofs.
From Verif Require Flow LintSpec.
From Verif Require Import PropProcess.

(* ---------------------------------------------------------------- C99: the messages are true and tell the problems apart *)
(* The messages about a line are exactly those that are true of it (MessageSpec.v gives the text of
   each with what it claims). *)
Theorem C99 en src r i m : process en src = Ret r ->
  ((exists d, In d (r_diag r) /\ dg_line d = i /\ message d = Some m) <-> true_message en src r i m).
Proof. exact (messages_exact en src r i m). Qed.
Print Assumptions C99.

(* two diagnostics of a line with one message are the same *)
Theorem C99_told_apart en src r d d' m : process en src = Ret r -> In d (r_diag r) -> In d' (r_diag r) ->
  dg_line d = dg_line d' -> message d = Some m -> message d' = Some m -> d = d'.
Proof. exact (messages_apart en src r d d' m). Qed.
Print Assumptions C99_told_apart.

(* all diagnostics have a message, but those about a wrong operand, whose texts are in C103 *)
Theorem C99_all d : message d = None <-> dg_kind d = KParse RValue.
Proof.
  unfold message. split.
  - destruct (dg_kind d) as [[]|x| | |]; try discriminate. destruct x; try discriminate. reflexivity.
  - intros ->. reflexivity.
Qed.
Print Assumptions C99_all.

(* so a message can be taken at its word; for the labels *)
Theorem C99_labels en src r i n : process en src = Ret r ->
  let says t := exists d, In d (r_diag r) /\ dg_line d = i /\ message d = Some (bs t ++ n ++ bs """") in
  (says "unused label: """ <-> Flow.defines (r_listing r) i n /\ ~ Flow.used (r_listing r) n) /\
  (says "missing label: """ <-> Flow.names_at (r_listing r) i n /\ forall k, ~ Flow.defines (r_listing r) k n) /\
  (says "duplicate label: """ <-> Flow.defines (r_listing r) i n /\ exists j, j <> i /\ Flow.defines (r_listing r) j n).
Proof.
  intros E says. split; [|split]; split.
  - intros H. apply (message_finding en src r (UnusedLabelError i n) E) in H. inversion H; subst. auto.
  - intros [D U]. apply (message_finding en src r (UnusedLabelError i n) E). exact (FUnused _ i n D U).
  - intros H. apply (message_finding en src r (MissingLabelError i n) E) in H. inversion H; subst. auto.
  - intros [D U]. apply (message_finding en src r (MissingLabelError i n) E). exact (FMissing _ i n D U).
  - intros H. apply (message_finding en src r (DuplicateLabelError i n) E) in H. inversion H; subst. eauto.
  - intros [D [j [J U]]]. apply (message_finding en src r (DuplicateLabelError i n) E). exact (FDuplicate _ i j n D U J).
Qed.
Print Assumptions C99_labels.

Definition texts_shown (r : presult) : list (nat * str) :=
  flat_map (fun d => match message d with Some m => [(dg_line d, m)] | None => [] end) (r_diag r).
Example C99_ex : match process env0 (lines ["int 1"; "#pragma version 3"; "gload 0 0"; "a:"; "a: "; "b c"; "  int 1 "; "c:"; "b c"; "b d"; "d:"; "zzz";
    "//#pragma mode logicsig"; "log"; "b x"; ":"; "#pragma mode"; "#pragma version 0"; "int 1 2"; "int"; "int x"; "byte ""abc"]) with
  Ret r => texts_shown r =
    [(21, bs "incomplete string"); (2, bs "opcode requires version >= 4 (current: 3)"); (11, bs "unknown opcode: zzz");
     (13, bs "opcode not available in the current mode: logicsig"); (15, bs "missing label name");
     (16, bs "unexpected #pragma: mode"); (17, bs "version must be at least 1"); (18, bs "too many values");
     (19, bs "missing arg: value"); (21, bs "missing arg: value");
     (3, bs "duplicate label: ""a"""); (4, bs "duplicate label: ""a""");
     (3, bs "unused label: ""a"""); (4, bs "unused label: ""a""");
     (6, bs "unreachable code"); (9, bs "unreachable code"); (18, bs "unreachable code");
     (9, bs "unconditional branch just before the target label"); (14, bs "missing label: ""x""");
     (8, bs "infinite loop"); (1, bs "#pragma version is only allowed before instructions")] | _ => False end.
Proof. vm_compute. reflexivity. Qed.
