(* The rules a report declares, with their descriptions (cmd/tealsarif/main.go:43-65). *)
From Verif Require Import Base.

(* cmd/tealsarif/main.go:44-55; the Id and Desc methods, linter.go:284-290, 306-312, 329-335, 373-379, 424-430, 487-493,
   517-523, 530-536, in the order of LintRules, linter.go:540-551 *)
Definition rule_table : list (str * str) :=
  [ (bs "SYNTAX", bs "Syntax checks");
    (bs "PARSE", bs "Parser checks");
    (bs "LINT0001", bs "Checks for duplicate labels in a single TEAL source file");
    (bs "LINT0002", bs "Checks for labels that are never referenced in the code");
    (bs "LINT0003", bs "Checks for ops after an unconditional branch call");
    (bs "LINT0004", bs "Checks for redundant branch calls that are placed just before their target labels");
    (bs "LINT0005", bs "Checks infinite loops presence");
    (bs "LINT0006", bs "Checks proper #pragma usage");
    (bs "LINT0007", bs "Checks opcode availability in the current mode (app or logicsig)");
    (bs "LINT0008", bs "Checks opcode is available in the current version") ].
