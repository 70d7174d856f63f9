(* Property C85: the errors reported about the form of the lines. *)
From Verif Require Import Base LexSpec Lexer Expr Linter Fields Strconv Literals Codec OpTable Process ProcessSpec
  ErrorSpec ErrorProofs.
From Verif Require Import PropProcess.

(* ---------------------------------------------------------------- C85: errors are exact *)
(* Every line of a document either is a statement and no error is reported on it, or it is none and
   exactly one is, which names the mistake of the line and stands on the token at fault. *)
Theorem C85 en src r i l : process en src = Ret r -> nth_error (r_lines r) i = Some l ->
  (statement en (version_at i (r_lines r)) l /\ errors_on i (r_diag r) = []) \/
  exists t rs, ~ statement en (version_at i (r_lines r)) l /\ errors_on i (r_diag r) = [error_at t rs] /\
               mistake en (version_at i (r_lines r)) l t rs.
Proof. exact (errors_exact en src r i l). Qed.
Print Assumptions C85.

(* a line has one mistake at most, so the error is determined by the line *)
Theorem C85_determined en v l t t' r r' : mistake en v l t r -> mistake en v l t' r' -> t = t' /\ r = r'.
Proof. exact (mistake_unique en v l t t' r r'). Qed.
Print Assumptions C85_determined.

(* A document without such errors is a program: every line is a statement, and the listing has its
   entry at the place of the line. *)
Theorem C85_clean en src r : process en src = Ret r ->
  (forall d, In d (r_diag r) -> match dg_kind d with KParse _ => False | _ => True end) ->
  length (r_listing r) = length (r_lines r) /\
  forall i l, nth_error (r_lines r) i = Some l -> statement en (version_at i (r_lines r)) l /\
    exists e, nth_error (r_listing r) i = Some e /\ entries en (version_at i (r_lines r)) l = [e].
Proof. exact (clean_program en src r). Qed.
Print Assumptions C85_clean.

(* one line for each mistake *)
Example C85_ex : match process env0 (lines [":"; "bogus 1"; "#pragma"; "#pragma mode x"; "#pragma version"; "#pragma version x";
    "#pragma version 0"; "int 1 2 3"; "txna Accounts"; "gtxna 0 Nothing 1"; "byte base64"; "bytecblock 0x00 b64 *** 0x01"]) with
  Ret r => r_diag r =
    [Diag 0 0 1 (KParse RLabelName); Diag 1 0 5 (KParse (RUnknownOp (bs "bogus"))); Diag 2 0 7 (KParse (RMissing "name"));
     Diag 3 8 12 (KParse (RPragmaName (bs "mode"))); Diag 4 8 15 (KParse (RMissing "version value")); Diag 5 16 17 (KParse RValue);
     Diag 6 16 17 (KParse RPragmaValue); Diag 7 6 7 (KParse RTooMany); Diag 8 0 4 (KVersion 2 1);
     Diag 8 5 13 (KParse (RMissing "i")); Diag 9 0 5 (KVersion 2 1);
     Diag 9 8 15 (KParse RValue); Diag 10 5 11 (KParse (RMissing "literal")); Diag 11 20 23 (KParse RValue)] | _ => False end.
Proof. vm_compute. reflexivity. Qed.
