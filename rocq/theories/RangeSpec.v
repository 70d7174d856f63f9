(* What is shown or offered in a range of the document: inlay hints and quick fixes (C75, C76). *)
From Verif Require Import Base Lexer Expr Linter Fields Literals Codec OpTable Process ProcessSpec Semantics Query Lsp HintSpec.

(* the range and the token have a position in common *)
Definition touches (rg : range) (t : token) : Prop := exists l c, in_range rg l c /\ in_range (tok_range t) l c.

(* the operand t is a decimal number; as such it selects the field n of its argument *)
Definition names_field (r : presult) (t : token) (n : str) : Prop :=
  exists k sp j s, operand_kind r t k /\ field_table k = Some sp /\ atoi (tok_v t) = Some (Z.of_nat j) /\
    nth_error sp j = Some s /\ offered k s = true /\ f_name s = n /\ n <> [].

(* the token t is a number in hexadecimal; its bytes are the readable text w *)
Definition decodes (r : presult) (t : token) (w : str) : Prop :=
  (exists ln, nth_error (r_lines r) (tok_l t) = Some ln /\ In t ln) /\ tok_t t = TokValue /\
  exists h, tok_v t = bs "0x" ++ h /\ hex_decode h = Some w /\ Forall (fun c => 32 <= byte c <= 126)%N w.

(* right behind the token *)
Definition behind (t : token) : position := Pos (Z.of_nat (tok_l t)) (Z.of_nat (tok_e t)).

(* on line i an opcode stands that needs version v in the mode of that line; the version there is lower *)
Definition mode_on (r : presult) (k : nat) : mode := last_mode ModeApp (firstn k (r_lines r)).
Definition wants_version (r : presult) (i : nat) (v : N) : Prop :=
  exists op rest p, nth_error (r_lines r) i = Some (op :: rest) /\ ops_get (tok_v op) = Some p /\ tok_t op <> TokComment /\
    v = min_version (mode_on r i) p /\ (version_on r i < v)%N.
(* the extent of the tokens of a line *)
Definition line_extent (l : list token) (rg : range) : Prop :=
  exists a b, hd_error l = Some a /\ last l a = b /\
    rg = Range (Z.of_nat (tok_l a)) (Z.of_nat (tok_b a)) (Z.of_nat (tok_l a)) (Z.of_nat (tok_e b)).
Definition touches_line (rg : range) (l : list token) : Prop :=
  exists x k c, line_extent l x /\ in_range rg k c /\ in_range x k c.

(* what is offered in a range *)
Inductive fix_for (r : presult) (rg : range) : action -> Prop :=
| Fix_line x : In x (lint_redundant (r_listing r)) -> (r_sl rg <= Z.of_nat (red_line x) <= r_el rg)%Z -> fix_for r rg (FixRemoveLine (red_line x))
| Fix_label t : In t (r_refs r) -> (forall s, In s (r_syms r) -> sy_name s <> tok_v t) -> touches rg t -> fix_for r rg (FixCreateLabel (tok_v t))
| Fix_name t n : names_field r t n -> touches rg t -> fix_for r rg (FixReplace (tok_range t) n)
| Fix_text t w : decodes r t w -> touches rg t -> fix_for r rg (FixReplace (tok_range t) (literal_of w))
| Fix_version i l v : nth_error (r_lines r) i = Some l -> wants_version r i v -> touches_line rg l -> fix_for r rg (FixVersion v).
