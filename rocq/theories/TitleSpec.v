(* What the titles of the quick fixes say, and that they tell the fixes apart (C105, C106). *)
From Verif Require Import Base LexSpec Lexer Expr Linter Codec Literals OpTable Process ProcessSpec Semantics Query Lsp HintSpec RangeSpec.

(* line i of the document begins with the word w *)
Definition line_begins (r : presult) (i : nat) (w : str) : Prop :=
  exists t rest, nth_error (r_lines r) i = Some (t :: rest) /\ tok_t t <> TokComment /\ tok_v t = w.

(* x is a string of the source whose bytes are w *)
Definition spells (x w : str) : Prop :=
  exists b u, x = c_quote :: b ++ [c_quote] /\ quotes_escaped b /\ ~ last_is c_bslash b /\ Unescaped b u /\ denotes u w.

(* a fix does what its title says *)
Inductive says (r : presult) : str -> action -> Prop :=
| Says_label i n : line_begins r i (n ++ bs ":") -> says r (bs "Remove label '" ++ n ++ bs "'") (FixRemoveLine i)
| Says_b i : line_begins r i (bs "b") -> says r (bs "Remove b call") (FixRemoveLine i)
| Says_create t : In t (r_refs r) -> says r (bs "Create label '" ++ tok_v t ++ bs "'") (FixCreateLabel (tok_v t))
| Says_name t n : names_field r t n -> says r (bs "Replace with '" ++ n ++ bs "'") (FixReplace (tok_range t) n)
| Says_text t w x : decodes r t w -> spells x w -> says r (bs "Replace with literal '" ++ w ++ bs "'") (FixReplace (tok_range t) x)
| Says_version i v : wants_version r i v -> says r (bs "Update version to " ++ dec v) (FixVersion v).

(* the same but for the place where it happens *)
Inductive same_but_place : action -> action -> Prop :=
| Same_remove i j : same_but_place (FixRemoveLine i) (FixRemoveLine j)
| Same_create n : same_but_place (FixCreateLabel n) (FixCreateLabel n)
| Same_replace a b v : same_but_place (FixReplace a v) (FixReplace b v)
| Same_version v : same_but_place (FixVersion v) (FixVersion v).
(* the cursor stands somewhere, nothing is selected *)
Definition cursor (rg : range) : Prop := r_sl rg = r_el rg /\ r_sc rg = r_ec rg.
