(* C85: which lines are statements, and what is wrong with the others. *)
From Verif Require Import Base LexSpec Lexer Expr Linter Fields Strconv Literals Codec OpTable Process ProcessSpec.

(* a line that is a statement of the language, with version v in force *)
Definition statement (en : env) (v : N) (l : list token) : Prop :=
  match kind_of l with
  | LBlank | LComment _ => True
  | LLabel n => n <> []
  | LPragma args => exists w, pragma_version args = Some w
  | LOp p args => exists e, assemble en v p args = Some (e, [])
  | LUnknown => False
  end.

(* operands that are not yet all of them: the one called n is missing *)
Definition lacks (en : env) (v : N) (p : prog) (args : list str) (n : string) : Prop :=
  assemble en v p args = None /\ prog_fault en v p args = (0, RMissing n).
(* operands that may be gone on with, or are complete *)
Definition good_so_far (en : env) (v : N) (p : prog) (args : list str) : Prop :=
  (exists e, assemble en v p args = Some (e, [])) \/ exists n, lacks en v p args n.

(* the mistake in a line: the token that is marked, and why *)
Inductive mistake (en : env) (v : N) : list token -> token -> reason -> Prop :=
| MLabel t r : kind_of (t :: r) = LLabel [] -> mistake en v (t :: r) t RLabelName
| MUnknown t r : kind_of (t :: r) = LUnknown -> mistake en v (t :: r) t (RUnknownOp (tok_v t))
(* #pragma *)
| MPragmaEnd t : kind_of [t] = LPragma [] -> mistake en v [t] t (RMissing "name")
| MPragmaName t a r : kind_of (t :: a :: r) = LPragma (texts (a :: r)) -> tok_v a <> bs "version" ->
    mistake en v (t :: a :: r) a (RPragmaName (tok_v a))
| MPragmaNoValue t a : kind_of [t; a] = LPragma (texts [a]) -> tok_v a = bs "version" ->
    mistake en v [t; a] a (RMissing "version value")
| MPragmaNumber t a b r : kind_of (t :: a :: b :: r) = LPragma (texts (a :: b :: r)) -> tok_v a = bs "version" ->
    parse_uint (tok_v b) 0 64 = None -> mistake en v (t :: a :: b :: r) b RValue
| MPragmaZero t a b r : kind_of (t :: a :: b :: r) = LPragma (texts (a :: b :: r)) -> tok_v a = bs "version" ->
    parse_uint (tok_v b) 0 64 = Some 0%N -> mistake en v (t :: a :: b :: r) b RPragmaValue
(* an operand behind a complete instruction *)
| MSurplus o u t b p e : kind_of (o :: u ++ t :: b) = LOp p (texts (u ++ t :: b)) ->
    assemble en v p (texts u) = Some (e, []) ->
    (forall b', assemble en v p (texts u ++ tok_v t :: b') = Some (e, tok_v t :: b')) ->
    mistake en v (o :: u ++ t :: b) t RTooMany
(* the end of the line instead of an operand: the last token is marked *)
| MMissing o u t p n : o :: u = removelast (o :: u) ++ [t] -> kind_of (o :: u) = LOp p (texts u) ->
    lacks en v p (texts u) n -> mistake en v (o :: u) t (RMissing n)
(* the first operand that is wrong: nothing behind it makes up for it *)
| MValue o u t b p : kind_of (o :: u ++ t :: b) = LOp p (texts (u ++ t :: b)) ->
    good_so_far en v p (texts u) -> ~ good_so_far en v p (texts u ++ [tok_v t]) ->
    (forall b', assemble en v p (texts u ++ tok_v t :: b') = None) ->
    mistake en v (o :: u ++ t :: b) t RValue.

(* the errors about the form of line i *)
Definition errors_on (i : nat) (ds : list diagnostic) : list diagnostic :=
  filter (fun d => match dg_kind d with KParse _ => Nat.eqb (dg_line d) i | _ => false end) ds.
