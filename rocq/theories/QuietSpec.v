(* C115: lines that say nothing. *)
From Verif Require Import Base LexSpec Lexer Expr Linter Process ProcessSpec FixLines.

(* a blank line, or a line with nothing but a comment that does not declare the mode *)
Inductive quiet : str -> Prop :=
| quiet_blank bl : Forall is_blank bl -> quiet bl
| quiet_comment bl w : Forall is_blank bl -> Forall (fun c => ~ is_eolc c) w -> trim_space w <> bs "#pragma mode logicsig" ->
    quiet (bl ++ c_slash :: c_slash :: w).

(* the number of line i, once a line has been put in as line k *)
Definition down (k i : nat) : nat := if i <? k then i else S i.
Definition error_down (k : nat) (e : line_error) : line_error :=
  match e with
  | DuplicateLabelError i n => DuplicateLabelError (down k i) n
  | UnusedLabelError i n => UnusedLabelError (down k i) n
  | UnreachableCodeError i => UnreachableCodeError (down k i)
  | BJustBeforeLabelError i => BJustBeforeLabelError (down k i)
  | MissingLabelError i n => MissingLabelError (down k i) n
  | InfiniteLoopError i => InfiniteLoopError (down k i)
  | PragmaVersionAfterInstrError i => PragmaVersionAfterInstrError (down k i)
  end.
(* the same complaint, that many columns in, on the line the line has become *)
Definition diag_down (k : nat) (d : diagnostic) : diagnostic :=
  Diag (down k (dg_line d)) (dg_b d) (dg_e d) match dg_kind d with KLint e => KLint (error_down k e) | x => x end.
