(* C116: spacing, line ends and comments behind code. *)
From Verif Require Import Base LexSpec Lexer LexerProofs Expr Linter Process ProcessSpec.

(* where in a line one is *)
Inductive place := AtStart | InCode | Behind.
(* what is left of a document when white space, the kinds of line ends and comments behind code are disregarded *)
Fixpoint bare (s : place) (ps : list piece) : list piece :=
  match ps with
  | [] => []
  | PBlank _ :: r => bare s r
  | PEol _ :: r => PEol [c_lf] :: bare AtStart r
  | PComment w :: r => match s with AtStart => PComment w :: bare InCode r | _ => bare Behind r end
  | POpen w :: _ => [POpen w]
  | p :: r => match s with Behind => bare Behind r | _ => p :: bare InCode r end
  end.
Definition respaced (s s' : str) : Prop :=
  exists ps ps', Lexes s ps /\ Lexes s' ps' /\ bare AtStart ps = bare AtStart ps'.

(* a diagnostic that marks the line l from its token number x to its token number y *)
Definition marks_tokens (l : list token) (d : diagnostic) (x y : nat) : Prop :=
  exists t t', nth_error l x = Some t /\ nth_error l y = Some t' /\ dg_b d = tok_b t /\ dg_e d = tok_e t'.
(* the same complaint about the same tokens of the same line; an open string is complained about where the text ends *)
Record alike (r r' : presult) (d d' : diagnostic) : Prop := {
  al_line : dg_line d = dg_line d';
  al_kind : dg_kind d = dg_kind d';
  al_marks : match dg_kind d with
    | KLex _ => True
    | _ => exists l l', nth_error (r_lines r) (dg_line d) = Some l /\ nth_error (r_lines r') (dg_line d) = Some l' /\
        ((l = [] /\ l' = [] /\ dg_b d = 0 /\ dg_e d = 0 /\ dg_b d' = 0 /\ dg_e d' = 0) \/
         exists x y, marks_tokens l d x y /\ marks_tokens l' d' x y)
    end }.
