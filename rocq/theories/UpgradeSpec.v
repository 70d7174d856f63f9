(* What a program is after its version has been raised. *)
From Verif Require Import Base Expr Linter Process.

(* only the pragma differs, or there is one now; a pragma keeps the last byte of the version *)
Definition upgraded (v : N) (l l' : listing) : Prop :=
  (exists a w b, l = a ++ PragmaExpr w :: b /\ l' = a ++ PragmaExpr (v mod 256) :: b) \/
  ((forall w, ~ In (PragmaExpr w) l) /\ l' = PragmaExpr (v mod 256) :: l).

(* a complaint that an opcode needs a newer version, not newer than v *)
Definition too_old (v : N) (d : diagnostic) : Prop := exists need got, dg_kind d = KVersion need got /\ (need <= v)%N.
