(* The vocabulary of property C93: the debugger and the linter. *)
From Verif Require Import Base Expr Fields Vm VmSpec.

(* instructions that continue with the next line, at least on one way: all but b, callsub, return
   and err; retsub does outside of a subroutine (expr.go:1646-1673) *)
Definition falls (e : expr) : Prop :=
  match e with BExpr _ | CallSubExpr _ | ReturnExpr | ErrExpr => False | _ => True end.

(* nothing returns from a subroutine: no calls, or no returns *)
Definition no_returns (l : listing) : Prop :=
  (forall n, ~ In (CallSubExpr n) l) \/ ~ In RetSubExpr l.

(* branch b stands on one of the lines from .. to *)
Definition stands_in (from to : nat) (b : branch) : Prop := exists i, on_line b i /\ from <= i <= to.
