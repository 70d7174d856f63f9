(* What the call stack of a stopped program should say: under which name a line is shown. *)
From Verif Require Import Base Expr.

(* A line belongs to the nearest label above it; the lines before the first label belong to
   the main program (vm.go:13). *)
Definition belongs (l : listing) (i : nat) (n : str) : Prop :=
  (exists j, j < i /\ nth_error l j = Some (LabelExpr n) /\
     forall m n', j < m < i -> nth_error l m <> Some (LabelExpr n')) \/
  (n = "(main)"%string /\ forall m n', m < i -> nth_error l m <> Some (LabelExpr n')).

(* every label that is jumped to is defined *)
Definition all_defined (l : listing) : Prop :=
  forall i t,
    (nth_error l i = Some (BExpr t) \/ nth_error l i = Some (BzExpr t) \/
     nth_error l i = Some (BnzExpr t) \/ nth_error l i = Some (CallSubExpr t) \/
     (exists ts, (nth_error l i = Some (SwitchExpr ts) \/ nth_error l i = Some (MatchExpr ts)) /\ In t ts)) ->
    exists j, nth_error l j = Some (LabelExpr t).
