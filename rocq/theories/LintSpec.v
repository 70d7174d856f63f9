(* Specification side of the lint rules, in terms of lines (indices) of the listing only. *)
From Verif Require Import Base Expr Flow.

(* b, return and err never continue with the next line *)
Inductive unconditional : expr -> Prop :=
| unc_b n : unconditional (BExpr n)
| unc_return : unconditional ReturnExpr
| unc_err : unconditional ErrExpr.

(* line i comes after an unconditional transfer with no used label in between (line i
   itself included) *)
Definition after_unconditional (l : listing) (i : nat) : Prop :=
  exists j e, j < i /\ nth_error l j = Some e /\ unconditional e /\
    forall k n, j < k <= i -> defines l k n -> ~ used l n.

(* a line that holds an instruction, i.e. not a label, pragma, comment or empty line *)
Definition instruction_at (l : listing) (i : nat) : Prop :=
  exists e, nth_error l i = Some e /\ ~ silent e.

(* line i is a b whose target label is the next thing after it, no-ops apart; every line from
   i+1 up to the label is a pragma, comment or empty line *)
Definition b_before_own_label (l : listing) (i : nat) : Prop :=
  exists n k, nth_error l i = Some (BExpr n) /\ i < k /\ defines l k n /\
    forall m, i < m < k ->
      exists e, nth_error l m = Some e /\ silent e /\ (forall n', e <> LabelExpr n').

(* the lines of l without line i *)
Definition delete_line (i : nat) (l : listing) : listing := firstn i l ++ skipn (S i) l.

(* what a "remove this line" fix does for a set of lines at once *)
Fixpoint delete_lines_from (i : nat) (is : list nat) (l : listing) : listing :=
  match l with
  | [] => []
  | e :: l' =>
      if existsb (Nat.eqb i) is then delete_lines_from (S i) is l'
      else e :: delete_lines_from (S i) is l'
  end.
Definition delete_lines (is : list nat) (l : listing) : listing := delete_lines_from 0 is l.

(* a pragma line *)
Definition pragma_at (l : listing) (i : nat) : Prop := exists v, nth_error l i = Some (PragmaExpr v).

(* a region of lines j..i that, once entered, is never left *)
Definition trap (l : listing) (j i : nat) : Prop :=
  forall pc ks ev c,
    j <= pc <= i -> fstep l (At pc ks) ev c ->
    (exists pc' ks', c = At pc' ks' /\ j <= pc' <= i) \/
    (c = Halted /\ exists n, names_at l pc n /\ forall k, ~ defines l k n).
