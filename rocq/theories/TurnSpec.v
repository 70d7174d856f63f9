(* Whose turn it is: the branches of the machine stand in a ring, in the order they were made. *)
From Verif Require Import Base Expr Fields VmOps Vm VmSpec.

(* there is an instruction on the line of the branch *)
Definition in_program (l : listing) (b : branch) : Prop := exists i, on_line b i /\ i < length l.

(* k is the first place from c on, around the ring of branches, with a branch that is not over *)
Definition first_from (over : branch -> Prop) (c : nat) (branches : list branch) (k : nat) : Prop :=
  exists d, d < length branches /\ k = (c + d) mod length branches /\
    (forall b, nth_error branches k = Some b -> ~ over b) /\
    forall d' b, d' < d -> nth_error branches ((c + d') mod length branches) = Some b -> over b.

(* it is the turn of branch b, at place k, before instruction e of line i *)
Record turn (l : listing) (v : vm) (k : nat) (b : branch) (i : nat) (e : expr) : Prop := {
  turn_first : first_from (fun b => ~ in_program l b) (v_current v) (v_branches v) k;
  turn_branch : nth_error (v_branches v) k = Some b;
  turn_line : on_line b i;
  turn_op : nth_error l i = Some e
}.

(* dupn counts to 255 in a byte: the loop of expr.go:1887 does not end *)
Definition counts_forever (e : expr) : Prop := exists n, e = DupNExpr n /\ (255 <= n)%N.

(* Run comes from v to v' step by step: nothing is finished and no breakpoint reported on the way *)
Inductive runs_to (v : vm) : vm -> Prop :=
| runs_here : runs_to v v
| runs_on v1 v2 : runs_to v v1 -> ~ finished v1 -> step v1 = Ret v2 -> v_trig v2 = [] -> runs_to v v2.

(* nothing was executed on the branch *)
Definition unmoved (x x' : branch) : Prop :=
  b_id x' = b_id x /\ b_stack x' = b_stack x /\ b_frames x' = b_frames x /\ b_budget x' = b_budget x /\ b_trace x' = b_trace x.
