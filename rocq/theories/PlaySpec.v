(* What a program does in a real execution: the instructions executed with the stack before and
   after them, and whether the program is approved.  The world (transaction, ledger, hash functions)
   may depend on what has been executed before. *)
From Verif Require Import Base Expr Flow VmSpec RealSpec.

Record entry : Set := Did { a_op : expr; a_before : list real_value; a_after : list real_value }.
Definition history := list entry.

(* labels, pragmas, comments, empty lines and b have no effect besides the order of the others *)
Definition recorded (e : expr) : bool :=
  match e with
  | LabelExpr _ | PragmaExpr _ | EmptyExpr | CommentExpr _ | BExpr _ => false
  | _ => true
  end.

(* an execution with history h stands in state c *)
Inductive plays (W : history -> world) (l : listing) : history -> real_state -> Prop :=
| plays_start : plays W l [] beginning
| plays_step h c e c' : plays W l h c -> nth_error l (c_line c) = Some e ->
    instruction (W h) l e c c' ->
    plays W l (if recorded e then h ++ [Did e (c_stack c) (c_stack c')] else h) c'.

(* the program may do h *)
Definition can_do (W : history -> world) (l : listing) (h : history) : Prop := exists c, plays W l h c.

(* the program may do h and then be approved: return with a number other than 0 on top, or the end of
   the program with such a number as the only value *)
Definition approves (W : history -> world) (l : listing) (h : history) : Prop :=
  exists c n, plays W l h c /\ n <> 0%N /\
    ((nth_error l (c_line c) = Some ReturnExpr /\ exists s, c_stack c = CInt n :: s) \/
     (length l <= c_line c /\ c_stack c = [CInt n])).

Definition same_results (l l' : listing) : Prop :=
  forall W, (forall h, lawful (W h)) ->
  forall h, (can_do W l h <-> can_do W l' h) /\ (approves W l h <-> approves W l' h).

(* labels are unique and every label named is defined *)
Definition assembles (l : listing) : Prop :=
  unique_labels l /\ forall n, used l n -> exists k, defines l k n.
