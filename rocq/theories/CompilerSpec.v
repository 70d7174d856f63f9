(* Specification side of the optimizer and of Compile. *)
From Verif Require Import Base Expr Linter Flow LintSpec Compiler.

(* s is a subsequence of l: l with some elements left out *)
Inductive subseq {A} : list A -> list A -> Prop :=
| subseq_nil : subseq [] []
| subseq_keep x s l : subseq s l -> subseq (x :: s) (x :: l)
| subseq_skip x s l : subseq s l -> subseq s (x :: l).

(* how often label n is defined *)
Fixpoint definitions (n : str) (l : listing) : nat :=
  match l with
  | [] => 0
  | LabelExpr m :: l' => (if str_dec m n then 1 else 0) + definitions n l'
  | _ :: l' => definitions n l'
  end.

(* every retsub stands directly below a label that is used *)
Definition retsubs_below_used_labels (l : listing) : Prop :=
  forall i, nth_error l i = Some RetSubExpr ->
    exists j n, i = S j /\ defines l j n /\ used l n.

(* line i stands directly below a label that is used *)
Definition below_used_label (l : listing) (i : nat) : Prop :=
  exists j n, i = S j /\ defines l j n /\ used l n.

(* whoever passes over no-ops, over retsubs that do not stand directly below a used label, and
   follows b, comes from line i to a retsub that does *)
Inductive leads_to_such_a_retsub (l : listing) : nat -> Prop :=
| lr_here i : nth_error l i = Some RetSubExpr -> below_used_label l i -> leads_to_such_a_retsub l i
| lr_silent i e : nth_error l i = Some e -> silent e -> leads_to_such_a_retsub l (S i) ->
    leads_to_such_a_retsub l i
| lr_retsub i : nth_error l i = Some RetSubExpr -> leads_to_such_a_retsub l (S i) ->
    leads_to_such_a_retsub l i
| lr_b i n k : nth_error l i = Some (BExpr n) -> defines l k n -> leads_to_such_a_retsub l k ->
    leads_to_such_a_retsub l i.

(* no run executes a retsub outside of a subroutine *)
Definition retsubs_have_callers (l : listing) : Prop :=
  forall tr i, run l start tr (At i []) -> nth_error l i <> Some RetSubExpr.

(* code reported as unreachable has a label between it and every b, return or err above it *)
Definition dead_code_behind_labels (l : listing) : Prop :=
  forall i j e, In (UnreachableCodeError i) (lint l) -> nth_error l j = Some e -> unconditional e ->
    j < i -> exists k n, j < k < i /\ defines l k n.

(* only no-ops stand between line i and a later retsub or proto *)
Definition before_retsub_or_proto (l : listing) (i : nat) : Prop :=
  exists k e, i < k /\ nth_error l k = Some e /\ (e = RetSubExpr \/ exists a r, e = ProtoExpr a r) /\
    forall m, i < m < k -> exists e', nth_error l m = Some e' /\ silent e'.

(* the instructions of a nested program, left to right *)
Fixpoint leaves (e : pexpr) : list expr :=
  match e with
  | POp e => [e]
  | PList es => flat_map leaves es
  | PProgram es => flat_map leaves es
  | PListing l => l
  | POther => []
  end.

(* built from instructions and plain lists only *)
Inductive plain_tree : pexpr -> Prop :=
| pt_op e : plain_tree (POp e)
| pt_list es : (forall e, In e es -> plain_tree e) -> plain_tree (PList es).

(* a value that is neither an instruction nor a list occurs in it *)
Inductive has_other : pexpr -> Prop :=
| ho_here : has_other POther
| ho_list es e : In e es -> has_other e -> has_other (PList es).
