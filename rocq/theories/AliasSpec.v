(* C117: labels are only names.  A renaming that keeps the names of a program apart. *)
From Verif Require Import Base Expr Linter RenameSpec Vm.

(* the names a program has: of its labels and in its branches *)
Definition name_of (l : listing) (n : str) : Prop :=
  exists e, In e l /\ (e = LabelExpr n \/ In n (uses e)).
(* no two names of the program become one *)
Definition keeps_apart (f : str -> str) (l : listing) : Prop :=
  forall a b, name_of l a -> name_of l b -> f a = f b -> a = b.

(* a finding of the linter, with its label renamed *)
Definition rename_error (f : str -> str) (e : line_error) : line_error :=
  match e with
  | DuplicateLabelError i n => DuplicateLabelError i (f n)
  | UnusedLabelError i n => UnusedLabelError i (f n)
  | MissingLabelError i n => MissingLabelError i (f n)
  | e => e
  end.
Definition rename_redundant (f : str -> str) (r : redundant_line) : redundant_line :=
  match r with
  | RedundantLabelLine i n => RedundantLabelLine i (f n)
  | RedundantBLine i => RedundantBLine i
  end.

(* two machines that differ in the names only: those in the program and the trace, and those that
   the branches and the frames are shown under, which are labels or one of two fixed names *)
Definition shown_name (f : str -> str) (m n : str) : Prop :=
  n = f m \/ n = m /\ (m = MainName \/ m = ExitName).
Definition alike_frames (f : str -> str) (a b : frame) : Prop :=
  fr_return b = fr_return a /\ fr_args b = fr_args a /\ fr_returns b = fr_returns a /\ fr_p b = fr_p a /\
  shown_name f (fr_name a) (fr_name b).
Record alike_branches (f : str -> str) (a b : branch) : Prop := {
  ab_id : b_id b = b_id a;
  ab_line : b_line b = b_line a;
  ab_stack : b_stack b = b_stack a;
  ab_frames : Forall2 (alike_frames f) (b_frames a) (b_frames b);
  ab_shown : shown_name f (b_name a) (b_name b);
  ab_budget : b_budget b = b_budget a;
  ab_trace : b_trace b = map (rename_expr f) (b_trace a)
}.
Record alike_machines (f : str -> str) (a b : vm) : Prop := {
  am_id : v_id b = v_id a;
  am_listing : v_listing b = map (rename_expr f) (v_listing a);
  am_version : v_version b = v_version a;
  am_scratch : v_scratch b = v_scratch a;
  am_branches : Forall2 (alike_branches f) (v_branches a) (v_branches b);
  am_branch : v_branch b = v_branch a;
  am_current : v_current b = v_current a;
  am_bps : v_bps b = v_bps a;
  am_trig : v_trig b = v_trig a;
  am_error : v_error b = v_error a
}.
(* the same outcome, and machines that differ in the names only *)
Definition alike_outcomes (f : str -> str) (a b : res vm) : Prop :=
  match a, b with
  | Ret v, Ret w => alike_machines f v w
  | Panic, Panic => True
  | OutOfFuel, OutOfFuel => True
  | _, _ => False
  end.

(* what can be done to a machine *)
Inductive command : Set :=
| CStep
| CRun (fuel : nat)
| CSwitch (id : nat)
| CBreak (lns : list Z).
Definition obey (c : command) (v : vm) : res vm :=
  match c with
  | CStep => step v
  | CRun fuel => run_vm fuel v
  | CSwitch id => Ret (switch_vm id v)
  | CBreak lns => letr p := set_breakpoints lns v in Ret (fst p)
  end.
(* a program put into a new machine, and the commands one after the other *)
Definition drive (l : listing) (version : N) (cs : list command) : res vm :=
  fold_left (fun r c => letr v := r in obey c v) cs (new_vm l version).
