(* The vocabulary in which the properties of the abstract interpreter are stated. *)
From Verif Require Import Base Expr Fields VmOps Vm.

(* what a debugger can do with the machine (vm.go:398, 408, 430, 501) *)
Inductive command (v : vm) : vm -> Prop :=
| cmd_step v' : step v = Ret v' -> command v v'
| cmd_run v' fuel : run_vm fuel v = Ret v' -> command v v'
| cmd_switch id : command v (switch_vm id v)
| cmd_breakpoints lns v' ns : set_breakpoints lns v = Ret (v', ns) -> command v v'.

(* what a debugger session can do *)
Inductive later (v : vm) : vm -> Prop :=
| later_now : later v v
| later_command v1 v2 : later v v1 -> command v1 v2 -> later v v2.

(* the states a debugger session can bring the machine to (vm.go:337) *)
Definition reach (l : listing) (ver : N) (v : vm) : Prop :=
  exists v0, new_vm l ver = Ret v0 /\ later v0 v.

(* the branch with identity id *)
Definition has_branch (v : vm) (id : nat) (b : branch) : Prop :=
  In b (v_branches v) /\ b_id b = id.

(* c is a price of instruction e: what Cost returns for some stack, 1 when it returns nothing *)
Definition price (ver : N) (e : expr) (c : Z) : Prop :=
  (1 <= c)%Z /\
  exists b, cost_of e ver b = Ret [c] \/ (cost_of e ver b = Ret [] /\ c = 1%Z).

Definition total (cs : list Z) : Z := fold_right Z.add 0%Z cs.

(* a listing without the one instruction whose Execute method loops forever *)
Definition no_dupn_255 (l : listing) : Prop :=
  forall n, In (DupNExpr n) l -> (n < 255)%N.

(* branch b stands on line i of the program *)
Definition on_line (b : branch) (i : nat) : Prop := b_line b = Some i.

(* the branch has left the program *)
Definition exited (b : branch) : Prop := b_line b = None.

(* branch id was reported at a breakpoint by the last step *)
Definition reported (v : vm) (id : nat) : Prop := exists ls, In (id, ls) (v_trig v).

(* nothing more to execute, or an instruction has failed: Run does not go on (vm.go:502) *)
Definition finished (v : vm) : Prop := v_branch v = None \/ v_error v = true.

(* pressing continue until the end *)
Inductive continued (v : vm) : vm -> Prop :=
| continued_end : finished v -> continued v v
| continued_more fuel v1 v2 :
    ~ finished v -> run_vm fuel v = Ret v1 -> continued v1 v2 -> continued v v2.

(* equal up to breakpoints and breakpoint reports *)
Definition same_execution (v w : vm) : Prop :=
  v_id v = v_id w /\ v_listing v = v_listing w /\ v_version v = v_version w /\
  v_scratch v = v_scratch w /\ v_branches v = v_branches w /\ v_branch v = v_branch w /\
  v_current v = v_current w /\ v_error v = v_error w.

(* the machine stands before instruction e of branch b, line i *)
Record before (l : listing) (v : vm) (k : nat) (b : branch) (i : nat) (e : expr) : Prop := {
  before_current : v_branch v = Some k;
  before_branch : nth_error (v_branches v) k = Some b;
  before_line : b_line b = Some i;
  before_op : nth_error l i = Some e
}.

(* the branch has run past the last line but is not marked as exited yet *)
Definition past_end (l : listing) (b : branch) : Prop :=
  exists i, b_line b = Some i /\ length l <= i.

(* where a jump to label t goes: the last line with that label; nowhere without such a line *)
Definition target (l : listing) (t : str) (x : option nat) : Prop :=
  match x with
  | Some i => nth_error l i = Some (LabelExpr t) /\
              forall j, i < j -> nth_error l j <> Some (LabelExpr t)
  | None => forall j, nth_error l j <> Some (LabelExpr t)
  end.

(* a branch sent to line x stands on the first executable line from there on, or has left the
   program when there is none *)
Definition arrives (l : listing) (x : option nat) (b : branch) : Prop :=
  match x with
  | None => exited b
  | Some i =>
      exists j, i <= j /\
        (forall m, i <= m < j -> exists e, nth_error l m = Some e /\ is_nop e = true) /\
        match nth_error l j with
        | Some e => is_nop e = false /\ on_line b j
        | None => exited b \/ past_end l b
        end
  end.

(* the possible successors of the instruction on line i: of the executing branch itself, and
   of the branches forked for the other outcomes *)
Inductive successors (l : listing) (i : nat) : expr -> option nat -> list (option nat) -> Prop :=
| succ_b t x : target l t x -> successors l i (BExpr t) x []
| succ_bz t x : target l t x -> successors l i (BzExpr t) (Some (S i)) [x]
| succ_bnz t x : target l t x -> successors l i (BnzExpr t) (Some (S i)) [x]
| succ_callsub t x : target l t x -> successors l i (CallSubExpr t) x []
| succ_switch ts xs : Forall2 (target l) ts xs -> successors l i (SwitchExpr ts) (Some (S i)) xs
| succ_match ts xs : Forall2 (target l) ts xs -> successors l i (MatchExpr ts) (Some (S i)) xs.

Definition jumps (e : expr) : bool :=
  match e with
  | BExpr _ | BzExpr _ | BnzExpr _ | CallSubExpr _ | SwitchExpr _ | MatchExpr _ => true
  | _ => false
  end.

(* the lines the pending subroutine calls of a branch return to, innermost first *)
Definition returns (b : branch) : list (option nat) := map fr_return (b_frames b).

(* the instruction on line i is paid for and does not fail *)
Definition executes (ver : N) (v : vm) (b : branch) (e : expr) (v' : vm) : Prop :=
  step v = Ret v' /\ v_error v' = false /\
  exists c, (cost_of e ver b = Ret [c] \/ (cost_of e ver b = Ret [] /\ c = 1%Z)) /\
            (c <= b_budget b)%Z.

(* langspec.json: the effect of the stack instructions; stacks are written top first, None
   means that the instruction fails *)
Definition stack_spec {A} (e : expr) (s : list A) : option (list A) :=
  match e, s with
  | Op0 PopExpr, _ :: r => Some r (* discard A *)
  | PopNExpr n, s => (* remove N values from the top of the stack *)
      if (N.to_nat n <=? length s) then Some (skipn (N.to_nat n) s) else None
  | Op0 DupExpr, a :: r => Some (a :: a :: r) (* duplicate A *)
  | Op0 Dup2Expr, b :: a :: r => Some (b :: a :: b :: a :: r) (* duplicate A and B *)
  | DupNExpr n, a :: r => Some (repeat a (N.to_nat n) ++ a :: r) (* duplicate A, N times *)
  | Op0 SwapExpr, b :: a :: r => Some (a :: b :: r) (* swaps A and B on stack *)
  | DigExpr n, s => (* Nth value from the top of the stack *)
      match nth_error s (N.to_nat n) with Some x => Some (x :: s) | None => None end
  | BuryExpr n, a :: r => (* replace the Nth value from the top of the stack with A *)
      if (0 <? N.to_nat n) && (N.to_nat n <=? length r)
      then Some (upd_nth (N.to_nat n - 1) (fun _ => a) r) else None
  | CoverExpr n, a :: r => (* place it deeper such that N elements are above it *)
      if (N.to_nat n <=? length r) then Some (firstn (N.to_nat n) r ++ a :: skipn (N.to_nat n) r)
      else None
  | UncoverExpr n, s => (* remove the value at depth N, put it on top *)
      match nth_error s (N.to_nat n) with
      | Some x => Some (x :: firstn (N.to_nat n) s ++ skipn (S (N.to_nat n)) s)
      | None => None
      end
  | _, _ => None
  end%bool.

(* the stack instructions of property C37 that move values without looking at them *)
Definition stack_op (e : expr) : bool :=
  match e with
  | Op0 PopExpr | PopNExpr _ | Op0 DupExpr | Op0 Dup2Expr | DupNExpr _ | Op0 SwapExpr
  | DigExpr _ | BuryExpr _ | CoverExpr _ | UncoverExpr _ => true
  | _ => false
  end.
