(* What the instructions demand of the stack. *)
From Verif Require Import Base Expr VmOps Vm LangSpec VmTypes.

(* langspec.json: the types of the operands of an instruction, the deepest operand first: those
   of lang_spec, and those of the jumps and the end of the program that it leaves out (the entries
   bnz 978, bz 990, return 1013 and switch 1677 have Args U; match, 1688, consumes one value more
   than it has labels, of any type) *)
Definition demanded (e : expr) : option (list vtype) :=
  match e with
  | BnzExpr _ | BzExpr _ | SwitchExpr _ | ReturnExpr => Some [TUint64]
  | MatchExpr ts => Some (repeat TAny (S (length ts)))
  | _ => option_map fst (lang_spec e)
  end.

(* instructions whose operands nobody looks at: the machine has no Execute method for them *)
Definition ignores_operands (e : expr) : bool :=
  match e with
  | Op0 Extract64BitsExpr | Op0 BminusExpr | Op0 BytesBitOrExpr => true
  | _ => false
  end.

(* the operands the instruction demands are on the stack *)
Definition served (a : list vtype) (st : list value) : Prop :=
  exists xs s, st = rev xs ++ s /\ Forall2 fits a xs.
