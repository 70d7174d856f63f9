(* Where the values on the stacks of the debugger come from, and what their texts say. *)
From Verif Require Import Base Expr VmOps Vm VmSpec.

(* some branch has executed e *)
Definition executed (v : vm) (e : expr) : Prop :=
  exists b, In b (v_branches v) /\ In e (b_trace b).

(* x is a constant that e pushes (expr.go:1252-1256, 1320-1328, 2253-2259) *)
Definition bytes_of (e : expr) (x : str) : Prop :=
  match e with
  | PushBytesExpr b _ | ByteExpr b _ => x = b
  | PushBytessExpr xs => In x xs
  | _ => False
  end.

(* the values that instructions of the set S can have made: values of which only the type is known,
   the constants of S, copies out of the scratch space and hashes that record their operand
   (expr.go:74-80, 1086-1092, 1276-1281, 2235-2239) *)
Inductive made (S : expr -> Prop) : value -> Prop :=
| made_plain T : made S (Val T None)
| made_int n : S (IntExpr n) -> made S (Val TUint64 (Some (SUint64 n)))
| made_bytes e x : S e -> bytes_of e x -> made S (Val TBytes (Some (SBytes x)))
| made_method s : S (MethodExpr s) -> made S (Val TBytes (Some (SSignature s)))
| made_load i x : S (LoadExpr i) -> made S x -> made S (Val TAny (Some (SValue x)))
| made_sha256 x : S (Op0 Sha256Expr) -> made S x ->
    made S (Val TBytes (Some (SOp "sha256" [x]))).

(* the value is on a stack or in the scratch space of the machine *)
Definition holds (v : vm) (x : value) : Prop :=
  (exists b, In b (v_branches v) /\ In x (b_stack b)) \/ In x (v_scratch v).

(* the instructions that no branch can pay for (vm.go:244-259, a branch has 700) *)
Definition unaffordable (e : expr) : Prop := forall ver c, price ver e c -> (700 < c)%Z.
