(* The costs of the opcodes, from the published opcode reference (TEAL_opcodes_v1.md to
   TEAL_opcodes_v8.md), not from the code, and what it means that the debugger charges them. *)
From Verif Require Import Base Expr Vm.

Inductive published_cost : Set :=
| Constant (c : Z)
| PerCurve (k1 r1 : Z) (* for Secp256k1 and Secp256r1 *)
(* base, and per for every size bytes, begun ones included, of the operand below depth others *)
| PerBytes (base per size : Z) (depth : nat).

Definition constant_costs : list (Z * list string) :=
  [ (4%Z, ["sqrt"; "b~"]);
    (6%Z, ["b|"; "b&"; "b^"]);
    (10%Z, ["expw"; "b+"; "b-"]);
    (20%Z, ["divmodw"; "b/"; "b*"; "b%"]);
    (40%Z, ["bsqrt"]);
    (130%Z, ["sha3_256"]);
    (1900%Z, ["ed25519verify"; "ed25519verify_bare"]);
    (2000%Z, ["ecdsa_pk_recover"]);
    (5700%Z, ["vrf_verify"]) ]%string.

Fixpoint constant_cost (t : list (Z * list string)) (n : string) : Z :=
  match t with
  | [] => 1%Z
  | (c, ns) :: r => if existsb (String.eqb n) ns then c else constant_cost r n
  end.

(* ver is the version of the program *)
Definition published (ver : N) (n : string) : published_cost :=
  let hash v1 later := Constant (if (ver =? 1)%N then v1 else later) in
  if String.eqb n "sha256" then hash 7%Z 35%Z
  else if String.eqb n "keccak256" then hash 26%Z 130%Z
  else if String.eqb n "sha512_256" then hash 9%Z 45%Z
  else if String.eqb n "ecdsa_verify" then PerCurve 1700 2500
  else if String.eqb n "ecdsa_pk_decompress" then PerCurve 650 2400
  else if String.eqb n "base64_decode" then PerBytes 1 1 16 0
  else if String.eqb n "json_ref" then PerBytes 25 2 7 1 (* of the object A, which is below the key B *)
  else Constant (constant_cost constant_costs n).

(* the debugger knows that a value is the bytes s, maybe from a scratch slot *)
Inductive holds_bytes : value -> str -> Prop :=
| hb_constant T s : holds_bytes (Val T (Some (SBytes s))) s
| hb_slot T x s : holds_bytes x s -> holds_bytes (Val T (Some (SValue x))) s.

(* branch k has paid c, or has left the program because it could not *)
Definition charged (v v' : vm) (k : nat) (c : Z) : Prop :=
  exists b b', nth_error (v_branches v) k = Some b /\ nth_error (v_branches v') k = Some b' /\
    (((c <= b_budget b)%Z /\ b_budget b' = (b_budget b - c)%Z) \/
     ((b_budget b < c)%Z /\ b_budget b' = b_budget b /\ b_line b' = None)).

(* the step from v to v', which executes the opcode n with these operands on branch k, costs what is
   published, as far as this is known *)
Definition right_cost (ver : N) (n : string) (args : list str) (v v' : vm) (k : nat) : Prop :=
  match published ver n with
  | Constant c => charged v v' k c
  | PerCurve k1 r1 =>
      (hd_error args = Some (bs "Secp256k1") \/ hd_error args = Some (bs "0") -> charged v v' k k1) /\
      (hd_error args = Some (bs "Secp256r1") \/ hd_error args = Some (bs "1") -> charged v v' k r1)
  | PerBytes base per size depth =>
      forall b x s, nth_error (v_branches v) k = Some b -> nth_error (b_stack b) depth = Some x ->
        holds_bytes x s ->
        charged v v' k (base + per * ((Z.of_nat (length s) + size - 1) / size))
  end.

(* what the debugger takes for the length of a value: of a constant its own, of a number none at all *)
Inductive taken_length : value -> nat -> Prop :=
| tl_bytes T s : taken_length (Val T (Some (SBytes s))) (length s)
| tl_method T s : taken_length (Val T (Some (SSignature s))) 4
| tl_number T n : taken_length (Val T (Some (SUint64 n))) 0
| tl_slot T x n : taken_length x n -> taken_length (Val T (Some (SValue x))) n.
