(* Properties C96 and C97: the values of the debugger and their texts. *)
From Verif Require Import Base Expr Codec Print Process VmOps Vm VmSpec Dbg LexSpec ValueSpec ValueProofs TextProofs PropProcess PropVm.

(* ------------------------------------------------------------------------------------------ *)
(* C96: a value on a stack or in the scratch space was made by instructions that a branch of the
   machine has executed, and those are lines of the program *)
Theorem C96_origin : forall l ver v x,
  reach l ver v -> holds v x -> made (fun e => executed v e /\ In e l) x.
Proof.
  intros l ver v x R H. eapply made_mono; [|eapply held_made; eauto].
  intros e X. split; [exact X|eapply executed_listed; eauto].
Qed.
Print Assumptions C96_origin.

(* in particular a constant shown for a value is written in the program, on a line that was executed *)
Corollary C96_constants : forall l ver v T s,
  reach l ver v -> holds v (Val T (Some s)) ->
  match s with
  | SUint64 n => In (IntExpr n) l /\ executed v (IntExpr n)
  | SSignature x => In (MethodExpr x) l /\ executed v (MethodExpr x)
  | SBytes x => exists e, bytes_of e x /\ In e l /\ executed v e
  | _ => True
  end.
Proof.
  intros l ver v T s R H. pose proof (C96_origin _ _ _ _ R H) as M.
  inversion M as [|n [A B]|e x [A B] C|x [A B]|i x A M1|x A M1];
    subst; eauto.
Qed.
Print Assumptions C96_constants.

(* An instruction that costs more than the 700 a branch starts with is never executed; among them are
   the two that would record more than one operand. *)
Theorem C96_dear : forall l ver v e, reach l ver v -> unaffordable e -> ~ executed v e.
Proof. exact dear_not_executed. Qed.
Print Assumptions C96_dear.
Example C96_dear_ex : unaffordable (Op0 ED25519VerifyExpr) /\ forall i, unaffordable (EcdsaVerifyExpr i).
Proof. split; [exact ed25519_dear|exact ecdsa_dear]. Qed.

(* byte 0x61; store 3; load 3; sha256; int 7: the stack holds the number and the hash of the value
   loaded from the scratch space *)
Definition hashing : listing :=
  [ByteExpr (bs "a") 0; StoreExpr 3; LoadExpr 3; Op0 Sha256Expr; IntExpr 7; Op0 ConcatExpr].
Definition letter_a : value := Val TBytes (Some (SBytes (bs "a"))).
Definition hash_a : value := Val TBytes (Some (SOp "sha256" [Val TAny (Some (SValue letter_a))])).

Example C96_nonvacuous : exists v b, reach hashing 8 v /\ In b (v_branches v) /\
  b_stack b = [Val TUint64 (Some (SUint64 7)); hash_a] /\
  holds v hash_a /\ holds v letter_a /\ ~ made (fun e => e <> Op0 Sha256Expr) hash_a.
Proof.
  do 2 eexists. split; [in_session [Step; Step; Step; Step; Step]|]. split; [left; reflexivity|].
  split; [reflexivity|]. split.
  - left. eexists. split; [left; reflexivity|]. right. left. reflexivity.
  - split; [right; vm_compute; auto 10|]. intros H. inversion H; congruence.
Qed.

(* ------------------------------------------------------------------------------------------ *)
(* C97: two values with the same text are the same value, even in sessions with different documents *)
Theorem C97_text_tells_value : forall en src r ver v x en' src' r' ver' v' x',
  process en src = Ret r -> reach (r_listing r) ver v -> holds v x ->
  process en' src' = Ret r' -> reach (r_listing r') ver' v' -> holds v' x' ->
  value_text x = value_text x' -> x = x'.
Proof.
  intros en src r ver v x en' src' r' ver' v' x' P R H P' R' H' E. apply text_injective; [| |exact E].
  - eapply made_readable; [|exact (C96_origin _ _ _ _ R H)]. intros s [_ Hs]. exact (document_quoted _ _ _ _ P Hs).
  - eapply made_readable; [|exact (C96_origin _ _ _ _ R' H')]. intros s [_ Hs]. exact (document_quoted _ _ _ _ P' Hs).
Qed.
Print Assumptions C97_text_tells_value.

(* Not every pair of values a machine could hold in principle can be told apart: this takes an operand
   list of more than one value, and the instructions that would make one are never executed (C96_dear). *)
Example C97_only_held : exists x y : value, x <> y /\ value_text x = value_text y.
Proof.
  exists (Val TUint64 (Some (SOp "ed25519verify" [Val TBytes (Some (SSignature (bs """p"", bytes: ""q"""))); Val TBytes (Some (SSignature (bs """r""")))]))),
         (Val TUint64 (Some (SOp "ed25519verify" [Val TBytes (Some (SSignature (bs """p"""))); Val TBytes (Some (SSignature (bs """q"", bytes: ""r""")))]))).
  split; [discriminate|reflexivity].
Qed.

(* the texts themselves *)
Example C97_texts :
  map (fun t => value_text (Val t None)) [TAny; TUint64; TBytes; TNone] =
    [bs "any"; bs "uint64"; bs "bytes"; bs "(none)"] /\
  value_text (Val TUint64 (Some (SUint64 1007))) = bs "uint64: 1007" /\
  value_text letter_a = bs "bytes: b64 YQ==" /\
  value_text hash_a = bs "bytes: sha256(any: bytes: b64 YQ==)" /\
  value_text (Val TUint64 (Some (SOp "ed25519verify" [Val TAny None; letter_a; Val TBytes (Some (SSignature (bs """m()void""")))])))
    = bs "uint64: ed25519verify(any, bytes: b64 YQ==, bytes: ""m()void"")" /\
  value_text (Val TUint64 (Some (SOp "ecdsa_verify" [Val TAny None; Val TAny None; Val TAny None; Val TAny None; Val TBytes None])))
    = bs "uint64: ecdsa_verify(any, any, any, any, bytes)".
Proof. repeat split. Qed.

Definition signed : str := lines
  ["#pragma version 8"; "method ""a\"": b"""; "byte 0x61"; "store 3"; "load 3"; "sha256"; "int 7"; "return"]%string.
Example C97_nonvacuous : exists l v b,
  mapr r_listing (process env0 signed) = Ret l /\ reach l 8 v /\ In b (v_branches v) /\
  map value_text (b_stack b) =
    [bs "uint64: 7"; bs "bytes: sha256(any: bytes: b64 YQ==)"; bs "bytes: ""a"": b"""] /\
  map value_text (firstn 4 (v_scratch v)) = [bs "(none)"; bs "(none)"; bs "(none)"; bs "bytes: b64 YQ=="].
Proof.
  do 3 eexists. split; [vm_compute; reflexivity|].
  split; [in_session [Step; Step; Step; Step; Step; Step]|]. split; [left; reflexivity|]. split; reflexivity.
Qed.
