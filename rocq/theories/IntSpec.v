(* How integer constants are written (the language specification: "int accepts" decimal, 0x hexadecimal,
   0 octal, and the named constants; and the grammar of int_lit of the Go language, without signs). *)
From Verif Require Import Base.

(* c is a digit of the given base, of value d *)
Definition digit_is (base : N) (c : ascii) (d : N) : Prop :=
  (d < base)%N /\
  ((d < 10 /\ byte c = 48 + d) \/ (10 <= d < 36 /\ (byte c = 87 + d \/ byte c = 55 + d)))%N.

(* digits, with single underscores between them where the reader wishes *)
Inductive digits (base : N) : str -> list N -> Prop :=
| ds_one c d : digit_is base c d -> digits base [c] [d]
| ds_next c d s l : digit_is base c d -> digits base s l -> digits base (c :: s) (d :: l)
| ds_gap c d s l : digit_is base c d -> digits base s l -> digits base (c :: "_"%char :: s) (d :: l).

(* the most significant digit comes first *)
Fixpoint positional (base : N) (l : list N) : N :=
  match l with [] => 0 | d :: r => d * base ^ N.of_nat (length r) + positional base r end%N.

Definition base_letter (c : ascii) (base : N) : Prop :=
  (In c ["b"; "B"]%char /\ base = 2%N) \/ (In c ["o"; "O"]%char /\ base = 8%N) \/ (In c ["x"; "X"]%char /\ base = 16%N).

Inductive numeral : str -> N -> Prop :=
| nu_zero : numeral ["0"%char] 0
| nu_dec c s l : c <> "0"%char -> digits 10 (c :: s) l -> numeral (c :: s) (positional 10 l)
| nu_octal s l : digits 8 s l -> numeral ("0"%char :: s) (positional 8 l)
| nu_octal_gap s l : digits 8 s l -> numeral ("0"%char :: "_"%char :: s) (positional 8 l)
| nu_base c b s l : base_letter c b -> digits b s l -> numeral ("0"%char :: c :: s) (positional b l)
| nu_base_gap c b s l : base_letter c b -> digits b s l -> numeral ("0"%char :: c :: "_"%char :: s) (positional b l).

(* the named constants: transaction types (TypeEnum) and completions (OnCompletion) *)
Inductive constant_name : string -> N -> Prop :=
| cn_unknown : constant_name "unknown" 0
| cn_pay : constant_name "pay" 1
| cn_keyreg : constant_name "keyreg" 2
| cn_acfg : constant_name "acfg" 3
| cn_axfer : constant_name "axfer" 4
| cn_afrz : constant_name "afrz" 5
| cn_appl : constant_name "appl" 6
| cn_noop : constant_name "NoOp" 0
| cn_optin : constant_name "OptIn" 1
| cn_closeout : constant_name "CloseOut" 2
| cn_clearstate : constant_name "ClearState" 3
| cn_update : constant_name "UpdateApplication" 4
| cn_delete : constant_name "DeleteApplication" 5.
(* the longer names of the transaction types *)
Inductive type_description : string -> N -> Prop :=
| td_unknown : type_description "Unknown type. Invalid transaction" 0
| td_payment : type_description "Payment" 1
| td_keyreg : type_description "KeyRegistration" 2
| td_config : type_description "AssetConfig" 3
| td_transfer : type_description "AssetTransfer" 4
| td_freeze : type_description "AssetFreeze" 5
| td_call : type_description "ApplicationCall" 6.

Definition number (s : str) (n : N) : Prop := numeral s n /\ (n < 2 ^ 64)%N.
Definition constant (s : str) (n : N) : Prop :=
  number s n \/ exists x, s = bs x /\ (constant_name x n \/ type_description x n).
