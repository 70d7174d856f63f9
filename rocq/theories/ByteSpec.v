(* How byte constants are written: the encodings of RFC 4648 as numbers in two bases, and the forms of
   the operand of byte in the language specification. *)
From Verif Require Import Base LexSpec Literals IntSpec.

(* digits of w bits each denote the bytes v: as numbers written in base 2^w and in base 256 they agree,
   up to fewer than w last bits that are no byte *)
Definition decodes (w : N) (ds : list N) (v : str) : Prop :=
  exists k rest,
    (w * N.of_nat (length ds) = 8 * N.of_nat (length v) + k)%N /\ (k < w)%N /\ (rest < 2 ^ k)%N /\
    (positional (2 ^ w) ds = positional 256 (map byte v) * 2 ^ k + rest)%N.

(* a character of an alphabet stands for its place *)
Definition stands_for (alphabet : str) (c : ascii) (d : N) : Prop := nth_error alphabet (N.to_nat d) = Some c.
Definition alphabet64 : str := bs "ABCDEFGHIJKLMNOPQRSTUVWXYZabcdefghijklmnopqrstuvwxyz0123456789+/".
Definition alphabet32 : str := bs "ABCDEFGHIJKLMNOPQRSTUVWXYZ234567".

(* line ends inside an encoded text do not count *)
Definition without_line_ends (s : str) : str := filter (fun c => negb (Ascii.eqb c c_lf || Ascii.eqb c c_cr)) s.

Definition hex_text (s v : str) : Prop := exists ds, Forall2 (digit_is 16) s ds /\ decodes 4 ds v.
(* groups of four, filled up with = *)
Definition base64_text (s v : str) : Prop :=
  exists p k ds, without_line_ends s = p ++ repeat "="%char k /\ k < 4 /\ (length p + k) mod 4 = 0 /\
    Forall2 (stands_for alphabet64) p ds /\ decodes 6 ds v.
(* groups of eight, filled up with = or not *)
Definition base32_text (s v : str) : Prop :=
  exists p k ds, without_line_ends s = p ++ repeat "="%char k /\ (k = 0 \/ k < 8 /\ (length p + k) mod 8 = 0) /\
    Forall2 (stands_for alphabet32) p ds /\ decodes 5 ds v.

Inductive byte_constant : list str -> str -> Prop :=
| bc_hex h v : hex_text h v -> byte_constant [bs "0x" ++ h] v
| bc_base64 k x v : In k ["base64"; "b64"] -> base64_text x v -> byte_constant [bs k; x] v
| bc_base64_paren k x v : In k ["base64"; "b64"] -> base64_text x v -> byte_constant [bs k ++ bs "(" ++ x ++ bs ")"] v
| bc_base32 k x v : In k ["base32"; "b32"] -> base32_text x v -> byte_constant [bs k; x] v
| bc_base32_paren k x v : In k ["base32"; "b32"] -> base32_text x v -> byte_constant [bs k ++ bs "(" ++ x ++ bs ")"] v
| bc_literal body v : denotes body v -> byte_constant [c_quote :: body ++ [c_quote]] v.

(* several byte constants one after the other *)
Inductive byte_constants : list str -> list str -> Prop :=
| bcs_nil : byte_constants [] []
| bcs_cons a v r vs : byte_constant a v -> byte_constants r vs -> byte_constants (a ++ r) (v :: vs).

(* texts of which the length is one of base32, and which do not contain the byte 255 *)
Definition pad0 : ascii := ascii_of_N 255.
Definition shape32 (s : str) : Prop :=
  ~ In pad0 s /\ exists p k, s = p ++ repeat "="%char k /\ ~ In "="%char p /\ In (length p mod 8) [0; 2; 4; 5; 7] /\
    (k = 0 \/ k < 8 /\ (length p + k) mod 8 = 0).
(* operands with nothing behind the parenthesis, and with base32 texts of such lengths *)
Definition tidy (args : list str) : Prop :=
  (forall k x, In k ["base64"; "b64"; "base32"; "b32"] -> args = [bs k ++ bs "(" ++ x] ->
     exists y, x = y ++ bs ")" /\ ~ In ")"%char y) /\
  (forall k x, In k ["base32"; "b32"] -> args = [bs k; x] \/ args = [bs k ++ bs "(" ++ x ++ bs ")"] ->
     shape32 (without_line_ends x)).
