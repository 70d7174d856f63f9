(* The comment that makes a document a logic signature. *)
From Verif Require Import Base Utf8 Lexer.

(* the characters with the Unicode property White_Space *)
Definition white_char (n : N) : Prop :=
  (9 <= n <= 13 \/ n = 32 \/ n = 0x85 \/ n = 0xA0 \/ n = 0x1680 \/ 0x2000 <= n <= 0x200A \/ n = 0x2028 \/ n = 0x2029 \/
   n = 0x202F \/ n = 0x205F \/ n = 0x3000)%N.
(* texts of white space *)
Inductive white : str -> Prop :=
| white_none : white []
| white_more c s n : decode_rune c = (n, length c) -> c <> [] -> white_char n -> white s -> white (c ++ s).

Definition mode_text : str := bs "#pragma mode logicsig".
Definition mode_comment (w : str) : Prop := exists a b, white a /\ white b /\ w = a ++ mode_text ++ b.
(* a line that holds nothing but such a comment *)
Definition mode_line (l : list token) : Prop := exists t rest, l = t :: rest /\ tok_t t = TokComment /\ mode_comment (tok_v t).
