(* The outline of a document: its labels (C107). *)
From Verif Require Import Base Lexer Process ProcessSpec Semantics Query.

(* line i of the document defines the label n; rg is the place of its name and the colon *)
Definition label_line (r : presult) (i : nat) (n : str) (rg : range) : Prop :=
  exists t rest, nth_error (r_lines r) i = Some (t :: rest) /\ tok_t t <> TokComment /\ tok_v t = n ++ bs ":" /\ n <> [] /\
    rg = Range (Z.of_nat i) (Z.of_nat (tok_b t)) (Z.of_nat i) (Z.of_nat (tok_e t)).
(* one after the other, from the top *)
Definition downwards (a b : str * range) : Prop := (r_sl (snd a) < r_sl (snd b))%Z.
