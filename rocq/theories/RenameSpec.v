(* Renaming a label in a program (C43). *)
From Verif Require Import Base Lexer Expr Process Semantics Query Lsp.

Definition ren (old new s : str) : str := if seqb s old then new else s.
(* an instruction with its labels renamed: the definition and the targets of branches *)
Definition rename_expr (f : str -> str) (e : expr) : expr :=
  match e with
  | LabelExpr n => LabelExpr (f n)
  | BExpr n => BExpr (f n)
  | BzExpr n => BzExpr (f n)
  | BnzExpr n => BnzExpr (f n)
  | CallSubExpr n => CallSubExpr (f n)
  | SwitchExpr ns => SwitchExpr (map f ns)
  | MatchExpr ns => MatchExpr (map f ns)
  | e => e
  end.

(* the cursor touches a definition of the label n, or a reference to it *)
Definition named (r : presult) (p : position) (n : str) : Prop :=
  (exists s, In s (r_syms r) /\ sy_name s = n /\ ps_line p = Z.of_nat (sy_l s) /\ (Z.of_nat (sy_b s) <= ps_char p <= Z.of_nat (sy_e s))%Z) \/
  (exists t, In t (r_refs r) /\ tok_v t = n /\ ps_line p = Z.of_nat (tok_l t) /\ (Z.of_nat (tok_b t) <= ps_char p <= Z.of_nat (tok_e t))%Z).

(* two ranges, each on one line, that share no character *)
Definition separate (a b : range) : Prop := r_el a <> r_sl b \/ (r_ec a <= r_sc b)%Z \/ (r_ec b <= r_sc a)%Z.
(* the range covers exactly the text w *)
Definition covers (ls : list str) (rg : range) (w : str) : Prop :=
  exists i line pre post, nth_error ls i = Some line /\ line = pre ++ w ++ post /\
    rg = Range (Z.of_nat i) (Z.of_nat (length pre)) (Z.of_nat i) (Z.of_nat (length (pre ++ w))).
