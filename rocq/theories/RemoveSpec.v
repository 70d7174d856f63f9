(* Removing a label: the edits of the command, and what is left of the listing. *)
From Verif Require Import Base LexSpec Lexer Expr Linter Codec OpTable Process ProcessSpec Semantics Query Lsp Edit.

(* the tokens that define the label: the first ones of their lines *)
Definition label_tokens (name : str) (ls : list (list token)) : list token :=
  flat_map (fun l => match l with t :: _ => if seqb (tok_v t) (name ++ bs ":") && negb (is_comment t) then [t] else [] | [] => [] end) ls.
(* deleting a token *)
Definition delete_token (t : token) : text_edit :=
  TextEdit (Range (Z.of_nat (tok_l t)) (Z.of_nat (tok_b t)) (Z.of_nat (tok_l t)) (Z.of_nat (tok_e t))) [].

(* a definition of the label is nothing any more *)
Definition unlabel (name : str) (e : expr) : expr :=
  match e with LabelExpr n => if seqb n name then EmptyExpr else e | _ => e end.
(* nothing but a comment follows the definitions of the label *)
Definition stands_alone (name : str) (ls : list (list token)) : Prop :=
  forall l, In l ls -> kind_of l = LLabel name -> length l = 1.
