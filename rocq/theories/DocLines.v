(* lsp/doc.go: splitting a document into lines, and what that should mean. *)
From Verif Require Import Base LexSpec.

(* lsp/doc.go:19-61, the loop; rest is s[i:] *)
Fixpoint split_loop (s rest : str) (p i : nat) (acc : list str) : res (nat * list str) :=
  match rest with
  | [] => Ret (p, if p =? length s then acc ++ [[]] else acc)
  | c :: rest =>
      if Ascii.eqb c c_cr then
        letr x := slice s p i in
        match rest with
        | c2 :: rest2 =>
            if Ascii.eqb c2 c_lf then split_loop s rest2 (S (S i)) (S (S i)) (acc ++ [x])
            else split_loop s rest (S i) (S i) (acc ++ [x])
        | [] => split_loop s rest (S i) (S i) (acc ++ [x])
        end
      else if Ascii.eqb c c_lf then
        letr x := slice s p i in
        split_loop s rest (S i) (S i) (acc ++ [x])
      else split_loop s rest p (S i) acc
  end.
Definition split_lines (s : str) : res (list str) :=
  letr (p, acc) := split_loop s s 0 0 [] in
  if p <? length s then letr x := slice s p (length s) in Ret (acc ++ [x]) else Ret acc.

(* ------------------------------------------------------------------------------------------ *)
(* specification: text s consists of the given lines and terminators *)
Definition one_line (l : str) : Prop := ~ In c_lf l /\ ~ In c_cr l.

Inductive lines_of : str -> list str -> Prop :=
| lines_last l : one_line l -> lines_of l [l]
| lines_lf l r ls : one_line l -> lines_of r ls -> lines_of (l ++ c_lf :: r) (l :: ls)
| lines_crlf l r ls : one_line l -> lines_of r ls -> lines_of (l ++ c_cr :: c_lf :: r) (l :: ls)
| lines_cr l r ls : one_line l -> (forall r', r <> c_lf :: r') -> lines_of r ls ->
    lines_of (l ++ c_cr :: r) (l :: ls).
