(* What it means to apply text edits to a document (LSP 3.17, "Text Documents" and "TextEdit[]"): all
   ranges refer to the original text, lines end at \n, \r\n or a lone \r, a character past the end of a
   line means the end of that line, and a line past the last one means the end of the text.  Columns
   are counted in bytes, as the server does. *)
From Verif Require Import Base LexSpec Semantics Lsp.

Definition at_line_end (s : str) : bool :=
  match s with [] => true | c :: _ => Ascii.eqb c c_lf || Ascii.eqb c c_cr end.

(* the position (pl, pc) is the place (l, c) before the text s *)
Definition is_here (pl pc : Z) (l c : nat) (s : str) : bool :=
  match s with
  | [] => (Z.of_nat l <? pl)%Z || ((Z.of_nat l =? pl)%Z && (Z.of_nat c <=? pc)%Z)
  | _ => (Z.of_nat l =? pl)%Z && (if at_line_end s then (Z.of_nat c <=? pc)%Z else (Z.of_nat c =? pc)%Z)
  end.
(* the place (l, c) is at or after it *)
Definition reached (pl pc : Z) (l c : nat) (s : str) : bool :=
  match s with
  | [] => true
  | _ => (pl <? Z.of_nat l)%Z || ((pl =? Z.of_nat l)%Z && (at_line_end s || (pc <=? Z.of_nat c)%Z))
  end.
Definition begins (l c : nat) (s : str) (e : text_edit) : bool := is_here (r_sl (te_range e)) (r_sc (te_range e)) l c s.
Definition finished (e : text_edit) (l c : nat) (s : str) : bool := reached (r_el (te_range e)) (r_ec (te_range e)) l c s.

(* skip: the edit whose range is being left out *)
Fixpoint edited (es : list text_edit) (l c : nat) (skip : option text_edit) (s : str) : str :=
  let done := match skip with None => true | Some e => finished e l c s end in
  let b := if done then filter (begins l c s) es else [] in
  let skip := if done then find (fun e => negb (finished e l c s)) b else skip in
  let keep w := match skip with None => w | Some _ => [] end in
  concat (map te_text b) ++
  match s with
  | [] => []
  | x :: r =>
      if Ascii.eqb x c_lf then keep [x] ++ edited es (S l) 0 skip r
      else if Ascii.eqb x c_cr then
        match r with
        | y :: r' => if Ascii.eqb y c_lf then keep [x; y] ++ edited es (S l) 0 skip r' else keep [x] ++ edited es (S l) 0 skip r
        | [] => keep [x] ++ edited es (S l) 0 skip r
        end
      else keep [x] ++ edited es l (S c) skip r
  end.
Definition apply_edits (es : list text_edit) (s : str) : str := edited es 0 0 None s.

Definition nl : string := String (ascii_of_nat 10) EmptyString.
Definition crlf : string := String (ascii_of_nat 13) nl.
Example apply_replace : apply_edits [TextEdit (Range 1 2 1 5) (bs "xy"); TextEdit (Range 0 0 0 1) (bs "Z")] (bs ("abc" ++ nl ++ "b lab" ++ nl)) = bs ("Zbc" ++ nl ++ "b xy" ++ nl).
Proof. reflexivity. Qed.
Example apply_delete_line : apply_edits [TextEdit (Range 1 0 2 0) []] (bs ("a" ++ crlf ++ "bb" ++ crlf ++ "c")) = bs ("a" ++ crlf ++ "c").
Proof. reflexivity. Qed.
Example apply_past_end : apply_edits [TextEdit (Range 7 0 7 5) (bs "end")] (bs "a") = bs "aend".
Proof. reflexivity. Qed.
