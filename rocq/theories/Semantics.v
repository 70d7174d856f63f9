(* semantics.go and range.go: semantic tokens and the overlap test. *)
From Coq Require Export Permutation Sorted.
From Verif Require Import Base.

(* semantics.go:5-11 SemanticToken *)
Record stoken : Set := SToken {
  st_line : Z;
  st_index : Z;
  st_length : Z;
  st_type : Z;
  st_modifiers : Z
}.

(* semantics.go:45-54 Less *)
Definition st_less (a b : stoken) : bool :=
  if (st_line a =? st_line b)%Z then (st_index a <? st_index b)%Z
  else (st_line a <? st_line b)%Z.

(* what sort.Sort promises: a permutation in which no element is less than an earlier one *)
Definition sorted_by_less (s : list stoken) : Prop :=
  StronglySorted (fun a b => st_less b a = false) s.
Definition go_sort (ts s : list stoken) : Prop := Permutation ts s /\ sorted_by_less s.

(* uint32(x) *)
Definition u32 (x : Z) : Z := (x mod 4294967296)%Z.

(* semantics.go:22-36, the loop over the sorted tokens *)
Fixpoint encode_from (prev : stoken) (ts : list stoken) : list Z :=
  match ts with
  | [] => []
  | st :: r =>
      u32 (st_line st - st_line prev) ::
      (if (st_line st =? st_line prev)%Z then u32 (st_index st - st_index prev)
       else u32 (st_index st)) ::
      u32 (st_length st) :: u32 (st_type st) :: u32 (st_modifiers st) :: encode_from st r
  end.

(* semantics.go:15-39 Encode; sort.Sort is not stable, so the result is a relation *)
Definition encodes (ts : list stoken) (r : list Z) : Prop :=
  exists s, go_sort ts s /\ r = encode_from (SToken 0 0 0 0 0) s.

(* ------------------------------------------------------------------------------------------ *)
(* range.go:3-8 Range *)
Record range : Set := Range {
  r_sl : Z; r_sc : Z; r_el : Z; r_ec : Z
}.

(* range.go:10-13 *)
Definition overlaps (a b : range) : bool :=
  (r_sc a <=? r_ec b)%Z && (r_sc b <=? r_ec a)%Z && (r_sl a <=? r_el b)%Z && (r_sl b <=? r_el a)%Z.

(* ------------------------------------------------------------------------------------------ *)
(* specification of the wire format (LSP 3.17, textDocument/semanticTokens): five numbers per
   token, lines relative to the previous token, start character relative to the previous token
   if it is on the same line *)
Fixpoint decode_from (line char : Z) (r : list Z) : option (list stoken) :=
  match r with
  | [] => Some []
  | dl :: dc :: len :: ty :: md :: r =>
      let line' := (line + dl)%Z in
      let char' := if (dl =? 0)%Z then (char + dc)%Z else dc in
      match decode_from line' char' r with
      | Some ts => Some (SToken line' char' len ty md :: ts)
      | None => None
      end
  | _ => None
  end.
Definition decode (r : list Z) : option (list stoken) := decode_from 0 0 r.

Definition fits32 (x : Z) : Prop := (0 <= x < 4294967296)%Z.
Definition token_fits (t : stoken) : Prop :=
  fits32 (st_line t) /\ fits32 (st_index t) /\ fits32 (st_length t) /\ fits32 (st_type t) /\
  fits32 (st_modifiers t).

(* in document order *)
Definition in_order (a b : stoken) : Prop :=
  (st_line a < st_line b)%Z \/ (st_line a = st_line b /\ (st_index a <= st_index b)%Z).

(* the positions (line, character) of a range with start before end, both ends included *)
Definition in_range (r : range) (l c : Z) : Prop :=
  (r_sl r < l \/ (r_sl r = l /\ r_sc r <= c))%Z /\ (l < r_el r \/ (l = r_el r /\ c <= r_ec r))%Z.
Definition proper (r : range) : Prop :=
  (r_sl r < r_el r \/ (r_sl r = r_el r /\ r_sc r <= r_ec r))%Z.
Definition single_line (r : range) : Prop := r_sl r = r_el r.
