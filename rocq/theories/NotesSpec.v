(* The grammar of the immediate notes of langspec.json. *)
From Verif Require Import Base Fields Expr OpTable Signature SignatureSpec Notes LangOps.

Definition blanks (s : str) : Prop := Forall (fun c => c = " "%char) s.
Definition no_blank_first (s : str) : Prop := match s with c :: _ => c <> " "%char | [] => True end.

(* the type and the name of a field: the first word and the rest, or the only word *)
Inductive named : str -> str -> str -> Prop :=
| named_two t n : ~ In " "%char t -> named (t ++ bs " " ++ n) t n
| named_one t : ~ In " "%char t -> named t t t.

(* {type name}, (item name) and ... *)
Inductive item : str -> imm_arg -> Prop :=
| item_field v t n : ~ In "}"%char v -> named v t n -> item (bs "{" ++ v ++ bs "}") (NField t n None (bs "{" ++ v ++ bs "}"))
| item_pair x f b n :
    item x f -> blanks b -> no_blank_first n -> ~ In ")"%char (x ++ n) ->
    item (bs "(" ++ (x ++ b ++ n) ++ bs ")") (NField [] n (Some f) (bs "{" ++ n ++ bs "}"))
| item_dots : item (bs "...") NVar.

(* items with commas between them, and maybe one behind the last *)
Inductive items : str -> list imm_arg -> Prop :=
| items_none : items [] []
| items_last x a b : item x a -> blanks b -> items (x ++ b) [a]
| items_more x a b b' s l : item x a -> blanks b -> blanks b' -> items s l ->
    items (x ++ b ++ bs "," ++ b' ++ s) (a :: l).

(* fields and arrays, with blanks before them only *)
Inductive note : str -> list imm_arg -> Prop :=
| note_end : note [] []
| note_field b v t n s l : blanks b -> ~ In "}"%char v -> named v t n -> note s l ->
    note (b ++ (bs "{" ++ v ++ bs "}") ++ s) (NField t n None (bs "{" ++ v ++ bs "}") :: l)
| note_array b v r s l : blanks b -> ~ In "]"%char v -> items v r -> note s l ->
    note (b ++ (bs "[" ++ v ++ bs "]") ++ s) (NArray r (bs "{" ++ v ++ bs "}") :: l).

(* How an immediate is encoded.  The number of elements before an array and the length before the bytes
   belong to them. *)
Inductive encoding : Set := EUint8 | EInt8 | EInt16 | EVaruint | EBytes.
Definition type_word (e : encoding) : str :=
  bs match e with EUint8 => "uint8" | EInt8 => "int8" | EInt16 => "int16" | EVaruint => "varuint" | EBytes => "bytes" end.
Definition label_name : str := bs "branch offset, big-endian".

(* a field of an encoding that is not the bytes, and how it is shown: a place in the program as a label *)
Inductive shows : imm_arg -> encoding -> str -> Prop :=
| shows_label v : shows (NField (type_word EInt16) label_name None v) EInt16 (bs "{label}")
| shows_text e n v : n <> label_name -> n <> bs "bytes" -> shows (NField (type_word e) n None v) e v.

(* the immediates of an opcode: the encoding, whether there is an array of them, and how they are shown *)
Inductive encoded : list imm_arg -> list (encoding * bool * str) -> Prop :=
| enc_end : encoded [] []
| enc_one a e t l m : shows a e t -> encoded l m ->
    match l with [] => True | b :: _ => exists e' t', shows b e' t' end ->
    encoded (a :: l) ((e, false, t) :: m)
| enc_bytes a t v l m : shows a EVaruint t -> encoded l m ->
    encoded (a :: NField (bs "bytes") (bs "bytes") None v :: l) ((EBytes, false, v) :: m)
| enc_array c e' a e t t' v l m : shows c e' t' -> shows a e t -> encoded l m ->
    encoded (c :: NArray [a; NVar] v :: l) ((e, true, bs "[" ++ t ++ bs ", ...]") :: m)
| enc_bytess c e' t' a t v w l m : shows c e' t' -> shows a EVaruint t -> encoded l m ->
    encoded (c :: NArray [NField [] (bs "bytes") (Some a) v; NVar] w :: l) ((EBytes, true, bs "[" ++ v ++ bs ", ...]") :: m).

(* how the value of an operand is encoded; the operands of the other kinds are written with pseudo opcodes *)
Definition kind_encoding (k : imm) : encoding :=
  match k with
  | IInt8 => EInt8
  | IInt | IConstInt => EVaruint
  | IBytes | IAddr | ISignature => EBytes
  | ILabel => EInt16
  | _ => EUint8
  end.
Definition operand_encoding (a : taken) : encoding * bool := (kind_encoding (tk_kind a), tk_list a).

(* the letter of the type of a field *)
Definition type_letter (t : stack_type) : ascii :=
  match t with StackUint64 => "U" | StackBytes => "B" | _ => "." end%char.

(* the immediates of an opcode of langspec.json *)
Definition immediates (o : lang_op) (e : list (encoding * bool)) : Prop :=
  exists l m, note (bs (lo_note o)) l /\ encoded l m /\ e = map fst m.
