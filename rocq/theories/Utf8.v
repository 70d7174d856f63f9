(** Model of [unicode/utf8.DecodeRune] (Go standard library), the decoder used by
    lexer.go.  The table-driven code of the library is written with the byte
    ranges its tables encode. *)
From Verif Require Import Base.
Local Open Scope N_scope.

(** [utf8.RuneError], U+FFFD. *)
Definition rune_error : N := 65533.

(** Continuation byte: [locb <= b <= hicb], i.e. 0x80..0xBF. *)
Definition is_cont (c : N) : bool := (128 <=? c) && (c <=? 191).

(** Second byte range demanded by the lead byte ([acceptRanges]). *)
Definition accept2 (p0 c : N) : bool :=
  if p0 =? 224 then (160 <=? c) && (c <=? 191)        (* E0 : A0..BF *)
  else if p0 =? 237 then (128 <=? c) && (c <=? 159)   (* ED : 80..9F *)
  else if p0 =? 240 then (144 <=? c) && (c <=? 191)   (* F0 : 90..BF *)
  else if p0 =? 244 then (128 <=? c) && (c <=? 143)   (* F4 : 80..8F *)
  else is_cont c.

(** Size announced by the lead byte ([first]): 0 stands for "ASCII or invalid". *)
Definition lead_size (p0 : N) : nat :=
  if (194 <=? p0) && (p0 <=? 223) then 2%nat
  else if (224 <=? p0) && (p0 <=? 239) then 3%nat
  else if (240 <=? p0) && (p0 <=? 244) then 4%nat
  else 0%nat.

(** [utf8.DecodeRune(p)]: the rune and the number of bytes consumed. *)
Definition decode_rune (p : str) : N * nat :=
  match p with
  | [] => (rune_error, 0%nat)
  | c0 :: r0 =>
    let p0 := byte c0 in
    match lead_size p0, r0 with
    | 2%nat, c1 :: _ =>
        let b1 := byte c1 in
        if accept2 p0 b1 then ((p0 - 192) * 64 + (b1 - 128), 2%nat) else (rune_error, 1%nat)
    | 3%nat, c1 :: c2 :: _ =>
        let b1 := byte c1 in
        let b2 := byte c2 in
        if accept2 p0 b1 && is_cont b2
        then ((p0 - 224) * 4096 + (b1 - 128) * 64 + (b2 - 128), 3%nat)
        else (rune_error, 1%nat)
    | 4%nat, c1 :: c2 :: c3 :: _ =>
        let b1 := byte c1 in
        let b2 := byte c2 in
        let b3 := byte c3 in
        if accept2 p0 b1 && is_cont b2 && is_cont b3
        then ((p0 - 240) * 262144 + (b1 - 128) * 4096 + (b2 - 128) * 64 + (b3 - 128), 4%nat)
        else (rune_error, 1%nat)
    | 0%nat, _ => if p0 <? 128 then (p0, 1%nat) else (rune_error, 1%nat)
    | _, _ => (rune_error, 1%nat)
    end
  end.

(** [rune] constants used by the lexer. *)
Definition rune_of (c : ascii) : N := byte c.
