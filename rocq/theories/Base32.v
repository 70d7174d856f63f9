(* base32DecodeAnyPadding (go_algorand.go:377-388) over encoding/base32 of the Go standard library
   (src/encoding/base32/base32.go: stripNewlines, decode, DecodeString), with errors reduced to None. *)
From Verif Require Import Base LexSpec Strconv.

(* StdEncoding: A-Z 2-7 *)
Definition b32_val (c : ascii) : option N :=
  if in_chars "A" "Z" c then Some (byte c - 65)%N
  else if in_chars "2" "7" c then Some (byte c - 24)%N
  else None.

(* the switch on dlen: a last quantum of 1, 3 or 6 digits yields nothing *)
Definition b32_pack (d : list N) : str :=
  let o (n : N) := ascii_of_N n in
  match d with
  | [a; b] => [o (a * 8 + b / 4)]
  | [a; b; c; d] => [o (a * 8 + b / 4); o ((b mod 4) * 64 + c * 2 + d / 16)]
  | [a; b; c; d; e] => [o (a * 8 + b / 4); o ((b mod 4) * 64 + c * 2 + d / 16); o ((d mod 16) * 16 + e / 2)]
  | [a; b; c; d; e; f; g] =>
      [o (a * 8 + b / 4); o ((b mod 4) * 64 + c * 2 + d / 16); o ((d mod 16) * 16 + e / 2);
       o ((e mod 2) * 128 + f * 4 + g / 8)]
  | [a; b; c; d; e; f; g; h] =>
      [o (a * 8 + b / 4); o ((b mod 4) * 64 + c * 2 + d / 16); o ((d mod 16) * 16 + e / 2);
       o ((e mod 2) * 128 + f * 4 + g / 8); o ((g mod 8) * 32 + h)]
  | _ => []
  end%N.

(* decode: buf holds the digits of the quantum being read.  Without padding the byte of padChar -1 is 255. *)
Fixpoint b32_go (padded : bool) (buf : list N) (s : str) : option str :=
  let pad := if padded then "="%char else ascii_of_N 255 in
  let j := length buf in
  match s with
  | [] => match buf with [] => Some [] | _ => if padded then None else Some (b32_pack buf) end
  | c :: r =>
      if Ascii.eqb c pad && (2 <=? j) && (length r <? 8) then
        if length r + j <? 7 then None
        else if existsb (fun x => negb (Ascii.eqb x pad)) (firstn (7 - j) r) then None
        else if (j =? 3) || (j =? 6) then None
        else Some (b32_pack buf)
      else
        match b32_val c with
        | None => None
        | Some d =>
            if j =? 7 then
              match b32_go padded [] r with Some v => Some (b32_pack (buf ++ [d]) ++ v) | None => None end
            else b32_go padded (buf ++ [d]) r
        end
  end.

Definition b32_any (s : str) : option str :=
  let t := filter (fun c => negb (Ascii.eqb c c_lf || Ascii.eqb c c_cr)) s in
  match b32_go false [] t with
  | Some v => Some v
  | None => b32_go true [] t
  end.
