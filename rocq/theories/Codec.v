(* Text encodings of the Go standard library used by process.go and expr.go: encoding/hex,
   encoding/base64 (StdEncoding), strconv.FormatUint.  Errors are None. *)
From Verif Require Import Base LexSpec Strconv.

(* hex.DecodeString: pairs of hexadecimal digits of either case *)
Definition hex_val (c : ascii) : option N :=
  if in_chars "0" "9" c then Some (byte c - 48)%N
  else if in_chars "a" "f" c then Some (byte c - 87)%N
  else if in_chars "A" "F" c then Some (byte c - 55)%N
  else None.
Fixpoint hex_decode (s : str) : option str :=
  match s with
  | [] => Some []
  | a :: b :: r =>
      match hex_val a, hex_val b, hex_decode r with
      | Some x, Some y, Some v => Some (ascii_of_N (16 * x + y) :: v)
      | _, _, _ => None
      end
  | _ => None
  end.

(* hex.EncodeToString *)
Definition hex_digit_char (d : N) : ascii := ascii_of_N (if (d <? 10)%N then 48 + d else 87 + d).
Definition hex_encode (s : str) : str :=
  flat_map (fun c => [hex_digit_char (byte c / 16); hex_digit_char (byte c mod 16)]) s.

(* base64.StdEncoding: alphabet A-Z a-z 0-9 + /, padding = *)
Definition b64_char (d : N) : ascii :=
  ascii_of_N (if d <? 26 then 65 + d else if d <? 52 then 71 + d else if d <? 62 then d - 4
              else if d =? 62 then 43 else 47)%N.
Definition b64_val (c : ascii) : option N :=
  if in_chars "A" "Z" c then Some (byte c - 65)%N
  else if in_chars "a" "z" c then Some (byte c - 71)%N
  else if in_chars "0" "9" c then Some (byte c + 4)%N
  else if Ascii.eqb c "+" then Some 62%N
  else if Ascii.eqb c "/" then Some 63%N
  else None.

(* EncodeToString *)
Fixpoint b64_encode (s : str) : str :=
  match s with
  | [] => []
  | [a] =>
      let x := byte a in
      [b64_char (x / 4); b64_char ((x mod 4) * 16); "="; "="]%char
  | [a; b] =>
      let x := byte a in let y := byte b in
      [b64_char (x / 4); b64_char ((x mod 4) * 16 + y / 16); b64_char ((y mod 16) * 4); "="]%char
  | a :: b :: c :: r =>
      let x := byte a in let y := byte b in let z := byte c in
      b64_char (x / 4) :: b64_char ((x mod 4) * 16 + y / 16) ::
      b64_char ((y mod 16) * 4 + z / 64) :: b64_char (z mod 64) :: b64_encode r
  end.

(* DecodeString; line ends are skipped, unused bits of the last quantum are ignored *)
Fixpoint b64_quanta (s : str) : option str :=
  match s with
  | [] => Some []
  | a :: b :: c :: d :: r =>
      match b64_val a, b64_val b with
      | Some w, Some x =>
          let b1 := ascii_of_N (w * 4 + x / 16) in
          match b64_val c with
          | Some y =>
              let b2 := ascii_of_N ((x mod 16) * 16 + y / 4) in
              match b64_val d with
              | Some z =>
                  match b64_quanta r with
                  | Some v => Some (b1 :: b2 :: ascii_of_N ((y mod 4) * 64 + z) :: v)
                  | None => None
                  end
              | None =>
                  if Ascii.eqb d "=" then match r with [] => Some [b1; b2] | _ => None end
                  else None
              end
          | None =>
              if Ascii.eqb c "=" && Ascii.eqb d "=" then
                match r with [] => Some [b1] | _ => None end
              else None
          end
      | _, _ => None
      end
  | _ => None
  end.
Definition b64_decode (s : str) : option str :=
  b64_quanta (filter (fun c => negb (Ascii.eqb c c_lf || Ascii.eqb c c_cr)) s).

(* strconv.FormatUint(n, 10), and %d of an unsigned number *)
Definition digit_char (d : N) : ascii := ascii_of_N (48 + d).
Fixpoint dec_go (fuel : nat) (n : N) (acc : str) : str :=
  match fuel with
  | 0 => acc
  | S fuel =>
      if (n <? 10)%N then digit_char n :: acc
      else dec_go fuel (n / 10)%N (digit_char (n mod 10) :: acc)
  end.
Definition dec (n : N) : str := dec_go (S (N.size_nat n)) n [].

(* %d of a signed number *)
Definition dec_z (z : Z) : str :=
  if (z <? 0)%Z then "-"%char :: dec (Z.to_N (- z)) else dec (Z.to_N z).
