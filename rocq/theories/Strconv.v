(* The parts of Go's strconv that the parser uses, with errors reduced to None.  Follows
   strconv.ParseUint / ParseInt of the Go standard library (src/strconv/atoi.go). *)
From Verif Require Import Base.

Definition in_chars (lo hi c : ascii) : bool := (byte lo <=? byte c)%N && (byte c <=? byte hi)%N.

(* lower(c) is in 'a'..'z' *)
Definition digit_of (c : ascii) : option N :=
  if in_chars "0" "9" c then Some (byte c - byte "0")%N
  else if in_chars "a" "z" c then Some (byte c - byte "a" + 10)%N
  else if in_chars "A" "Z" c then Some (byte c - byte "A" + 10)%N
  else None.

(* the loop of ParseUint; underscores are allowed in base 0 only.  An overflow is detected at
   the end: both outcomes are errors. *)
Fixpoint digits_val (base0 : bool) (base n : N) (s : str) : option N :=
  match s with
  | [] => Some n
  | c :: r =>
      if base0 && Ascii.eqb c "_" then digits_val base0 base n r
      else
        match digit_of c with
        | Some d => if (d <? base)%N then digits_val base0 base (n * base + d)%N r else None
        | None => None
        end
  end.

Definition lower_is (x c : ascii) : bool :=
  Ascii.eqb c x || ((byte c + 32 =? byte x)%N).

(* underscoreOK, after the sign and the base prefix; saw: the last character was a digit,
   an underscore or something else *)
Inductive saw : Set := SawBegin | SawDigit | SawUnderscore | SawOther.
Fixpoint underscores_ok (hex : bool) (w : saw) (s : str) : bool :=
  match s with
  | [] => match w with SawUnderscore => false | _ => true end
  | c :: r =>
      if in_chars "0" "9" c || (hex && (in_chars "a" "f" c || in_chars "A" "F" c))
      then underscores_ok hex SawDigit r
      else if Ascii.eqb c "_" then
        match w with SawDigit => underscores_ok hex SawUnderscore r | _ => false end
      else
        match w with SawUnderscore => false | _ => underscores_ok hex SawOther r end
  end.
Definition underscore_ok (s : str) : bool :=
  match s with
  | c0 :: c1 :: r =>
      if Ascii.eqb c0 "0" && (lower_is "b" c1 || lower_is "o" c1 || lower_is "x" c1)
      then underscores_ok (lower_is "x" c1) SawDigit r
      else underscores_ok false SawBegin s
  | _ => underscores_ok false SawBegin s
  end.

Definition has_underscore (s : str) : bool := existsb (Ascii.eqb "_") s.

(* the base prefix of base 0: (base, rest) *)
Definition prefix0 (s : str) : N * str :=
  match s with
  | c0 :: r =>
      if Ascii.eqb c0 "0" then
        match r with
        | c1 :: ((_ :: _) as r2) =>
            if lower_is "b" c1 then (2%N, r2) else if lower_is "o" c1 then (8%N, r2)
            else if lower_is "x" c1 then (16%N, r2) else (8%N, r)
        | _ => (8%N, r)
        end
      else (10%N, s)
  | [] => (10%N, s)
  end.

(* strconv.ParseUint(s, base, bits), base 0 or 2..36 *)
Definition parse_uint (s : str) (base bits : N) : option N :=
  match s with
  | [] => None
  | _ =>
      let '(b, d) := if (base =? 0)%N then prefix0 s else (base, s) in
      match digits_val (base =? 0)%N b 0 d with
      | Some n =>
          if (2 ^ bits <=? n)%N then None
          else if (base =? 0)%N && has_underscore d && negb (underscore_ok s) then None
          else Some n
      | None => None
      end
  end.

(* strconv.ParseInt(s, base, bits) *)
Definition parse_int (s : str) (base bits : N) : option Z :=
  match s with
  | [] => None
  | c :: r =>
      let neg := Ascii.eqb c "-" in
      let d := if neg || Ascii.eqb c "+" then r else s in
      match parse_uint d base bits with
      | Some n =>
          if neg then if (2 ^ (bits - 1) <? n)%N then None else Some (- Z.of_N n)%Z
          else if (2 ^ (bits - 1) <=? n)%N then None else Some (Z.of_N n)
      | None => None
      end
  end.
