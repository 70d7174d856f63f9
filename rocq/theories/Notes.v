(* langspec.go:58-408: the reader of the immediate notes of langspec.json, such as
   {varuint count} [{varuint value}, ...].

   Simplifications: an error is None.  The text is read byte by byte: every character looked for is
   ASCII, and utf8.DecodeRune never takes such a byte into a longer character.  What has been read is
   dropped from the front instead of counted; the counts never pass the length. *)
From Verif Require Import Base Frame.

(* langspec.go:67-77 immArg, by the values it takes: a field (kind immField), an array and the dots *)
Inductive imm_arg : Type :=
| NField (t n : str) (sub : option imm_arg) (v : str)
| NArray (r : list imm_arg) (v : str)
| NVar.
Definition na_n (a : imm_arg) : str := match a with NField _ n _ _ => n | _ => [] end.
Definition na_v (a : imm_arg) : str := match a with NField _ _ _ v => v | NArray _ v => v | NVar => [] end.

(* langspec.go:298-313 skipWhitespace *)
Fixpoint skip_blanks (s : str) : str :=
  match s with c :: r => if Ascii.eqb c " " then skip_blanks r else s | [] => [] end.

(* fmt.Sprintf with braces (langspec.go:157, 205, 285) *)
Definition braced (v : str) : str := bs "{" ++ v ++ bs "}".

(* langspec.go:185-206 with strings.SplitN(v, a blank, 2) *)
Definition field_of (v : str) : imm_arg :=
  match cut " " v with
  | Some (t, n) => NField t n None (braced v)
  | None => NField v v None (braced v)
  end.

(* langspec.go:86-98 parseField, 100-122 parseVarArg, 124-166 parseFieldBytesArg, 168-214 parseFieldArg.
   The parts in parentheses get shorter, so the length is fuel enough. *)
Fixpoint parse_field (fuel : nat) (s : str) : option (imm_arg * str) :=
  match fuel, s with
  | S fuel, c :: r =>
      if Ascii.eqb c "(" then
        match cut ")" r with
        | None => None
        | Some (v, rest) =>
            match parse_field fuel v with
            | None => None
            | Some (f, w) =>
                let n := skip_blanks w in Some (NField [] n (Some f) (braced n), rest)
            end
        end
      else if Ascii.eqb c "{" then
        match cut "}" r with None => None | Some (v, rest) => Some (field_of v, rest) end
      else if Ascii.eqb c "." then
        match r with
        | c1 :: c2 :: rest => if Ascii.eqb c1 "." && Ascii.eqb c2 "." then Some (NVar, rest) else None
        | _ => None
        end
      else None
  | _, _ => None
  end.

(* langspec.go:249-278, the loop in readArray; it ends as every field is not empty *)
Fixpoint parse_items (fuel : nat) (v : str) : option (list imm_arg) :=
  match fuel, v with
  | _, [] => Some []
  | 0, _ => None
  | S fuel, _ =>
      match parse_field (length v) v with
      | None => None
      | Some (a, r) =>
          match skip_blanks r with
          | [] => Some [a]
          | c :: r =>
              if Ascii.eqb c "," then
                match parse_items fuel (skip_blanks r) with Some l => Some (a :: l) | None => None end
              else None
          end
      end
  end.

(* langspec.go:317-340 tokenize, with readField (216-229) and readArray (231-296) *)
Fixpoint tokenize (fuel : nat) (s : str) : option (list imm_arg) :=
  match fuel, s with
  | _, [] => Some []
  | 0, _ => None
  | S fuel, _ =>
      match skip_blanks s with
      | [] => None
      | c :: r =>
          if Ascii.eqb c "{" then
            match parse_field 1 (c :: r) with
            | None => None
            | Some (a, r) => match tokenize fuel r with Some l => Some (a :: l) | None => None end
            end
          else if Ascii.eqb c "[" then
            match cut "]" r with
            | None => None
            | Some (v, r) =>
                match parse_items (length v) v with
                | None => None
                | Some items =>
                    match tokenize fuel r with Some l => Some (NArray items (braced v) :: l) | None => None end
                end
            end
          else None
      end
  end.

(* langspec.go:342-345 ImmArg *)
Record note_arg := NoteArg { nt_name : str; nt_array : bool }.

(* langspec.go:391-403 *)
Definition note_of (t : imm_arg) (array : bool) : note_arg :=
  let v := if seqb (na_n t) (bs "branch offset, big-endian") then bs "{label}" else na_v t in
  NoteArg (if array then bs "[" ++ v ++ bs ", ...]" else v) array.

(* langspec.go:362-405, the loop: a count in front of an array, or a length in front of the bytes, is
   not an argument *)
Fixpoint merge (ts : list imm_arg) : list note_arg :=
  match ts with
  | [] => []
  | t :: rest =>
      match rest with
      | NArray r v :: rest' => note_of (match r with f :: _ => f | [] => NArray r v end) true :: merge rest'
      | nt :: rest' =>
          match nt with
          | NField _ n _ _ => if seqb n (bs "bytes") then note_of nt false :: merge rest' else note_of t false :: merge rest
          | _ => note_of t false :: merge rest
          end
      | [] => note_of t false :: merge rest
      end
  end.

(* langspec.go:351-408 parseImmArgs *)
Definition parse_imm_args (s : str) : option (list note_arg) :=
  match tokenize (length s) s with Some ts => Some (merge ts) | None => None end.
