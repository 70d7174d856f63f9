(* Literals: parser.go:77-93 and go_algorand.go:309-375. *)
From Verif Require Import Base LexSpec Strconv.

(* parser.go:77-84 *)
Definition read_int8 (s : str) : option Z := parse_int s 10 8.
(* parser.go:86-93 *)
Definition read_uint8 (s : str) : option N := parse_uint s 10 8.

(* go_algorand.go:324-371, the loop of parseStringLiteral; n = end - pos is the number of
   characters left, rest is input[pos:].  Result: None for an error. *)
Fixpoint literal_loop (n : nat) (rest : str) (esc hex : bool) (acc : str) : res (option str) :=
  match n with
  | 0 => Ret (if esc || hex then None else Some acc)
  | S n' =>
      match rest with
      | [] => Panic
      | c :: r =>
          if Ascii.eqb c c_bslash && negb esc then
            if hex then Ret None else literal_loop n' r true hex acc
          else
            let plain (d : ascii) :=
              if hex then
                (* pos >= len(input)-2 *)
                match n' with
                | 0 => Ret None
                | S n'' =>
                    match r with
                    | [] => Panic
                    | c2 :: r2 =>
                        match parse_uint [c; c2] 16 8 with
                        | Some v => literal_loop n'' r2 false false (acc ++ [ascii_of_N v])
                        | None => Ret None
                        end
                    end
                end
              else literal_loop n' r false false (acc ++ [d]) in
            if esc then
              if Ascii.eqb c "n" then plain c_lf
              else if Ascii.eqb c "r" then plain c_cr
              else if Ascii.eqb c "t" then plain c_tab
              else if Ascii.eqb c c_bslash then plain c_bslash
              else if Ascii.eqb c c_quote then plain c_quote
              else if Ascii.eqb c "x" then literal_loop n' r false true acc
              else Ret None
            else plain c
      end
  end.

(* go_algorand.go:309-375 parseStringLiteral *)
Definition parse_string_literal (input : str) : res (option str) :=
  letr a := index input 0 in
  letr b := index input (length input - 1) in
  if negb (Ascii.eqb a c_quote) || negb (Ascii.eqb b c_quote) then Ret None
  else literal_loop (length input - 2) (skipn 1 input) false false [].

(* ------------------------------------------------------------------------------------------ *)
(* specification *)

(* the value of a decimal digit, and of a numeral *)
Definition is_digit (c : ascii) : Prop := exists d, (d < 10)%N /\ byte c = (48 + d)%N.
Fixpoint decimal (n : N) (s : str) : N :=
  match s with [] => n | c :: r => decimal (10 * n + (byte c - 48))%N r end.
Definition is_numeral (s : str) (n : N) : Prop := s <> [] /\ Forall is_digit s /\ decimal 0 s = n.

Definition hex_digit (c : ascii) (d : N) : Prop :=
  (d < 10 /\ byte c = 48 + d)%N \/ (10 <= d < 16 /\ (byte c = 87 + d \/ byte c = 55 + d))%N.

(* the text between the quotes and the bytes it stands for *)
Inductive denotes : str -> str -> Prop :=
| den_nil : denotes [] []
| den_char c r v : c <> c_bslash -> denotes r v -> denotes (c :: r) (c :: v)
| den_esc c d r v :
    In (c, d) [("n", c_lf); ("r", c_cr); ("t", c_tab); (c_bslash, c_bslash); (c_quote, c_quote)]%char ->
    denotes r v -> denotes (c_bslash :: c :: r) (d :: v)
| den_hex a b x y r v :
    hex_digit a x -> hex_digit b y -> denotes r v ->
    denotes (c_bslash :: "x"%char :: a :: b :: r) (ascii_of_N (16 * x + y) :: v).

(* a canonical encoding: everything as \xHH *)
Definition hex_char (d : N) : ascii := ascii_of_N (if (d <? 10)%N then 48 + d else 87 + d).
Definition escape_all (v : str) : str :=
  flat_map (fun c => [c_bslash; "x"%char; hex_char (byte c / 16); hex_char (byte c mod 16)]) v.
