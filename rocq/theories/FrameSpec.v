(* The base protocol of the Language Server Protocol, which the Debug Adapter Protocol shares: a message is
   a header and a content part.  The header fields end in CR LF each, name and value are separated by a
   colon and a space, one of them is the length of the content part in bytes, and an empty line follows
   the last field.  Names of fields are not case sensitive. *)
From Verif Require Import Base Literals.

Definition crlf : str := [ascii_of_nat 13; ascii_of_nat 10].

(* names: letters, digits and some punctuation (RFC 7230, token) *)
Definition name_char (c : ascii) : Prop :=
  (48 <= byte c <= 57 \/ 65 <= byte c <= 90 \/ 97 <= byte c <= 122)%N \/ In c (bs "!#$%&'*+-.^_`|~").
(* values: visible characters and blanks between them *)
Definition visible (c : ascii) : Prop := (33 <= byte c /\ byte c <> 127)%N.
Inductive field_value : str -> Prop :=
| value_empty : field_value []
| value_one c : visible c -> field_value [c]
| value_more c d m : visible c -> visible d -> Forall (fun x => visible x \/ byte x = 32%N) m ->
    field_value (c :: m ++ [d]).

(* equality up to the case of letters *)
Definition same_char (c d : ascii) : Prop :=
  c = d \/ (97 <= byte c <= 122 /\ byte c = byte d + 32)%N \/ (65 <= byte c <= 90 /\ byte d = byte c + 32)%N.
Definition same_name : str -> str -> Prop := Forall2 same_char.
Definition is_length (n : str) : Prop := same_name n (bs "Content-Length").

Definition field_ok (f : str * str) : Prop :=
  fst f <> [] /\ Forall name_char (fst f) /\ field_value (snd f) /\ ~ is_length (fst f).
Definition field_text (f : str * str) : str := fst f ++ bs ": " ++ snd f ++ crlf.

(* the bytes of a message and its content part *)
Inductive message_of : str -> str -> Prop :=
| Message_of fs gs n v body :
    Forall field_ok fs -> Forall field_ok gs -> is_length n -> is_numeral v (N.of_nat (length body)) ->
    message_of (concat (map field_text fs) ++ field_text (n, v) ++ concat (map field_text gs) ++ crlf ++ body)
               body.

(* a stream of messages *)
Inductive framed : str -> list str -> Prop :=
| framed_end : framed [] []
| framed_more m b s l : message_of m b -> framed s l -> framed (m ++ s) (b :: l).

(* what is no message: a line that is no header field, or a header that does not tell the length *)
Inductive junk : str -> Prop :=
| junk_line l : l <> [] -> ~ In ":"%char l -> ~ In (ascii_of_nat 10) l -> junk (l ++ crlf)
| junk_header fs : Forall field_ok fs -> junk (concat (map field_text fs) ++ crlf).

(* contents that fit into the memory of the machine *)
Definition fits (b : str) : Prop := (Z.of_nat (length b) <= 2 ^ 48)%Z.

(* a stream with junk between the messages, which may end in the middle of a message *)
Inductive stream : str -> list str -> Prop :=
| stream_end : stream [] []
| stream_message m b s l : message_of m b -> fits b -> stream s l -> stream (m ++ s) (b :: l)
| stream_junk j s l : junk j -> stream s l -> stream (j ++ s) l
| stream_cut p q b : message_of (p ++ q) b -> fits b -> q <> [] -> stream p [].

(* a header with a length that is negative, or larger than the memory can be *)
Definition tells (v : str) (z : Z) : Prop :=
  (exists k, is_numeral v k /\ z = Z.of_N k /\ (k < 2 ^ 63)%N) \/
  (exists k w, is_numeral w k /\ v = "-"%char :: w /\ z = (- Z.of_N k)%Z /\ (0 < k <= 2 ^ 63)%N).
Inductive deadly : str -> Prop :=
| Deadly fs gs n v z :
    Forall field_ok fs -> Forall field_ok gs -> is_length n -> tells v z -> (z < 0 \/ 2 ^ 48 < z)%Z ->
    deadly (concat (map field_text fs) ++ field_text (n, v) ++ concat (map field_text gs) ++ crlf).
