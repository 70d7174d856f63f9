(* C92: the files of a directory. *)
From Verif Require Import Base Walk.

(* there is a file at this path below the node; and one whose directories could all be listed *)
Inductive file_at : node -> list str -> option str -> Prop :=
| FHere c : file_at (File c) [] c
| FListed l u name n path c : In (name, n) l -> file_at n path c -> file_at (Dir l u) (name :: path) c
| FUnlisted l u name n path c : In (name, n) u -> file_at n path c -> file_at (Dir l u) (name :: path) c.
Inductive listed_at : node -> list str -> option str -> Prop :=
| LHere c : listed_at (File c) [] c
| LListed l u name n path c : In (name, n) l -> listed_at n path c -> listed_at (Dir l u) (name :: path) c.

(* the names in a directory are different, and names are not empty and have no slash *)
Inductive proper : node -> Prop :=
| PFile c : proper (File c)
| PDir l u : NoDup (map fst (l ++ u)) ->
    (forall name n, In (name, n) (l ++ u) -> name <> [] /\ ~ In "/"%char name /\ proper n) -> proper (Dir l u).
(* all directories can be listed *)
Inductive listable : node -> Prop :=
| AFile c : listable (File c)
| ADir l : (forall name n, In (name, n) l -> listable n) -> listable (Dir l []).

(* the name of the file ends with .teal *)
Definition teal_file (path : list str) : Prop := exists dirs name, path = dirs ++ [name ++ bs ".teal"].

(* strings and paths in order: at the first difference, or the shorter first *)
Inductive before {A} (lt : A -> A -> Prop) : list A -> list A -> Prop :=
| BShort x l : before lt [] (x :: l)
| BDiffer x y a b : lt x y -> before lt (x :: a) (y :: b)
| BSame x a b : before lt a b -> before lt (x :: a) (x :: b).
Definition str_before : str -> str -> Prop := before (fun x y => (byte x < byte y)%N).
Definition path_before : list str -> list str -> Prop := before str_before.
Inductive in_order {A} (lt : A -> A -> Prop) : list A -> Prop :=
| ONil : in_order lt []
| OCons x l : Forall (lt x) l -> in_order lt l -> in_order lt (x :: l).

(* what the path of a uri may be made of (RFC 3986): unreserved characters, sub-delimiters, : @ / and escapes *)
Inductive uri_text : str -> Prop :=
| UNil : uri_text []
| UChar c r : In c (bs "abcdefghijklmnopqrstuvwxyzABCDEFGHIJKLMNOPQRSTUVWXYZ0123456789-._~:/@!$&'()*+,;=") ->
    uri_text r -> uri_text (c :: r)
| UEscape a b r : In a (bs "0123456789ABCDEF") -> In b (bs "0123456789ABCDEF") ->
    uri_text r -> uri_text ("%"%char :: a :: b :: r).
(* the bytes that it stands for *)
Definition hex_of (c : ascii) : N := if (byte c <? 65)%N then byte c - 48 else byte c - 55.
Inductive means : str -> str -> Prop :=
| MNil : means [] []
| MChar c r s : c <> "%"%char -> means r s -> means (c :: r) (c :: s)
| MEscape a b r s : means r s -> means ("%"%char :: a :: b :: r) (ascii_of_N (16 * hex_of a + hex_of b) :: s).
