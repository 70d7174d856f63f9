(* How the descriptions of langspec.json name things: the values an opcode takes from the stack are A, B, ...,
   those it leaves are X, Y, and the operands written behind it have letters of their own.  A letter names
   something where it stands alone, or before "th" as in "Nth". *)
From Verif Require Import Base LangDocs SignatureSpec.

Definition letter (c : ascii) : bool :=
  let n := N_of_ascii c in ((65 <=? n) && (n <=? 90) || (97 <=? n) && (n <=? 122))%N.
Definition capital (c : ascii) : bool := let n := N_of_ascii c in ((65 <=? n) && (n <=? 90))%N.
(* the small letter of a capital *)
Definition small (c : ascii) : ascii := ascii_of_N (N_of_ascii c + 32).

(* a text that does not go on with a letter *)
Definition word_ends (s : str) : Prop := match s with [] => True | c :: _ => letter c = false end.
(* c names something in the description d *)
Definition names (c : ascii) (d : str) : Prop :=
  exists u v, d = u ++ c :: v /\ word_ends (rev u) /\ (word_ends v \/ exists w, v = bs "th" ++ w /\ word_ends w).

(* the first n letters from c on *)
Fixpoint letters_from (c : N) (n : nat) : str :=
  match n with O => [] | S n => ascii_of_N c :: letters_from (c + 1) n end.
(* A, B, ... and X, Y *)
Definition on_stack (o : lang_doc) : str :=
  letters_from 65 (length (bs (ld_args o))) ++ letters_from 88 (length (bs (ld_returns o))).

(* the argument has the letter c, in small *)
Definition lettered (c : ascii) (a : taken) : Prop := capital c = true /\ bs (tk_name a) = [small c].

(* what the immediate notes of langspec.json call the operands with a letter *)
Definition meanings : list (string * list string) :=
  [("a", ["arguments"]); ("e", ["end position"; "encoding index"]);
   ("f", ["transaction field index"; "asset holding field index"; "asset params field index"; "app params field index";
          "account params field index"; "parameters index"; "block field"]);
   ("i", ["position in scratch space to load from"; "position in scratch space to store to"; "transaction field array index"]);
   ("l", ["length"]); ("n", ["depth"; "stack depth"; "copy count"]); ("r", ["return type"; "return values"]);
   ("s", ["start position"]); ("t", ["transaction group index"])]%string.
Definition means (n d : string) : Prop := exists ds, In (n, ds) meanings /\ In d ds.
