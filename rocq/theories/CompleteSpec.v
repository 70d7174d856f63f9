(* An opcode taken from the completions: the line it makes, and the instructions that may stand between
   two lines without disturbing them. *)
From Verif Require Import Base Expr Print OpTable Process Signature SnippetSpec.
From Verif Require Flow LintSpec.

(* what is typed into the places of a snippet, one word each *)
Definition in_places (ws : list str) (i : nat) : option str :=
  match i with 0 => None | S i => nth_error ws i end.

(* the line: the inserted text with its places filled in, or the label of the entry if there is no such
   text *)
Definition chosen (n : str) (p : prog) (ws : list str) : str :=
  match insert_text n (dc_args (doc_of p)) with
  | [] => n
  | text => inserted (in_places ws) text
  end.

(* an instruction behind which the next line is reached, and which names only labels of the program *)
Record fits_in (l : listing) (e : expr) : Prop := {
  fi_acts : ~ Flow.silent e;
  fi_goes_on : ~ LintSpec.unconditional e;
  fi_names : forall n, Flow.names e n -> exists i, Flow.defines l i n
}.
