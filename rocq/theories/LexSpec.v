(** Independent specification of the lexical structure of a TEAL source:
    a declarative grammar over bytes.  It mentions neither runes nor indices. *)
From Verif Require Import Base.
Local Open Scope char_scope.

Definition c_quote : ascii := """".
Definition c_bslash : ascii := "\".
Definition c_slash : ascii := "/".
Definition c_space : ascii := " ".
Definition c_tab : ascii := ascii_of_nat 9.
Definition c_lf : ascii := ascii_of_nat 10.
Definition c_cr : ascii := ascii_of_nat 13.

Definition is_blank (c : ascii) : Prop := c = c_space \/ c = c_tab.
Definition is_eolc (c : ascii) : Prop := c = c_lf \/ c = c_cr.
Definition is_delim (c : ascii) : Prop := is_blank c \/ is_eolc c.

(** [s] is empty or its first byte satisfies [P]. *)
Definition ends_before (P : ascii -> Prop) (s : str) : Prop :=
  match s with [] => True | c :: _ => P c end.

(** Body of a quoted literal: every quote inside it is preceded by a backslash. *)
Definition quotes_escaped (w : str) : Prop :=
  forall i, nth_error w i = Some c_quote ->
            exists j, i = S j /\ nth_error w j = Some c_bslash.

Definition last_is (c : ascii) (w : str) : Prop := exists w', w = w' ++ [c].

(** The pieces a source falls into. *)
Inductive piece :=
| PBlank (c : ascii)     (* one space or tab *)
| PEol (w : str)         (* \n, \r\n or a lone \r *)
| PComment (w : str)     (* // followed by [w] *)
| PString (w : str)      (* a quote, [w], a quote *)
| PWord (w : str)        (* any other run of non-delimiters *)
| POpen (w : str).       (* a quote and [w] up to the end of the source, never closed *)

Inductive Lexes : str -> list piece -> Prop :=
| Lx_end : Lexes [] []
| Lx_blank c r ps : is_blank c -> Lexes r ps -> Lexes (c :: r) (PBlank c :: ps)
| Lx_lf r ps : Lexes r ps -> Lexes (c_lf :: r) (PEol [c_lf] :: ps)
| Lx_crlf r ps : Lexes r ps -> Lexes (c_cr :: c_lf :: r) (PEol [c_cr; c_lf] :: ps)
| Lx_cr r ps : ends_before (fun c => c <> c_lf) r -> Lexes r ps ->
               Lexes (c_cr :: r) (PEol [c_cr] :: ps)
| Lx_comment w r ps : Forall (fun c => ~ is_eolc c) w -> ends_before is_eolc r -> Lexes r ps ->
               Lexes (c_slash :: c_slash :: w ++ r) (PComment w :: ps)
| Lx_string w r ps : quotes_escaped w -> ~ last_is c_bslash w -> Lexes r ps ->
               Lexes (c_quote :: w ++ c_quote :: r) (PString w :: ps)
| Lx_open w : quotes_escaped w -> Lexes (c_quote :: w) [POpen w]
| Lx_word c w r ps : c <> c_quote -> (forall w' , c :: w <> c_slash :: c_slash :: w') ->
               Forall (fun c => ~ is_delim c) (c :: w) -> ends_before is_delim r -> Lexes r ps ->
               Lexes (c :: w ++ r) (PWord (c :: w) :: ps).

(** Source text of a piece. *)
Definition piece_text (p : piece) : str :=
  match p with
  | PBlank c => [c]
  | PEol w => w
  | PComment w => c_slash :: c_slash :: w
  | PString w => c_quote :: w ++ [c_quote]
  | PWord w => w
  | POpen w => c_quote :: w
  end.

(** Every backslash-quote pair of [w] becomes a plain quote (left to right). *)
Inductive Unescaped : str -> str -> Prop :=
| Un_nil : Unescaped [] []
| Un_pair w v : Unescaped w v -> Unescaped (c_bslash :: c_quote :: w) (c_quote :: v)
| Un_char c w v : ~ (c = c_bslash /\ exists w', w = c_quote :: w') ->
                  Unescaped w v -> Unescaped (c :: w) (c :: v).
