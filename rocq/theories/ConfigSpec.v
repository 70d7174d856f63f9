(* What the client switches on and off when it initializes the server. *)
From Verif Require Import Base Codec Process Semantics Query Lsp.

Inductive feature : Set := SemanticTokens | NamedHints | DecodedHints | CodeLenses.

(* what one message says about a feature *)
Definition says (f : feature) (e : event) : option bool :=
  match e with
  | Message (Call _ (Initialize (Params (Some (a, b, c, d))))) =>
      match f with SemanticTokens => a | NamedHints => b | DecodedHints => c | CodeLenses => d end
  | _ => None
  end.

(* a feature is on unless the client says otherwise; the last word before shutdown or exit counts *)
Fixpoint switched (f : feature) (now : bool) (es : list event) : bool :=
  match es with
  | [] => now
  | Message (Call _ Shutdown) :: _ | Message (Call _ Exit) :: _ => now
  | e :: r => switched f (match says f e with Some b => b | None => now end) r
  end.
Definition on (f : feature) (es : list event) : bool := switched f true es.
