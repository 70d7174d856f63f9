(* C91: the messages that end the language server. *)
From Verif Require Import Base LexSpec Lexer Codec OpTable Fields Process Semantics Query Lsp LspSpec AnswerSpec.

(* the close requests a server that is shut down does not hear *)
Definition is_close (e : event) : bool := match e with Message (Call _ (DidClose _)) => true | _ => false end.
Fixpoint heeded (down : bool) (es : list event) : list event :=
  match es with
  | [] => []
  | e :: r => if down && is_close e then heeded down r else e :: heeded (down || asks_shutdown e) r
  end.
(* the text the server has of a document *)
Definition held (uri : str) (es : list event) : option str := latest uri (heeded false es).

(* parameters that are missing altogether, or lack the document or the command they are about *)
Definition unheralded (c : call) : Prop :=
  match c with
  | DidOpen NilParams | DidOpen (Params None) => True
  | DidChange NilParams | DidChange (Params (None, _ :: _)) => True
  | _ => False
  end.
Definition incomplete (c : call) : Prop :=
  match c with
  | DidClose NilParams | DidClose (Params None) => True
  | ExecuteCommand NilParams | Query NilParams => True
  | DocumentSymbol NilParams | DocumentSymbol (Params None) => True
  | Diagnostic NilParams | Diagnostic (Params None) => True
  | _ => False
  end.

(* the requests for which the document has to be analysed *)
Definition analyses (uri : str) (c : call) : Prop :=
  match c with
  | Query (Params (u, _)) => u = uri
  | DocumentSymbol (Params (Some u)) | Diagnostic (Params (Some u)) => u = uri
  | ExecuteCommand (Params (VersionUpdate (Some [(u, _)]))) => u = uri
  | ExecuteCommand (Params (LabelRemove (Some [(u, _)]))) => u = uri
  | ExecuteCommand (Params (LabelCreate (Some [(u, _)]))) => u = uri
  | _ => False
  end.

(* the questions about places that cannot be answered: before the document, or about an operand that
   is a negative number where the number of a field belongs *)
Definition no_place (r : presult) (q : query) : Prop :=
  match q with
  | QCompletion p => (ps_line p < 0)%Z
  | QHover p => (ps_line p < 0)%Z \/
      exists a t sp v, on_operand r p a t /\ documented (oa_type a) sp /\ atoi (tok_v t) = Some v /\ (v < 0)%Z
  | QInlayHint rg | QCodeAction rg => (r_sl rg < 0)%Z /\ (r_sl rg <= r_el rg)%Z
  | _ => False
  end.

(* a call that ends the server, after these messages *)
Inductive deadly (en : lenv) (es : list event) (c : call) : Prop :=
| DUnheralded : unheralded c -> deadly en es c
| DChange u t chs : c = DidChange (Params (Some u, chs)) -> held u es = Some t -> In None chs -> deadly en es c
| DIncomplete : existsb asks_shutdown es = false -> incomplete c -> deadly en es c
| DDocument u t : existsb asks_shutdown es = false -> latest u es = Some t -> analyses u c ->
    process (l_env en) t = Panic -> deadly en es c
| DPlace u t r q : existsb asks_shutdown es = false -> latest u es = Some t -> c = Query (Params (u, q)) ->
    process (l_env en) t = Ret r -> no_place r q -> deadly en es c.

(* the texts a message brings *)
Definition texts_in (c : call) : list str :=
  match c with
  | DidOpen (Params (Some (_, t))) => [t]
  | DidChange (Params (_, chs)) => flat_map (fun ch => match ch with Some t => [t] | None => [] end) chs
  | _ => []
  end.
(* a call as the protocol has it: complete, about places that are not before the document, with texts
   that can be analysed and have no negative numbers *)
Definition orderly (en : lenv) (c : call) : Prop :=
  ~ unheralded c /\ ~ incomplete c /\
  (forall u chs, c = DidChange (Params (u, chs)) -> ~ In None chs) /\
  (forall t, In t (texts_in c) -> exists r, process (l_env en) t = Ret r /\
     forall l x v, In l (r_lines r) -> In x l -> atoi (tok_v x) = Some v -> (0 <= v)%Z) /\
  (forall u q, c = Query (Params (u, q)) ->
     match q with
     | QHover p | QCompletion p => (0 <= ps_line p)%Z
     | QInlayHint rg | QCodeAction rg => (0 <= r_sl rg)%Z
     | _ => True
     end).
