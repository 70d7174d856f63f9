(* What the language server is meant to do, stated over histories of messages. *)
From Verif Require Import Base LexSpec Lexer Codec Process Semantics Query Lsp.

(* ------------------------------------------------------------------------------------------ *)
(* the text last sent for a document: None if it was never opened or is closed *)
Definition last_text (chs : list (option str)) (old : str) : str :=
  fold_left (fun t ch => match ch with Some t' => t' | None => t end) chs old.
Definition hear (uri : str) (t : option str) (e : event) : option str :=
  match e with
  | Message (Call _ (DidOpen (Params (Some (u, t'))))) => if seqb u uri then Some t' else t
  | Message (Call _ (DidChange (Params (Some u, chs)))) =>
      if seqb u uri then match t with Some old => Some (last_text chs old) | None => None end else t
  | Message (Call _ (DidClose (Params (Some u)))) => if seqb u uri then None else t
  | _ => t
  end.
Definition latest (uri : str) (es : list event) : option str := fold_left (hear uri) es None.

(* the requests that concern one document *)
Definition about (uri : str) (c : call) : Prop :=
  match c with
  | Query (Params (u, _)) => u = uri
  | DocumentSymbol (Params (Some u)) => u = uri
  | Diagnostic (Params (Some u)) => u = uri
  | ExecuteCommand (Params c) =>
      match c with
      | VersionUpdate (Some [(u, _)]) => u = uri
      | ValueReplace (Some [(u, _, _)]) => u = uri
      | LineRemove (Some [(u, _)]) => u = uri
      | LabelRemove (Some [(u, _)]) | LabelCreate (Some [(u, _)]) => u = uri
      | _ => False
      end
  | _ => False
  end.

(* a server with the same settings that was only ever sent the given text *)
Definition just_opened (s : server) (uri : str) (t : option str) : server :=
  Server (s_id s) (s_config s) (match t with Some t => [(uri, LDoc t None)] | None => [] end) false false 0.

Definition written (x : res (server * list output)) : res (list output) := letr p := x in Ret (snd p).

(* ------------------------------------------------------------------------------------------ *)
(* responses *)
Definition answers (id : ident) (o : output) : bool :=
  match o with
  | Reply i _ | Fail i _ =>
      match i, id with
      | NoId, NoId => true
      | NumId a, NumId b => (a =? b)%Z
      | StrId a, StrId b => seqb a b
      | _, _ => false
      end
  | ApplyEdit _ _ _ => false
  end.
Definition is_response (o : output) : bool :=
  match o with Reply _ _ | Fail _ _ => true | ApplyEdit _ _ _ => false end.

(* the methods the protocol defines as notifications *)
Definition notification (c : call) : Prop :=
  match c with
  | Initialized | Exit | DidOpen _ | DidChange _ | DidSave _ | DidClose _ | CancelRequest => True
  | _ => False
  end.

(* has the client asked to shut down, before the exit that ends the session *)
Definition asks_shutdown (e : event) : bool :=
  match e with Message (Call _ Shutdown) => true | _ => false end.
Definition asks_exit (e : event) : bool :=
  match e with Message (Call _ Exit) => true | _ => false end.
Fixpoint before_exit (es : list event) : list event :=
  match es with [] => [] | e :: r => if asks_exit e then [] else e :: before_exit r end.

(* the ids of the requests of the server *)
Definition request_ids (out : list output) : list str :=
  flat_map (fun o => match o with ApplyEdit id _ _ => [id] | _ => [] end) out.

(* the requests that are answered: known methods with parameters, about open documents *)
Definition served (open : str -> Prop) (c : call) : Prop :=
  match c with
  | Shutdown => True
  | Initialize p => p <> BadParams
  | Query (Params (u, _)) => open u
  | DocumentSymbol (Params (Some u)) => open u
  | Diagnostic (Params (Some _)) => True
  | ExecuteCommand (Params (UnknownCommand _)) => True
  | _ => False
  end.
