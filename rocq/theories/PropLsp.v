(* Properties C39-C42: the language server over whole sessions. *)
From Verif Require Import Base Lexer Codec Process Semantics Query Lsp LspSpec LspProofs PropProcess.

Definition len0 : lenv := Lenv env0 (fun s => s).
Definition doc1 : str := bs "file:///a.teal".
Definition said (n : Z) (c : call) : event := Message (Call (NumId n) c).
Definition told (c : call) : event := Message (Call NoId c).
Definition open_ (t : str) : event := told (DidOpen (Params (Some (doc1, t)))).
Definition change_ (ts : list str) : event := told (DidChange (Params (Some doc1, map Some ts))).
Definition outputs (es : list event) : res (list output) := written (run len0 start es).

(* ---------------------------------------------------------------- C39: answers reflect the latest text *)
(* A diagnostic request for a document that was never opened is answered with no diagnostics. *)
Theorem C39_refuted : exists es s out uri id c,
  run len0 start es = Ret (s, out) /\ s_exit s = false /\ s_shutdown s = false /\ about uri c /\
  latest uri es = None /\ written (handle len0 s (Call id c)) = Ret [Reply id (ADiagnostic [])].
Proof.
  exists [], start, [], doc1, (NumId 1), (Diagnostic (Params (Some doc1))). repeat split.
Qed.
Print Assumptions C39_refuted.

(* every request about a document is answered as by a server that was only sent its latest text *)
Theorem C39_partial en es s out uri id c :
  run en start es = Ret (s, out) -> s_exit s = false -> s_shutdown s = false -> about uri c ->
  written (handle en s (Call id c)) = written (handle en (just_opened s uri (latest uri es)) (Call id c)).
Proof. exact (answers_latest en es s out uri id c). Qed.
Print Assumptions C39_partial.

Theorem C39_query en es s out uri id q :
  run en start es = Ret (s, out) -> s_exit s = false -> s_shutdown s = false ->
  written (handle en s (Call id (Query (Params (uri, q))))) =
  match latest uri es with
  | None => Ret []
  | Some t =>
      letr r := process (l_env en) t in
      letr a := answer_query en (s_config s) uri t r q in
      Ret [Reply id a]
  end.
Proof. exact (query_answer en es s out uri id q). Qed.
Print Assumptions C39_query.

Theorem C39_unopened en es s out uri id c :
  run en start es = Ret (s, out) -> s_exit s = false -> s_shutdown s = false -> about uri c ->
  latest uri es = None -> (forall p, c <> Diagnostic p) ->
  written (handle en s (Call id c)) = Ret [].
Proof. exact (silent_unopened en es s out uri id c). Qed.
Print Assumptions C39_unopened.

Definition ask_symbols (n : Z) : event := said n (DocumentSymbol (Params (Some doc1))).
Definition symbol_names (o : output) : list str :=
  match o with Reply _ (ADocumentSymbol l) => map fst l | _ => [] end.
(* the cached result is dropped by a change, and a document can be closed and opened again *)
Example C39_ex :
  (letr o := outputs [ask_symbols 1; open_ (lines ["a:"]); ask_symbols 2; ask_symbols 3; change_ [lines ["b:"]; lines ["c:"; "d:"]];
    ask_symbols 4; told (DidClose (Params (Some doc1))); ask_symbols 5; open_ (lines ["e:"]); ask_symbols 6] in
  Ret (map symbol_names o)) = Ret [[bs "a"]; [bs "a"]; [bs "c"; bs "d"]; [bs "e"]].
Proof. vm_compute. reflexivity. Qed.

(* ---------------------------------------------------------------- C40: life cycle *)
Theorem C40 en es s out : run en start es = Ret (s, out) ->
  s_exit s = existsb asks_exit es /\
  (existsb asks_exit es = true -> s_code s = if existsb asks_shutdown (before_exit es) then 0 else 1) /\
  (existsb asks_exit es = false -> s_code s = 0).
Proof. exact (life_cycle en es s out). Qed.
Print Assumptions C40.

(* once shut down a request changes nothing and writes nothing *)
Theorem C40_dead en s id c : s_shutdown s = true ->
  (match c with Initialized | Exit | DidOpen _ | DidChange _ | DidSave _ => False | _ => True end) ->
  handle en s (Call id c) = Ret (s, []).
Proof. exact (dead_requests en s id c). Qed.
Print Assumptions C40_dead.

(* whatever follows a shutdown adds nothing to what was written *)
Theorem C40_silent en a b s out : run en start (a ++ b) = Ret (s, out) ->
  existsb asks_shutdown (before_exit a) = true -> exists s1, run en start a = Ret (s1, out).
Proof. exact (silent_after_shutdown en a b s out). Qed.
Print Assumptions C40_silent.
Example C40_ex :
  match run len0 start [said 1 Shutdown; said 2 (Initialize NilParams); told Exit] with
  | Ret (s, out) => s_code s = 0 /\ out = [Reply (NumId 1) AShutdown] | _ => False end /\
  match run len0 start [told Exit; said 1 Shutdown] with
  | Ret (s, out) => s_code s = 1 /\ out = [] | _ => False end.
Proof. vm_compute. repeat split. Qed.

(* ---------------------------------------------------------------- C41: exactly one response *)
(* A command is executed but the request is never answered. *)
Theorem C41_refuted : exists es id c out, asks_exit (Message (Call id c)) = false /\ ~ notification c /\
  outputs (es ++ [Message (Call id c)]) = Ret out /\ forallb (fun o => negb (answers id o)) out = true /\ out <> [].
Proof.
  exists [open_ []], (NumId 1), (ExecuteCommand (Params (LineRemove (Some [(doc1, 0%Z)])))).
  eexists. split; [reflexivity|]. split; [intros H; exact H|]. split; [vm_compute; reflexivity|].
  split; [reflexivity|discriminate].
Qed.
Print Assumptions C41_refuted.

Theorem C41_at_most_one en es s out id c s' o : run en start es = Ret (s, out) ->
  handle en s (Call id c) = Ret (s', o) ->
  length (filter is_response o) <= 1 /\ forall x, In x o -> is_response x = true -> answers id x = true.
Proof. exact (at_most_one en es s out id c s' o). Qed.
Print Assumptions C41_at_most_one.

Theorem C41_notification en s id c s' o : notification c -> handle en s (Call id c) = Ret (s', o) -> o = [].
Proof. exact (no_answer_to_notification en s id c s' o). Qed.
Print Assumptions C41_notification.

Theorem C41_partial en es s out id c s' o : run en start es = Ret (s, out) -> s_exit s = false -> s_shutdown s = false ->
  served (fun u => latest u es <> None) c -> handle en s (Call id c) = Ret (s', o) ->
  exists x, o = [x] /\ answers id x = true.
Proof. exact (served_answered en es s out id c s' o). Qed.
Print Assumptions C41_partial.
Example C41_ex : (letr o := outputs [said 7 (Initialize NilParams); told Initialized; open_ (lines ["err"]);
    said 8 (Query (Params (doc1, QHover (Pos 0 0)))); said 9 (ExecuteCommand (Params (UnknownCommand (bs "x"))))] in
  Ret (map (fun x => (is_response x, answers (NumId 7) x, answers (NumId 8) x, answers (NumId 9) x)) o)) =
  Ret [(true, true, false, false); (true, false, true, false); (true, false, false, true)].
Proof. vm_compute. reflexivity. Qed.

(* ---------------------------------------------------------------- C42: request ids *)
Theorem C42 en es s out : run en start es = Ret (s, out) -> NoDup (request_ids out).
Proof. exact (fresh_ids en es s out). Qed.
Print Assumptions C42.
Example C42_ex : let e := said 1 (ExecuteCommand (Params (LineRemove (Some [(doc1, 0%Z)])))) in
  (letr o := outputs [open_ []; e; e; e] in Ret (request_ids o)) = Ret [bs "1"; bs "2"; bs "3"].
Proof. vm_compute. reflexivity. Qed.
