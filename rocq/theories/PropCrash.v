(* Property C91: sessions of the language server. *)
From Verif Require Import Base LexSpec Lexer Codec OpTable Fields Process ProcessSpec Semantics Query Lsp LspSpec LspProofs AnswerSpec
  CrashSpec CrashProofs PropProcess PropLsp.

(* ---------------------------------------------------------------- C91: the server survives every session *)
Theorem C91_refuted : ~ forall es, exists s out, run len0 start es = Ret (s, out).
Proof. intros H. destruct (H [told (DidOpen NilParams)]) as (s & out & E). discriminate E. Qed.
Print Assumptions C91_refuted.

(* also for a client that follows the protocol *)
Theorem C91_client_refuted : exists t, run len0 start [open_ t; said 1 (Diagnostic (Params (Some doc1)))] = Panic.
Proof. exists (lines ["err 1"; "x:"]). vm_compute. reflexivity. Qed.
Print Assumptions C91_client_refuted.

(* Exactly these sessions end in a crash. *)
Theorem C91 en es : run en start es = Panic <->
  exists a id c b, es = a ++ Message (Call id c) :: b /\ existsb asks_exit a = false /\ deadly en a c.
Proof. exact (session_crash en es). Qed.
Print Assumptions C91.

(* all others are served to the end *)
Theorem C91_survives en es :
  (forall a id c b, es = a ++ Message (Call id c) :: b -> existsb asks_exit a = false -> ~ deadly en a c) ->
  exists s out, run en start es = Ret (s, out).
Proof. exact (session_survives en es). Qed.
Print Assumptions C91_survives.

(* in particular those in which every message is in order *)
Theorem C91_partial en es :
  (forall id c, In (Message (Call id c)) es -> orderly en c) -> exists s out, run en start es = Ret (s, out).
Proof. exact (orderly_survives en es). Qed.
Print Assumptions C91_partial.

(* each kind of deadly call does end a session *)
Example C91_deaths : Forall (fun es => run len0 start es = Panic)
  [ [told (DidOpen (Params None))]; [told (DidChange NilParams)]; [told (DidChange (Params (None, [Some []])))];
    [open_ []; told (DidChange (Params (Some doc1, [Some []; None])))];
    [open_ []; said 1 Shutdown; told (DidClose (Params (Some doc1))); told (DidChange (Params (Some doc1, [None])))];
    [said 1 (Query NilParams)]; [said 1 (ExecuteCommand NilParams)]; [told (DidClose (Params None))];
    [said 1 (DocumentSymbol NilParams)]; [said 1 (Diagnostic (Params None))];
    [open_ (lines ["err 1"; "x:"]); said 1 (ExecuteCommand (Params (LabelRemove (Some [(doc1, [])]))))];
    [open_ []; said 1 (Query (Params (doc1, QCompletion (Pos (-1) 0))))];
    [open_ []; said 1 (Query (Params (doc1, QCodeAction (Range (-1) 0 0 0))))];
    [open_ (lines ["txn -1"]); said 1 (Query (Params (doc1, QHover (Pos 0 5))))] ].
Proof. repeat (apply Forall_cons; [vm_compute; reflexivity|]). apply Forall_nil. Qed.
(* and these sessions are served *)
Example C91_lives : Forall (fun es => exists s out, run len0 start es = Ret (s, out))
  [ [told (DidChange (Params (None, [])))]; [told (DidChange (Params (Some doc1, [None])))];
    [open_ (lines ["err 1"; "x:"]); said 1 (ExecuteCommand (Params (LineRemove (Some [(doc1, 0%Z)]))))];
    [said 1 Shutdown; said 2 (Query NilParams)]; [told Exit; told (DidOpen NilParams)];
    [open_ (lines ["txn -1"]); said 1 (Query (Params (doc1, QHover (Pos 0 1))))] ].
Proof. repeat (apply Forall_cons; [vm_compute; do 2 eexists; reflexivity|]). apply Forall_nil. Qed.
Example C91_ex : orderly len0 (DidOpen (Params (Some (doc1, lines ["int 1"; "return"])))).
Proof.
  split; [intros H; exact H|]. split; [intros H; exact H|]. split; [intros u chs H; discriminate H|]. split; [|intros u q H; discriminate H].
  intros t [<-|[]]. destruct (process (l_env len0) (lines ["int 1"; "return"])) as [r| |] eqn:E; vm_compute in E; try discriminate E.
  injection E as <-. eexists. split; [reflexivity|]. cbn [r_lines]. intros l x v Il Ix A.
  cbn [In] in Il; repeat (destruct Il as [<-|Il]); try destruct Il; cbn [In] in Ix; repeat (destruct Ix as [<-|Ix]); try destruct Ix; vm_compute in A; try discriminate A.
  injection A as <-. lia.
Qed.
