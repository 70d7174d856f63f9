(* Property C79: messages on the wire. *)
From Verif Require Import Base Literals Codec Process Query Lsp Dbg Frame FrameSpec FrameProofs PropProcess PropLsp.

Definition kind : str * str := (bs "Content-Type", bs "application/vscode-jsonrpc; charset=utf-8").
Lemma kind_ok : field_ok kind.
Proof.
  split; [discriminate|]. split; [|split].
  - apply Forall_forall. intros c I. apply field_byte_name. revert c I. apply forallb_forall. reflexivity.
  - apply (value_more "a" "8" (bs "pplication/vscode-jsonrpc; charset=utf-")).
    + split; cbv; discriminate.
    + split; cbv; discriminate.
    + apply Forall_forall. cbn. intros c I. repeat (destruct I as [<-|I]; [(left; split; cbv; discriminate) || (right; reflexivity)|]). destruct I.
  - intros L. apply length_name in L as [_ [_ L]]. discriminate.
Qed.
Lemma any_case n : canonical n = bs "Content-Length" -> forallb field_byte n = true -> is_length n.
Proof.
  intros E N. apply (canon_same n true (bs "Content-Length")). unfold canonical in E. rewrite N in E. exact E.
Qed.
Lemma digits v n : forallb (fun c => ((48 <=? byte c) && (byte c <=? 57))%N) v = true -> v <> [] -> decimal 0 v = n -> is_numeral v n.
Proof.
  intros D N E. split; [exact N|]. split; [|exact E]. apply Forall_forall. intros c I. rewrite forallb_forall in D.
  specialize (D c I). apply andb_prop in D as [A B]. apply N.leb_le in A, B. exists (byte c - 48)%N. lia.
Qed.

(* ------------------------------------------------------------------------------------------ *)
(* a length below zero, with nothing behind it, crashes the server and the adapter *)
Definition negative : str := bs "Content-Length: -1" ++ crlf ++ crlf.
Theorem C79_refuted : ~ (forall en decode encode input, exists s out, serve en decode encode start input = Ret (s, out)).
Proof. intros H. destruct (H len0 (fun _ => Garbage) (fun _ => []) negative) as [s [out E]]. discriminate. Qed.
Print Assumptions C79_refuted.

(* and so does every such header: what came before it has been received, nothing after it is *)
Theorem C79_crash s l d rest : framed s l -> Forall fits l -> deadly d -> received (s ++ d ++ rest) = (l, Panic).
Proof. intros F L D. apply deadly_received; [exact F|exact L|exact D|]. rewrite app_length. lia. Qed.
Example C79_crash_ex : deadly negative /\ received (write_body (bs "{}") ++ negative ++ bs "more") = ([bs "{}"], Panic).
Proof.
  split; [|reflexivity].
  apply (Deadly [] [] (bs "Content-Length") (bs "-1") (-1)%Z).
  - constructor.
  - constructor.
  - apply any_case; reflexivity.
  - right. exists 1%N, (bs "1"). split; [apply digits; [reflexivity|discriminate|reflexivity]|]. repeat split; discriminate.
  - left. reflexivity.
Qed.
Print Assumptions C79_crash.

(* Of a stream of messages, with junk between them, exactly the contents are received.  A message that is
   cut off at the end is not. *)
Theorem C79_partial s l : stream s l -> received s = (l, Ret tt).
Proof. intros H. apply stream_received; [exact H|lia]. Qed.
Definition noisy : str :=
  (bs "hello" ++ crlf) ++
  (bs "content-LENGTH: 2" ++ crlf ++ field_text kind ++ crlf ++ bs "{}") ++
  (field_text kind ++ crlf) ++
  (bs "Content-Length: 000" ++ crlf ++ crlf) ++
  bs "Content-Length: 2" ++ crlf ++ crlf ++ bs "{".
Example C79_partial_ex : stream noisy [bs "{}"; []] /\ received noisy = ([bs "{}"; []], Ret tt).
Proof.
  split; [|vm_compute; reflexivity]. unfold noisy.
  apply stream_junk; [apply junk_line; [discriminate|cbn; intuition discriminate|cbn; intuition discriminate]|].
  apply stream_message; [|cbv; discriminate|].
  { apply (Message_of [] [kind] (bs "content-LENGTH") (bs "2") (bs "{}")).
    - constructor.
    - constructor; [exact kind_ok|constructor].
    - apply any_case; reflexivity.
    - apply digits; [reflexivity|discriminate|reflexivity]. }
  apply stream_junk; [apply (junk_header [kind]); constructor; [exact kind_ok|constructor]|].
  apply stream_message; [|cbv; discriminate|].
  { apply (Message_of [] [] (bs "Content-Length") (bs "000") []).
    - constructor.
    - constructor.
    - apply any_case; reflexivity.
    - apply digits; [reflexivity|discriminate|reflexivity]. }
  apply (stream_cut _ (bs "}") (bs "{}")); [|cbv; discriminate|discriminate].
  apply (Message_of [] [] (bs "Content-Length") (bs "2") (bs "{}")).
  - constructor.
  - constructor.
  - apply any_case; reflexivity.
  - apply digits; [reflexivity|discriminate|reflexivity].
Qed.
Print Assumptions C79_partial.

(* what a stream of messages says is determined by its bytes *)
Theorem C79_unique s l l' : framed s l -> framed s l' -> Forall fits l -> Forall fits l' -> l = l'.
Proof.
  intros A B F G. pose proof (C79_partial s l (framed_stream s l A F)) as X.
  pose proof (C79_partial s l' (framed_stream s l' B G)) as Y. congruence.
Qed.
Print Assumptions C79_unique.

(* reading an input of any kind comes to an end *)
Theorem C79_ends s : snd (received s) = Ret tt \/ snd (received s) = Panic.
Proof.
  pose proof (receive_ends (S (length s)) s (Nat.lt_succ_diag_r _)) as H. unfold received.
  destruct (snd (receive (S (length s)) s)) as [[]| |]; [left; reflexivity|right; reflexivity|congruence].
Qed.
Print Assumptions C79_ends.

(* ------------------------------------------------------------------------------------------ *)
(* the server and the adapter do with a stream what they do with its contents, and what they send is a
   stream of messages again *)
Theorem C79_served en decode encode st input l : stream input l ->
  serve en decode encode st input =
  letr x := run en st (map decode l) in Ret (fst x, concat (map write_body (map encode (snd x)))).
Proof.
  intros S. unfold serve. rewrite (C79_partial input l S). destruct (run en st (map decode l)) as [[s o]| |]; [|reflexivity..].
  cbn [bindr fst snd]. rewrite map_map. destruct (s_exit s); reflexivity.
Qed.
Print Assumptions C79_served.

Theorem C79_sent en decode encode st input s out : serve en decode encode st input = Ret (s, out) ->
  exists os, run en st (map decode (fst (received input))) = Ret (s, os) /\ framed out (map encode os).
Proof.
  unfold serve. destruct (received input) as [l e]. cbn [fst].
  destruct (run en st (map decode l)) as [[s' o]| |]; cbn [bindr fst snd]; [|discriminate..].
  destruct (if s_exit s' then Ret tt else e) as [u| |]; cbn [bindr]; [|discriminate..].
  intros E. injection E as <- <-. exists o. split; [reflexivity|].
  rewrite <- (map_map encode write_body). apply written_framed.
Qed.
Print Assumptions C79_sent.

Theorem C79_debugged en pick fuel decode encode st input l : stream input l ->
  debug_serve en pick fuel decode encode st input =
  let (o, x) := converse en pick fuel st (map decode l) in (concat (map write_body (map encode o)), x).
Proof.
  intros S. unfold debug_serve. rewrite (C79_partial input l S). destruct (converse en pick fuel st (map decode l)) as [o x].
  rewrite map_map. destruct x; reflexivity.
Qed.
Theorem C79_debug_sent en pick fuel decode encode st input :
  framed (fst (debug_serve en pick fuel decode encode st input))
         (map encode (fst (converse en pick fuel st (map decode (fst (received input)))))).
Proof.
  unfold debug_serve. destruct (received input) as [l e]. cbn [fst].
  destruct (converse en pick fuel st (map decode l)) as [o x]. cbn [fst].
  rewrite <- (map_map encode write_body). apply written_framed.
Qed.
Print Assumptions C79_debugged.
Print Assumptions C79_debug_sent.

(* a session on the wire: a document is opened, then its symbols are asked for *)
Definition said_on_wire (b : str) : event :=
  if seqb b (bs "open") then open_ (lines ["l:"; "b l"]%string)
  else if seqb b (bs "symbols") then said 1 (DocumentSymbol (Params (Some doc1))) else Garbage.
Definition on_wire (o : output) : str := match o with Reply (NumId 1) (ADocumentSymbol l) => dec (N.of_nat (length l)) | _ => [] end.
Example C79_served_ex : exists s,
  serve len0 said_on_wire on_wire start (write_body (bs "open") ++ write_body (bs "what") ++ write_body (bs "symbols")) =
  Ret (s, bs "Content-Length: 1" ++ crlf ++ crlf ++ bs "1").
Proof. eexists. vm_compute. reflexivity. Qed.
