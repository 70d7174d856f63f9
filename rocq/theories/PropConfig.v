(* Property C98: what the client switches off.  Vocabulary in ConfigSpec.v, proofs in ConfigProofs.v. *)
From Verif Require Import Base LexSpec Codec Process PropProcess Semantics Query Lsp LspSpec LspProofs PropLsp ConfigSpec ConfigProofs.

(* C98, full statement: semantic tokens, hints and code lenses are on unless the client switches them
   off when it initializes the server, and what is off is neither announced nor sent.
   It is false: code lenses are announced although they are off, and semantic tokens are sent although
   they are off. *)
Definition initialize (n : Z) (a b c d : option bool) : event := said n (Initialize (Params (Some (a, b, c, d)))).
Definition ask (n : Z) (q : query) : event := said n (Query (Params (doc1, q))).

Theorem C98_refuted : exists es out,
  on SemanticTokens es = false /\ on CodeLenses es = false /\ outputs es = Ret out /\
  In (Reply (NumId 1) (AInitialize (Capabilities false true true))) out /\
  exists t l, In (Reply (NumId 2) (ASemanticTokens (t :: l))) out.
Proof.
  exists [initialize 1 (Some false) None None (Some false); open_ (lines ["int 1"]); ask 2 QSemanticTokens].
  eexists. split; [reflexivity|]. split; [reflexivity|].
  split; [vm_compute; reflexivity|]. split; [left; reflexivity|].
  eexists _, _. right; left. reflexivity.
Qed.
Print Assumptions C98_refuted.

(* What holds.  The server remembers the last word of the client for every feature. *)
Theorem C98_settings : forall en es s out, run en start es = Ret (s, out) ->
  s_config s = Config (on SemanticTokens es) (on NamedHints es) (on DecodedHints es) (on CodeLenses es).
Proof.
  intros en es s out H. pose proof (run_config en es start s out (cached_start en) eq_refl eq_refl H) as Q.
  destruct (s_config s) as [a b c d].
  f_equal; [exact (Q SemanticTokens)|exact (Q NamedHints)|exact (Q DecodedHints)|exact (Q CodeLenses)].
Qed.
Print Assumptions C98_settings.

(* The answer to initialize announces semantic tokens if they are on, inlay hints if one of the two
   kinds is on, and code lenses always. *)
Theorem C98_announced : forall en es id p s out,
  existsb asks_shutdown es = false -> existsb asks_exit es = false -> p <> BadParams ->
  let es' := es ++ [Message (Call id (Initialize p))] in
  run en start es' = Ret (s, out) ->
  exists out0, out = out0 ++ [Reply id (AInitialize
    (Capabilities (on SemanticTokens es') (on NamedHints es' || on DecodedHints es') true))].
Proof.
  intros en es id p s out Hs Hx Hp es' H.
  pose proof (C98_settings en es' s out H) as Q.
  destruct (run_prefix en es start _ _ H) as [[s1 o1] R].
  assert (S1 : s_exit s1 = false /\ s_shutdown s1 = false).
  { destruct (run_inv en es start s1 o1 (cached_start en) eq_refl R) as [_ [_ [X [Y _]]]].
    rewrite X, Y. split; [exact Hx|]. cbn [s_shutdown start orb].
    clear -Hs. induction es as [|e es IH]; [reflexivity|]. cbn in *. apply orb_false_iff in Hs. destruct Hs as [A B].
    destruct (asks_exit e); [reflexivity|]. cbn. rewrite A. apply IH. exact B. }
  destruct S1 as [X1 D1].
  unfold es' in H. rewrite (run_app en es start s1 o1 _ X1 R) in H.
  assert (G : exists cf s2, handle en s1 (Call id (Initialize p)) = Ret (s2, [Reply id (AInitialize (announce cf))]) /\
    s_config s2 = cf).
  { cbn [handle]. rewrite D1. destruct p as [| |[o|]]; [congruence| | |]; eexists _, _; split; reflexivity. }
  destruct G as (cf & s2 & G & Hc). cbn [run] in H. rewrite X1, G in H. cbn [bindr fst snd] in H.
  assert (E : run en s2 [] = Ret (s2, [])) by (cbn; destruct (s_exit s2); reflexivity).
  change (if s_exit s2 then Ret (s2, []) else Ret (s2, [])) with (run en s2 []) in H.
  rewrite E in H. cbn [bindr fst snd app] in H. injection H as <- <-.
  exists o1. rewrite <- Hc, Q. reflexivity.
Qed.
Print Assumptions C98_announced.

(* Code lenses and hints that are off are not sent, whatever the document is. *)
Theorem C98_lenses_off : forall en es s out id uri s' out', run en start es = Ret (s, out) ->
  on CodeLenses es = false -> handle en s (Call id (Query (Params (uri, QCodeLens)))) = Ret (s', out') ->
  out' = [] \/ out' = [Reply id (ACodeLens [])].
Proof.
  intros en es s out id uri s' out' R O H.
  destruct (query_answer en s id uri QCodeLens s' out' H) as [->|(d & r & a & E & ->)]; [auto|].
  rewrite (C98_settings _ _ _ _ R), O in E. cbn in E. injection E as <-. auto.
Qed.
Print Assumptions C98_lenses_off.

Theorem C98_hints_off : forall en es s out id uri rg s' out', run en start es = Ret (s, out) ->
  on NamedHints es = false -> on DecodedHints es = false ->
  handle en s (Call id (Query (Params (uri, QInlayHint rg)))) = Ret (s', out') ->
  out' = [] \/ out' = [Reply id (AInlayHint [])].
Proof.
  intros en es s out id uri rg s' out' R O1 O2 H.
  destruct (query_answer en s id uri _ s' out' H) as [->|(d & r & a & E & ->)]; [auto|].
  rewrite (C98_settings _ _ _ _ R), O1, O2 in E. cbn in E.
  destruct (inlay_hints r rg) as [hs| |]; try discriminate. cbn in E. injection E as <-. auto.
Qed.
Print Assumptions C98_hints_off.

(* a session: on at first, then switched, a second initialize, one that comes too late *)
Example C98_ex :
  let text := open_ (lines ["#pragma version 8"; "a:"; "byte 0x4142"; "txn 0"; "b a"]) in
  let hints (n : Z) := ask n (QInlayHint (Range 0 0 9 20)) in
  outputs [said 1 (Initialize NilParams); text; ask 2 QCodeLens; hints 3%Z;
    initialize 4 (Some false) (Some false) None (Some false); ask 5 QCodeLens; hints 6%Z;
    initialize 7 None None (Some false) None; hints 8%Z; initialize 9 (Some true) None None (Some true); ask 10 QCodeLens] =
  Ret [Reply (NumId 1) (AInitialize (Capabilities true true true)); Reply (NumId 2) (ACodeLens [(1, 1)]);
    Reply (NumId 3) (AInlayHint [(Pos 3 5, bs "Sender"); (Pos 2 11, bs "AB")]);
    Reply (NumId 4) (AInitialize (Capabilities false true true)); Reply (NumId 5) (ACodeLens []);
    Reply (NumId 6) (AInlayHint [(Pos 2 11, bs "AB")]);
    Reply (NumId 7) (AInitialize (Capabilities false false true)); Reply (NumId 8) (AInlayHint []);
    Reply (NumId 9) (AInitialize (Capabilities true false true)); Reply (NumId 10) (ACodeLens [(1, 1)])] /\
  on CodeLenses [initialize 4 (Some false) (Some false) None (Some false); said 5 Shutdown;
    initialize 6 None None None (Some true)] = false.
Proof. split; vm_compute; reflexivity. Qed.
