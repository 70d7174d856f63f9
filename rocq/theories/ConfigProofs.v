(* Proofs about the settings of the server (ConfigSpec.v). *)
From Verif Require Import Base Codec Process Semantics Query Lsp LspSpec LspProofs ConfigSpec.

Definition setting (f : feature) (c : config) : bool :=
  match f with
  | SemanticTokens => c_semantic c
  | NamedHints => c_named c
  | DecodedHints => c_decoded c
  | CodeLenses => c_lens c
  end.

Lemma results_config en uri s r s' : results en uri s = Ret (Some (r, s')) -> s_config s' = s_config s.
Proof.
  unfold results. destruct (get_doc uri s) as [d|]; [|discriminate]. destruct (d_res d).
  - intros H. injection H as _ <-. reflexivity.
  - destruct (process (l_env en) (d_text d)); try discriminate. cbn. intros H. injection H as _ <-. reflexivity.
Qed.

Lemma change_config uri chs : forall s s', change_doc uri chs s = Ret s' -> s_config s' = s_config s.
Proof.
  induction chs as [|ch r IH]; intros s s' E; cbn [change_doc] in E; [injection E as <-; reflexivity|].
  destruct (get_doc uri s); [|injection E as <-; reflexivity]. destruct ch; [|discriminate].
  rewrite (IH _ _ E). reflexivity.
Qed.

Lemma execute_config en id c s s' out : execute en id c s = Ret (s', out) -> s_config s' = s_config s.
Proof.
  assert (Rs : forall uri (k : presult -> server -> server * list output),
    (forall r s0, s_config (fst (k r s0)) = s_config s0) ->
    (letr x := results en uri s in
     match x with Some (r, s0) => Ret (k r s0) | None => next s [] end) = Ret (s', out) ->
    s_config s' = s_config s).
  { intros uri k K E. destruct (results en uri s) as [[[r s0]|]| |] eqn:R; try discriminate; cbn [bindr] in E.
    - injection E as E. rewrite <- (results_config _ _ _ _ _ R), <- (K r s0), E. reflexivity.
    - injection E as <- _. reflexivity. }
  intros E. destruct c; cbn [execute] in E; try (injection E as <- _; reflexivity).
  - destruct (one_arg a) as [[u v]|]; [|injection E as <- _; reflexivity].
    eapply Rs; [|exact E]. reflexivity.
  - destruct (one_arg a) as [[[u rg] v]|]; [|injection E as <- _; reflexivity].
    destruct (get_doc u s); injection E as <- _; reflexivity.
  - destruct (one_arg a) as [[u v]|]; [|injection E as <- _; reflexivity].
    destruct (get_doc u s); injection E as <- _; reflexivity.
  - destruct (one_arg a) as [[u v]|]; [|injection E as <- _; reflexivity].
    eapply Rs; [|exact E]. reflexivity.
  - destruct (one_arg a) as [[u v]|]; [|injection E as <- _; reflexivity].
    eapply Rs; [|exact E]. reflexivity.
Qed.

Lemma config_step en s m s' out : handle en s m = Ret (s', out) -> s_shutdown s = false ->
  forall f, setting f (s_config s') =
    match says f (Message m) with Some b => b | None => setting f (s_config s) end.
Proof.
  intros E D f.
  assert (K : says f (Message m) = None -> s_config s' = s_config s ->
    setting f (s_config s') = match says f (Message m) with Some b => b | None => setting f (s_config s) end).
  { intros -> ->. reflexivity. }
  destruct m as [|id c]; cbn [handle] in E.
  { apply K; [reflexivity|]. injection E as <- _. reflexivity. }
  destruct c.
  - apply K; [reflexivity|]. injection E as <- _. reflexivity.
  - apply K; [reflexivity|]. injection E as <- _. reflexivity.
  - apply K; [reflexivity|]. destruct p as [| |[[uri t]|]]; try discriminate; injection E as <- _; reflexivity.
  - apply K; [reflexivity|]. destruct p as [| |[u chs]]; try discriminate; [injection E as <- _; reflexivity|].
    destruct u as [uri|]; [|destruct chs; [injection E as <- _; reflexivity|discriminate]].
    destruct chs; [injection E as <- _; reflexivity|].
    destruct (change_doc uri (o :: chs) s) eqn:X; try discriminate. cbn in E. injection E as <- _.
    eapply change_config; eauto.
  - apply K; [reflexivity|]. injection E as <- _. reflexivity.
  - apply K; [reflexivity|]. rewrite D in E. injection E as <- _. reflexivity.
  - apply K; [reflexivity|]. rewrite D in E. injection E as <- _. reflexivity.
  - apply K; [reflexivity|]. rewrite D in E.
    destruct p as [| |[u|]]; try discriminate; injection E as <- _; reflexivity.
  - apply K; [reflexivity|]. rewrite D in E.
    destruct p as [| |c]; try discriminate; [injection E as <- _; reflexivity|]. eapply execute_config; eauto.
  - apply K; [reflexivity|]. rewrite D in E.
    destruct p as [| |[u q]]; try discriminate; [injection E as <- _; reflexivity|].
    destruct (results en u s) as [[[r s0]|]| |] eqn:R; try discriminate; cbn [bindr] in E; [|injection E as <- _; reflexivity].
    destruct (get_doc u s) as [d|]; [|injection E as <- _; reflexivity].
    destruct (answer_query en (s_config s) u (d_text d) r q); try discriminate. cbn in E. injection E as <- _.
    eapply results_config; eauto.
  - apply K; [reflexivity|]. rewrite D in E.
    destruct p as [| |[u|]]; try discriminate; [injection E as <- _; reflexivity|].
    destruct (results en u s) as [[[r s0]|]| |] eqn:R; try discriminate; cbn [bindr] in E; injection E as <- _;
      [eapply results_config; eauto|reflexivity].
  - apply K; [reflexivity|]. rewrite D in E.
    destruct p as [| |[u|]]; try discriminate; [injection E as <- _; reflexivity|].
    destruct (results en u s) as [[[r s0]|]| |] eqn:R; try discriminate; cbn [bindr] in E; injection E as <- _;
      [eapply results_config; eauto|reflexivity].
  - rewrite D in E. destruct p as [| |[[[[a b] c] d]|]]; try (apply K; [reflexivity|]; injection E as <- _; reflexivity).
    injection E as <- _. cbn. destruct f; cbn; match goal with |- or_old ?x _ = _ => destruct x; reflexivity end.
  - apply K; [reflexivity|]. rewrite D in E. injection E as <- _. reflexivity.
Qed.

Lemma dead_config en es : forall s s' out, cached en s -> s_shutdown s = true -> run en s es = Ret (s', out) ->
  s_config s' = s_config s.
Proof.
  induction es as [|e es IH]; intros s s' out C D E; cbn [run] in E.
  - destruct (s_exit s); injection E as <- _; reflexivity.
  - destruct (s_exit s); [injection E as <- _; reflexivity|]. destruct e as [|m]; [eapply IH; eauto|].
    destruct (handle en s m) as [[s1 o1]| |] eqn:H; try discriminate. cbn [bindr fst snd] in E.
    destruct (run en s1 es) as [[s2 o2]| |] eqn:R; try discriminate. cbn in E. injection E as <- _.
    pose proof (step_of en s m s1 o1 C H) as St.
    rewrite (IH s1 s2 o2 (st_cached _ _ _ _ _ St)); [apply (st_dead _ _ _ _ _ St D)| |exact R].
    rewrite (st_shut _ _ _ _ _ St), D. reflexivity.
Qed.

Lemma run_config en es : forall s s' out, cached en s -> s_shutdown s = false -> s_exit s = false ->
  run en s es = Ret (s', out) ->
  forall f, setting f (s_config s') = switched f (setting f (s_config s)) es.
Proof.
  induction es as [|e es IH]; intros s s' out C D X E f; cbn [run] in E; rewrite X in E.
  - injection E as <- _. reflexivity.
  - destruct e as [|m]; [cbn; eapply IH; eauto|].
    destruct (handle en s m) as [[s1 o1]| |] eqn:H; try discriminate. cbn [bindr fst snd] in E.
    destruct (run en s1 es) as [[s2 o2]| |] eqn:R; try discriminate. cbn in E. injection E as <- _.
    pose proof (step_of en s m s1 o1 C H) as St. pose proof (config_step en s m s1 o1 H D f) as Q.
    pose proof (st_shut _ _ _ _ _ St) as Sh. pose proof (st_exit _ _ _ _ _ St) as Se. rewrite D in Sh. rewrite X in Se.
    pose proof (st_cached _ _ _ _ _ St) as C1.
    assert (Go : asks_shutdown (Message m) = false -> asks_exit (Message m) = false ->
      setting f (s_config s2) =
      switched f (match says f (Message m) with Some b => b | None => setting f (s_config s) end) es).
    { intros A B. rewrite A in Sh. rewrite B in Se. rewrite <- Q. eapply IH; eauto. }
    destruct m as [|id c]; [apply Go; reflexivity|].
    destruct c; try (apply Go; reflexivity).
    + (* exit *) cbn in Se. rewrite (run_exited en s1 es Se) in R. injection R as <- _. cbn [switched says] in *. exact Q.
    + (* shutdown *) cbn in Sh. cbn [switched says] in *. rewrite (dead_config en es s1 s2 o2 C1 Sh R). exact Q.
Qed.

(* the answer to a query *)
Lemma query_answer en s id uri q s' out : handle en s (Call id (Query (Params (uri, q)))) = Ret (s', out) ->
  out = [] \/ exists d r a, answer_query en (s_config s) uri (d_text d) r q = Ret a /\ out = [Reply id a].
Proof.
  intros E. cbn [handle] in E. destruct (s_shutdown s); [injection E as _ <-; auto|].
  destruct (results en uri s) as [[[r s0]|]| |]; try discriminate; cbn [bindr] in E; [|injection E as _ <-; auto].
  destruct (get_doc uri s) as [d|]; [|injection E as _ <-; auto].
  destruct (answer_query en (s_config s) uri (d_text d) r q) as [a| |] eqn:A; try discriminate. cbn in E.
  injection E as _ <-. right. eauto.
Qed.
