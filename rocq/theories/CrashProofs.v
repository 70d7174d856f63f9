(* Proofs about the messages that end the language server. *)
From Verif Require Import Base LexSpec Lexer Codec OpTable Fields Process ProcessSpec ProcessThms Semantics Query Lsp LspSpec LspProofs
  QueryProofs AnswerSpec AnswerProofs CrashSpec.

Lemma process_ends en src : process en src <> OutOfFuel.
Proof. destruct (process_outcome en src) as (ts & errs & raw & _ & _ & [[r ->]|[-> _]]); discriminate. Qed.

(* ------------------------------------------------------------------------------------------ *)
(* the text of a document, also after the shutdown *)
Lemma dead_text en s m s' out uri : cached en s -> s_shutdown s = true -> handle en s m = Ret (s', out) ->
  text_of uri s' = if is_close (Message m) then text_of uri s else hear uri (text_of uri s) (Message m).
Proof.
  intros C D E. destruct m as [|id c]; cbn [handle] in E; [injection E as <- <-; reflexivity|].
  destruct c; try rewrite D in E; try (injection E as <- <-; reflexivity).
  - destruct p as [| |[[u t]|]]; try discriminate E; injection E as <- <-; [reflexivity|].
    rewrite text_put. cbn. reflexivity.
  - destruct p as [| |[[u|] [|ch chs]]]; try discriminate E; try (injection E as <- <-; cbn [is_close hear]; try reflexivity).
    + cbn. destruct (seqb u uri), (text_of uri s); reflexivity.
    + destruct (change_doc u (ch :: chs) s) as [s1| |] eqn:Q; try discriminate E. injection E as <- <-.
      destruct (change_spec en u (ch :: chs) s s1 C Q) as (_ & _ & _ & _ & _ & _ & H). rewrite H. reflexivity.
Qed.

Lemma run_texts en es : forall s s' out, cached en s -> s_exit s = false -> run en s es = Ret (s', out) -> s_exit s' = false ->
  forall uri, text_of uri s' = fold_left (hear uri) (heeded (s_shutdown s) es) (text_of uri s).
Proof.
  induction es as [|e es IH]; intros s s' out C X E X' uri; cbn [run] in E; rewrite X in E.
  { injection E as <- <-. reflexivity. }
  destruct e as [|m].
  { cbn [heeded is_close]. rewrite andb_false_r. cbn [asks_shutdown fold_left]. rewrite orb_false_r. exact (IH _ _ _ C X E X' uri). }
  destruct (handle en s m) as [[s1 o1]| |] eqn:H; try discriminate. cbn [bindr fst snd] in E.
  destruct (run en s1 es) as [[s2 o2]| |] eqn:R; try discriminate. cbn [bindr fst snd] in E. injection E as <- <-.
  pose proof (step_of en s m s1 o1 C H) as S1.
  assert (X1 : s_exit s1 = false).
  { destruct (s_exit s1) eqn:Q; [|reflexivity]. rewrite (run_exited en s1 es Q) in R. injection R as <- _. congruence. }
  rewrite (IH _ _ _ (st_cached _ _ _ _ _ S1) X1 R X' uri). rewrite (st_shut _ _ _ _ _ S1). cbn [heeded].
  destruct (s_shutdown s) eqn:D; cbn [andb orb].
  - rewrite (dead_text en s m s1 o1 uri C D H). destruct (is_close (Message m)); reflexivity.
  - rewrite (st_text _ _ _ _ _ S1 D uri). reflexivity.
Qed.

Lemma heeded_up es : existsb asks_shutdown es = false -> heeded false es = es.
Proof.
  induction es as [|e es IH]; intros H; [reflexivity|]. cbn in H. apply orb_false_iff in H as [A B].
  cbn [heeded andb orb]. rewrite A, (IH B). reflexivity.
Qed.

Lemma before_exit_none es : existsb asks_exit es = false -> before_exit es = es.
Proof. induction es as [|e es IH]; intros H; [reflexivity|]. cbn in *. apply orb_false_iff in H as [-> B]. rewrite (IH B). reflexivity. Qed.

(* ------------------------------------------------------------------------------------------ *)
(* one call *)
Lemma change_crash u chs : forall s, change_doc u chs s = Panic <-> get_doc u s <> None /\ In None chs.
Proof.
  induction chs as [|ch chs IH]; intros s; cbn [change_doc].
  - split; [discriminate|intros [_ []]].
  - destruct (get_doc u s) as [d|] eqn:G; [|split; [discriminate|intros [H _]; congruence]].
    destruct ch as [t|].
    + rewrite IH, get_put, (proj2 (seqb_eq u u) eq_refl). split; intros [A B].
      * split; [discriminate|right; exact B].
      * split; [discriminate|]. destruct B as [B|B]; [discriminate B|exact B].
    + split; [intros _; split; [discriminate|left; reflexivity]|reflexivity].
Qed.
Lemma change_ends u chs : forall s, change_doc u chs s <> OutOfFuel.
Proof.
  induction chs as [|ch chs IH]; intros s; cbn [change_doc]; [discriminate|].
  destruct (get_doc u s), ch; try discriminate. apply IH.
Qed.

Lemma query_crash en cf u t r q : process (l_env en) t = Ret r ->
  (answer_query en cf u t r q = Panic <-> no_place r q) /\ answer_query en cf u t r q <> OutOfFuel.
Proof.
  intros E.
  assert (P : forall p, at_position q p -> (answer_query en cf u t r q = Panic <->
     ((q = QHover p \/ q = QCompletion p) /\ (ps_line p < 0)%Z) \/
     (q = QHover p /\ (0 <= ps_line p)%Z /\
      exists a x sp v, on_operand r p a x /\ documented (oa_type a) sp /\ atoi (tok_v x) = Some v /\ (v < 0)%Z)) /\
     answer_query en cf u t r q <> OutOfFuel).
  { intros p A. destruct (position_panics en cf u t r q p E A) as [H1 [H2|[a H2]]]; split; try exact H1; rewrite H2; discriminate. }
  assert (I : forall rg, inlay_hints r rg = Panic <-> (r_sl rg < 0)%Z /\ (r_sl rg <= r_el rg)%Z).
  { intros rg. unfold inlay_hints. destruct ((r_sl rg <=? r_el rg)%Z && (r_sl rg <? 0)%Z) eqn:Q.
    - apply andb_true_iff in Q as [Q1 Q2]. split; [intros _; lia|reflexivity].
    - apply andb_false_iff in Q. split; [discriminate|lia]. }
  assert (I' : forall rg, inlay_hints r rg <> OutOfFuel) by (intros rg; unfold inlay_hints; destruct (_ && _); discriminate).
  destruct q; try (cbn [answer_query no_place]; split; [split; [discriminate|intros []]|discriminate]).
  - cbn [answer_query no_place]. rewrite <- I. specialize (I' r0). destruct (inlay_hints r r0); cbn [bindr]; split; try congruence; split; try discriminate; auto.
  - destruct (P p eq_refl) as [H1 H2]. split; [|exact H2]. rewrite H1. cbn [no_place]. split.
    + intros [[_ H]|[H _]]; [exact H|discriminate H].
    + intros H. left. auto.
  - destruct (P p eq_refl) as [H1 H2]. split; [|exact H2]. rewrite H1. cbn [no_place]. split.
    + intros [[_ H]|[_ [_ H]]]; auto.
    + intros [H|H]; [left; auto|]. destruct (Z.lt_ge_cases (ps_line p) 0) as [N|N]; [left; auto|right; auto].
  - destruct (P p eq_refl) as [H1 H2]. split; [|exact H2]. rewrite H1. cbn [no_place]. split.
    + intros [[[H|H] _]|[H _]]; discriminate H.
    + intros [].
  - cbn [answer_query no_place]. unfold code_actions. rewrite <- I. specialize (I' r0). destruct (inlay_hints r r0); cbn [bindr]; split; try congruence; split; try discriminate; auto.
Qed.

(* over states *)
Inductive kills (en : lenv) (s : server) (c : call) : Prop :=
| KUnheralded : unheralded c -> kills en s c
| KChange u t chs : c = DidChange (Params (Some u, chs)) -> text_of u s = Some t -> In None chs -> kills en s c
| KIncomplete : s_shutdown s = false -> incomplete c -> kills en s c
| KDocument u t : s_shutdown s = false -> text_of u s = Some t -> analyses u c -> process (l_env en) t = Panic -> kills en s c
| KPlace u t r q : s_shutdown s = false -> text_of u s = Some t -> c = Query (Params (u, q)) ->
    process (l_env en) t = Ret r -> no_place r q -> kills en s c.

Lemma results_crash en u s : cached en s ->
  (results en u s = Panic <-> exists t, text_of u s = Some t /\ process (l_env en) t = Panic) /\ results en u s <> OutOfFuel.
Proof.
  intros C. pose proof (results_spec en u s C) as H. destruct (text_of u s) as [t|].
  - pose proof (process_ends (l_env en) t) as N. destruct (process (l_env en) t) as [r| |] eqn:P; [|split; [split|]|congruence].
    + destruct H as (s' & -> & _). split; [|discriminate]. split; [discriminate|]. intros (t' & E & Q). injection E as <-. congruence.
    + intros _. exists t. auto.
    + intros _. exact H.
    + rewrite H. discriminate.
  - rewrite H. split; [|discriminate]. split; [discriminate|intros (t & E & _); discriminate E].
Qed.

Lemma handle_crash en s id c : cached en s ->
  (handle en s (Call id c) = Panic <-> kills en s c) /\ handle en s (Call id c) <> OutOfFuel.
Proof.
  intros C.
  assert (Fine : forall x, (forall u t chs, c <> DidChange (Params (Some u, chs)) \/ text_of u s <> Some t \/ ~ In None chs) ->
     ~ unheralded c -> (s_shutdown s = true \/ ~ incomplete c) ->
     (s_shutdown s = true \/ forall u t, text_of u s = Some t -> analyses u c -> process (l_env en) t <> Panic) ->
     (s_shutdown s = true \/ forall u t r q, text_of u s = Some t -> c = Query (Params (u, q)) -> process (l_env en) t = Ret r -> ~ no_place r q) ->
     (@Ret (server * list output) x = Panic <-> kills en s c) /\ @Ret (server * list output) x <> OutOfFuel).
  { intros x A B D E F. split; [|discriminate]. split; [discriminate|]. intros K. exfalso.
    destruct K as [K|u t chs K1 K2 K3|K1 K2|u t K1 K2 K3 K4|u t r q K1 K2 K3 K4 K5].
    - exact (B K).
    - destruct (A u t chs) as [A1|[A1|A1]]; auto.
    - destruct D as [D|D]; [congruence|exact (D K2)].
    - destruct E as [E|E]; [congruence|exact (E _ _ K2 K3 K4)].
    - destruct F as [F|F]; [congruence|exact (F _ _ _ _ K2 K3 K4 K5)]. }
  assert (Dead : forall k : kills en s c, (@Panic (server * list output) = Panic <-> kills en s c) /\ @Panic (server * list output) <> OutOfFuel).
  { intros K. split; [split; auto|discriminate]. }
  (* a request that is answered from the analysis alone *)
  assert (Ask : forall (f : option (presult * server) -> res (server * list output)) u,
     (forall x, exists y, f x = Ret y) -> s_shutdown s = false -> analyses u c -> (forall v, analyses v c -> v = u) ->
     (forall v chs, c <> DidChange (Params (Some v, chs))) -> ~ unheralded c -> ~ incomplete c -> (forall v q, c <> Query (Params (v, q))) ->
     (bindr (results en u s) f = Panic <-> kills en s c) /\ bindr (results en u s) f <> OutOfFuel).
  { intros f u Ff D A1 A2 N1 N2 N3 N4. destruct (results_crash en u s C) as [R1 R2].
    destruct (results en u s) as [x| |] eqn:R; cbn [bindr]; [|split; [|discriminate]|congruence].
    - destruct (Ff x) as [y ->]. apply Fine; auto.
      + right. intros v t T Av P. rewrite (A2 v Av) in T. enough (@Ret (option (presult * server)) x = Panic) by discriminate. apply R1. eauto.
      + right. intros v t r q _ Q. exfalso. exact (N4 _ _ Q).
    - split; [intros _|reflexivity]. destruct (proj1 R1 eq_refl) as (t & T & P). exact (KDocument en s c u t D T A1 P). }
  Ltac fine Fine := apply Fine; [intros; left; discriminate|intros Q; exact Q|auto; right; intros Q; exact Q|
    auto; right; intros ? ? ? Q; destruct Q|auto; right; intros; discriminate].
  Ltac ask Ask := apply Ask; [intros [[? ?]|]; eexists; reflexivity|first [assumption|reflexivity]|reflexivity|intros ? Q; symmetry; exact Q|discriminate|
    intros Q; exact Q|intros Q; exact Q|discriminate].
  cbn [handle]. destruct c.
  - fine Fine.
  - fine Fine.
  - destruct p as [| |[[u t]|]].
    + fine Fine.
    + apply Dead. apply KUnheralded. exact I.
    + fine Fine.
    + apply Dead. apply KUnheralded. exact I.
  - destruct p as [| |[[u|] [|ch chs]]].
    + fine Fine.
    + apply Dead. apply KUnheralded. exact I.
    + apply Fine; cbn; auto; try (right; intros; auto; fail); try (right; discriminate).
      intros v t chs. destruct chs; [right; right; intros []|left; discriminate].
    + pose proof (change_crash u (ch :: chs) s) as Q. pose proof (change_ends u (ch :: chs) s) as Q2.
      destruct (change_doc u (ch :: chs) s) as [s1| |] eqn:E; cbn [bindr next]; [|split; [split; [intros _|reflexivity]|discriminate]|congruence].
      * apply Fine; cbn -[In]; auto; try (right; intros; auto; fail); try (right; discriminate).
        intros v t chs'. destruct (seqb u v) eqn:S.
        -- apply seqb_eq in S. subst v. destruct (text_of u s) as [t'|] eqn:T; [|right; left; discriminate].
           assert (Z : ~ In None (ch :: chs)).
           { intros Z. enough (@Ret server s1 = Panic) by discriminate. apply Q. split; [|exact Z].
             unfold text_of in T. destruct (get_doc u s); [discriminate|discriminate T]. }
           destruct (list_eq_dec (fun a b : option str => ltac:(decide equality; apply (list_eq_dec ascii_dec))) (ch :: chs) chs') as [<-|Ne]; [right; right; exact Z|].
           left. intros X. injection X as X. congruence.
        -- left. intros X. injection X as X _. subst v. rewrite (proj2 (seqb_eq u u) eq_refl) in S. discriminate.
      * destruct (proj1 Q eq_refl) as [G I]. destruct (get_doc u s) as [d|] eqn:Gd; [|congruence].
        apply (KChange en s _ u (d_text d) (ch :: chs)); [reflexivity| |exact I]. unfold text_of. rewrite Gd. reflexivity.
    + fine Fine.
    + apply Dead. apply KUnheralded. exact I.
  - fine Fine.
  - destruct (s_shutdown s) eqn:D; fine Fine.
  - destruct (s_shutdown s) eqn:D; fine Fine.
  - (* close *)
    destruct (s_shutdown s) eqn:D.
    { fine Fine. }
    destruct p as [| |[u|]]; try (apply Dead; apply KIncomplete; [exact D|exact I]);
      fine Fine.
  - (* command *)
    destruct (s_shutdown s) eqn:D.
    { fine Fine. }
    destruct p as [| |cm]; try (apply Dead; apply KIncomplete; [exact D|exact I]).
    + fine Fine.
    + assert (Quiet : forall x, (forall u, ~ analyses u (ExecuteCommand (Params cm))) ->
        (@Ret (server * list output) x = Panic <-> kills en s (ExecuteCommand (Params cm))) /\ @Ret (server * list output) x <> OutOfFuel).
      { intros x N. apply Fine; auto; try (right; discriminate); [intros; left; discriminate|]. right. intros u t _ A. exfalso. exact (N u A). }
      destruct cm as [a|a|a|a|a|w]; cbn [execute]; unfold one_arg; try (destruct a as [[|x [|y a]]|]; try (apply Quiet; intros u A; repeat match goal with p : (_ * _)%type |- _ => destruct p end; exact A)).
      * destruct x as [u v]. ask Ask.
      * destruct x as [[u rg] v]. destruct (get_doc u s); apply Quiet; intros z A; exact A.
      * destruct x as [u v]. destruct (get_doc u s); apply Quiet; intros z A; exact A.
      * destruct x as [u v]. ask Ask.
      * destruct x as [u v]. ask Ask.
      * apply Quiet; intros u A; exact A.
  - (* query *)
    destruct (s_shutdown s) eqn:D.
    { fine Fine. }
    destruct p as [| |[u q]]; try (apply Dead; apply KIncomplete; [exact D|exact I]).
    + fine Fine.
    + destruct (results_cases en u s C) as [[T R]|[(t & r & s' & T & P & R & Sm & C')|[(t & T & P & R)|(t & T & P & R)]]]; rewrite R; cbn [bindr].
      * apply Fine; auto; try (intros; left; discriminate).
        -- right. intros v t T' A. cbn in A. subst v. congruence.
        -- right. intros v t r q' T' A. injection A as -> ->. congruence.
      * pose proof (text_get u s) as G. rewrite T in G. destruct G as (d & -> & <-).
        destruct (query_crash en (s_config s) u (d_text d) r q P) as [Q1 Q2].
        destruct (answer_query en (s_config s) u (d_text d) r q) as [a| |]; cbn [bindr]; [|split; [split; [intros _|reflexivity]|discriminate]|congruence].
        -- apply Fine; auto; try (intros; left; discriminate).
           ++ right. intros v t T' A. cbn in A. subst v. congruence.
           ++ right. intros v t r' q' T' A P' N. injection A as <- <-. rewrite T in T'. injection T' as <-. rewrite P in P'. injection P' as <-.
              apply Q1 in N. discriminate N.
        -- exact (KPlace en s _ u _ r q D T eq_refl P (proj1 Q1 eq_refl)).
      * apply Dead. apply (KDocument en s _ u t D T); [reflexivity|exact P].
      * exfalso. exact (process_ends _ _ P).
  - destruct (s_shutdown s) eqn:D.
    { fine Fine. }
    destruct p as [| |[u|]]; try (apply Dead; apply KIncomplete; [exact D|exact I]).
    + fine Fine.
    + ask Ask.
  - destruct (s_shutdown s) eqn:D.
    { fine Fine. }
    destruct p as [| |[u|]]; try (apply Dead; apply KIncomplete; [exact D|exact I]).
    + fine Fine.
    + ask Ask.
  - destruct (s_shutdown s) eqn:D; [|destruct p as [| |[o|]]];
      fine Fine.
  - destruct (s_shutdown s) eqn:D;
      fine Fine.
Qed.

(* ------------------------------------------------------------------------------------------ *)
(* whole sessions *)
Lemma run_ends en es : forall s, cached en s -> run en s es <> OutOfFuel.
Proof.
  induction es as [|e es IH]; intros s C; cbn [run]; destruct (s_exit s); try discriminate.
  destruct e as [|m]; [exact (IH s C)|].
  destruct (handle en s m) as [[s1 o1]| |] eqn:H; cbn [bindr fst snd]; try discriminate.
  - pose proof (IH s1 (st_cached _ _ _ _ _ (step_of en s m s1 o1 C H))) as N. destruct (run en s1 es); try discriminate. congruence.
  - destruct m as [|id c]; [discriminate H|]. exfalso. exact (proj2 (handle_crash en s id c C) H).
Qed.

Lemma run_crash en es : forall s, cached en s -> s_exit s = false -> run en s es = Panic ->
  exists a id c b s' o, es = a ++ Message (Call id c) :: b /\ run en s a = Ret (s', o) /\ s_exit s' = false /\ kills en s' c.
Proof.
  induction es as [|e es IH]; intros s C X E; cbn [run] in E; rewrite X in E; [discriminate E|].
  destruct e as [|m].
  { destruct (IH s C X E) as (a & id & c & b & s' & o & -> & R & K). exists (Garbage :: a), id, c, b, s', o.
    split; [reflexivity|]. split; [cbn [run]; rewrite X; exact R|exact K]. }
  destruct (handle en s m) as [[s1 o1]| |] eqn:H; cbn [bindr fst snd] in E.
  - pose proof (step_of en s m s1 o1 C H) as S1. destruct (run en s1 es) as [[s2 o2]| |] eqn:R; try discriminate E.
    assert (X1 : s_exit s1 = false).
    { destruct (s_exit s1) eqn:Q; [|reflexivity]. rewrite (run_exited en s1 es Q) in R. discriminate R. }
    destruct (IH s1 (st_cached _ _ _ _ _ S1) X1 R) as (a & id & c & b & s' & o & -> & R' & K).
    exists (Message m :: a), id, c, b, s', (o1 ++ o). split; [reflexivity|]. split; [|exact K].
    cbn [run]. rewrite X, H. cbn [bindr fst snd]. rewrite R'. reflexivity.
  - destruct m as [|id c]; [discriminate H|]. exists [], id, c, es, s, []. split; [reflexivity|]. split; [cbn [run]; rewrite X; reflexivity|].
    split; [exact X|]. exact (proj1 (proj1 (handle_crash en s id c C)) H).
  - discriminate E.
Qed.

Lemma kills_deadly en a s o c : run en start a = Ret (s, o) -> s_exit s = false -> (kills en s c <-> deadly en a c).
Proof.
  intros R X. pose proof (run_inv en a start s o (cached_start en) eq_refl R) as (C & T & Ex & Sh & _).
  pose proof (run_texts en a start s o (cached_start en) eq_refl R X) as T'. cbn [s_shutdown start] in T'.
  rewrite X in Ex. symmetry in Ex. rewrite (before_exit_none a Ex) in Sh. cbn [start s_shutdown orb] in Sh.
  assert (H : forall u, text_of u s = held u a) by (intros u; rewrite T'; reflexivity).
  assert (L : s_shutdown s = false -> forall u, text_of u s = latest u a).
  { intros D u. rewrite H. unfold held. rewrite heeded_up; [reflexivity|congruence]. }
  split; intros [K|u t chs K1 K2 K3|K1 K2|u t K1 K2 K3 K4|u t r q K1 K2 K3 K4 K5].
  - exact (DUnheralded _ _ _ K).
  - rewrite H in K2. exact (DChange _ _ _ _ _ _ K1 K2 K3).
  - apply DIncomplete; [congruence|exact K2].
  - rewrite (L K1) in K2. apply (DDocument _ _ _ u t); auto. congruence.
  - rewrite (L K1) in K2. apply (DPlace _ _ _ u t r q); auto. congruence.
  - exact (KUnheralded _ _ _ K).
  - rewrite <- H in K2. exact (KChange _ _ _ _ _ _ K1 K2 K3).
  - apply KIncomplete; [congruence|exact K2].
  - rewrite <- Sh in K1. rewrite <- (L K1) in K2. apply (KDocument _ _ _ u t); auto.
  - rewrite <- Sh in K1. rewrite <- (L K1) in K2. apply (KPlace _ _ _ u t r q); auto.
Qed.

Lemma run_app_panic en a : forall s b, run en s a = Panic -> run en s (a ++ b) = Panic.
Proof.
  induction a as [|e a IH]; intros s b E; cbn [run app] in *; destruct (s_exit s); try discriminate E.
  destruct e as [|m]; [exact (IH s b E)|]. destruct (handle en s m) as [[s1 o1]| |]; try discriminate E; cbn [bindr fst snd] in *; [|reflexivity].
  destruct (run en s1 a) as [[s2 o2]| |] eqn:R; try discriminate E. rewrite (IH s1 b R). reflexivity.
Qed.

Lemma run_app_call en s0 a s o id c b : run en s0 a = Ret (s, o) -> s_exit s = false -> handle en s (Call id c) = Panic ->
  run en s0 (a ++ Message (Call id c) :: b) = Panic.
Proof.
  revert s0 o. induction a as [|e a IH]; intros s0 o E X H; cbn [run app] in *.
  - destruct (s_exit s0) eqn:X0; injection E as <- <-; [congruence|]. rewrite H. reflexivity.
  - destruct (s_exit s0) eqn:X0; [injection E as <- <-; congruence|].
    destruct e as [|m]; [exact (IH _ _ E X H)|]. destruct (handle en s0 m) as [[s1 o1]| |]; try discriminate E. cbn [bindr fst snd] in *.
    destruct (run en s1 a) as [[s2 o2]| |] eqn:R; try discriminate E. injection E as <- <-. rewrite (IH _ _ R X H). reflexivity.
Qed.

Theorem session_crash en es : run en start es = Panic <->
  exists a id c b, es = a ++ Message (Call id c) :: b /\ existsb asks_exit a = false /\ deadly en a c.
Proof.
  split.
  - intros E. destruct (run_crash en es start (cached_start en) eq_refl E) as (a & id & c & b & s & o & -> & R & X & K).
    exists a, id, c, b. split; [reflexivity|]. split.
    + pose proof (run_inv en a start s o (cached_start en) eq_refl R) as (_ & _ & Ex & _). congruence.
    + exact (proj1 (kills_deadly en a s o c R X) K).
  - intros (a & id & c & b & -> & Q & D). destruct (run en start a) as [[s o]| |] eqn:R.
    + pose proof (run_inv en a start s o (cached_start en) eq_refl R) as (C & _ & Ex & _). rewrite Q in Ex.
      apply (run_app_call en start a s o id c b R Ex). apply (proj1 (handle_crash en s id c C)).
      exact (proj2 (kills_deadly en a s o c R Ex) D).
    + exact (run_app_panic en a start _ R).
    + exfalso. exact (run_ends en a start (cached_start en) R).
Qed.

Theorem session_survives en es :
  (forall a id c b, es = a ++ Message (Call id c) :: b -> existsb asks_exit a = false -> ~ deadly en a c) ->
  exists s out, run en start es = Ret (s, out).
Proof.
  intros H. destruct (run en start es) as [[s o]| |] eqn:E; [eauto| |exfalso; exact (run_ends en es start (cached_start en) E)].
  exfalso. apply session_crash in E as (a & id & c & b & Q & X & D). exact (H a id c b Q X D).
Qed.

(* ------------------------------------------------------------------------------------------ *)
(* the text of a document is one that was sent *)
Definition sent_in (es : list event) (t : str) : Prop := exists id c, In (Message (Call id c)) es /\ In t (texts_in c).

Lemma last_sent chs : forall old, last_text chs old = old \/ In (Some (last_text chs old)) chs.
Proof.
  induction chs as [|ch chs IH]; intros old; [left; reflexivity|]. unfold last_text in *. cbn [fold_left].
  destruct ch as [t|]; [|destruct (IH old); [left|right; right]; assumption].
  destruct (IH t) as [H|H]; [right; left; rewrite H; reflexivity|right; right; exact H].
Qed.

Lemma latest_sent u es : forall o t, fold_left (hear u) es o = Some t -> o = Some t \/ sent_in es t.
Proof.
  induction es as [|e es IH]; intros o t H; [left; exact H|]. cbn [fold_left] in H. apply IH in H as [H|(id & c & I & T)].
  2: { right. exists id, c. split; [right; exact I|exact T]. }
  destruct e as [|[|id c]]; cbn [hear] in H; auto. destruct c; auto.
  - destruct p as [| |[[v t']|]]; auto. destruct (seqb v u); auto. injection H as <-.
    right. exists id, (DidOpen (Params (Some (v, t')))). split; [left; reflexivity|left; reflexivity].
  - destruct p as [| |[[v|] chs]]; auto. destruct (seqb v u); auto. destruct o as [old|]; [|discriminate H]. injection H as <-.
    destruct (last_sent chs old) as [Q|Q]; [left; rewrite Q; reflexivity|].
    right. exists id, (DidChange (Params (Some v, chs))). split; [left; reflexivity|]. cbn [texts_in]. apply in_flat_map. eexists. split; [exact Q|left; reflexivity].
  - destruct p as [| |[v|]]; auto. destruct (seqb v u); auto. discriminate H.
Qed.

Lemma token_at_in ch l : forall k t, token_at ch l = Some (k, t) -> In t l.
Proof.
  induction l as [|x l IH]; intros k t H; [discriminate|]. cbn in H. destruct (around ch x); [injection H as _ <-; left; reflexivity|].
  destruct (token_at ch l) as [[k' u]|]; [|discriminate]. injection H as _ <-. right. exact (IH _ _ eq_refl).
Qed.

Theorem orderly_survives en es :
  (forall id c, In (Message (Call id c)) es -> orderly en c) -> exists s out, run en start es = Ret (s, out).
Proof.
  intros H. apply session_survives. intros a id c b -> _ D.
  assert (O : orderly en c) by (apply (H id); apply in_or_app; right; left; reflexivity).
  assert (L : forall u t, latest u a = Some t -> exists r, process (l_env en) t = Ret r /\
     forall l x v, In l (r_lines r) -> In x l -> atoi (tok_v x) = Some v -> (0 <= v)%Z).
  { intros u t E. unfold latest in E. apply latest_sent in E as [E|(id' & c' & I & T)]; [discriminate|].
    destruct (H id' c') as (_ & _ & _ & Q & _); [apply in_or_app; left; exact I|]. exact (Q t T). }
  destruct O as (O1 & O2 & O3 & _ & O5).
  destruct D as [K|u t chs K1 K2 K3|K1 K2|u t K1 K2 K3 K4|u t r q K1 K2 K3 K4 K5].
  - exact (O1 K).
  - exact (O3 _ _ K1 K3).
  - exact (O2 K2).
  - destruct (L u t K2) as (r & P & _). congruence.
  - destruct (L u t K2) as (r' & P & N). rewrite K4 in P. injection P as <-. specialize (O5 _ _ K3).
    destruct q; cbn in K5; try contradiction; try lia.
    destruct K5 as [K5|(x & y & sp & v & (op & rest & args & k & A1 & A2 & _) & _ & A3 & A4)]; [lia|].
    unfold line_at_pos in A1. pose proof (N _ y v (nth_error_In _ _ A1) (token_at_in _ _ _ _ A2) A3). lia.
Qed.
