(* the document cache and the life of the server *)
From Verif Require Import Base LexSpec Lexer Codec CodecProofs Process Semantics Query Lsp LspSpec.
From Coq Require Import ZifyBool ZifyNat ZifyN.

(* ------------------------------------------------------------------------------------------ *)
(* the map of the documents *)
Lemma get_put uri u d s : get_doc uri (put_doc u d s) = if seqb u uri then Some d else get_doc uri s.
Proof.
  unfold get_doc, put_doc, set_docs. cbn [s_docs find fst].
  destruct (seqb u uri) eqn:E; [reflexivity|]. unfold remove_doc.
  induction (s_docs s) as [|[v x] r IH]; [reflexivity|]. cbn [filter fst find].
  destruct (seqb v u) eqn:V; cbn [negb].
  - apply seqb_eq in V. subst v. rewrite E. exact IH.
  - cbn [find fst]. destruct (seqb v uri); [reflexivity|exact IH].
Qed.
Lemma get_remove uri u s : get_doc uri (set_docs (remove_doc u (s_docs s)) s) = if seqb u uri then None else get_doc uri s.
Proof.
  unfold get_doc, set_docs. cbn [s_docs]. unfold remove_doc.
  induction (s_docs s) as [|[v x] r IH]; [cbn; destruct (seqb u uri); reflexivity|]. cbn [filter fst find].
  destruct (seqb v u) eqn:V; cbn [negb].
  - apply seqb_eq in V. subst v. destruct (seqb u uri); exact IH.
  - cbn [find fst]. destruct (seqb v uri) eqn:E; [|exact IH].
    apply seqb_eq in E. subst v. destruct (seqb u uri) eqn:U; [|reflexivity].
    apply seqb_eq in U. subst u. rewrite (proj2 (seqb_eq uri uri) eq_refl) in V. discriminate.
Qed.

Definition text_of (uri : str) (s : server) : option str := option_map d_text (get_doc uri s).
Definition cached (en : lenv) (s : server) : Prop :=
  forall uri d r, get_doc uri s = Some d -> d_res d = Some r -> process (l_env en) (d_text d) = Ret r.
Definition same (s s' : server) : Prop :=
  s_id s' = s_id s /\ s_config s' = s_config s /\ s_shutdown s' = s_shutdown s /\ s_exit s' = s_exit s /\
  s_code s' = s_code s /\ forall uri, text_of uri s' = text_of uri s.

Lemma same_refl s : same s s. Proof. repeat split. Qed.

Lemma cached_put en u t s : cached en s -> cached en (put_doc u (LDoc t None) s).
Proof.
  intros C uri d r. rewrite get_put. destruct (seqb u uri); [|apply C].
  intros E. injection E as <-. discriminate.
Qed.
Lemma text_put uri u d s : text_of uri (put_doc u d s) = if seqb u uri then Some (d_text d) else text_of uri s.
Proof. unfold text_of. rewrite get_put. destruct (seqb u uri); reflexivity. Qed.
Lemma cached_remove en u s : cached en s -> cached en (set_docs (remove_doc u (s_docs s)) s).
Proof. intros C uri d r. rewrite get_remove. destruct (seqb u uri); [discriminate|apply C]. Qed.
Lemma text_remove uri u s : text_of uri (set_docs (remove_doc u (s_docs s)) s) = if seqb u uri then None else text_of uri s.
Proof. unfold text_of. rewrite get_remove. destruct (seqb u uri); reflexivity. Qed.

(* prepare computes from the text *)
Lemma results_spec en uri s : cached en s ->
  match text_of uri s with
  | None => results en uri s = Ret None
  | Some t =>
      match process (l_env en) t with
      | Ret r => exists s', results en uri s = Ret (Some (r, s')) /\ same s s' /\ cached en s'
      | Panic => results en uri s = Panic
      | OutOfFuel => results en uri s = OutOfFuel
      end
  end.
Proof.
  intros C. unfold text_of, results. destruct (get_doc uri s) as [d|] eqn:G; [|reflexivity]. cbn [option_map].
  destruct (d_res d) as [r|] eqn:R.
  - rewrite (C _ _ _ G R). exists s. repeat split; auto.
  - destruct (process (l_env en) (d_text d)) as [r| |] eqn:P; cbn [bindr]; try reflexivity.
    eexists. split; [reflexivity|]. split.
    + repeat split. intros u. rewrite text_put. cbn [d_text]. destruct (seqb uri u) eqn:E; [|reflexivity].
      apply seqb_eq in E. subst u. unfold text_of. rewrite G. reflexivity.
    + intros u d' r'. rewrite get_put. destruct (seqb uri u); [|apply C].
      intros E1 E2. injection E1 as <-. cbn in *. injection E2 as <-. exact P.
Qed.

Lemma results_cases en uri s : cached en s ->
  (text_of uri s = None /\ results en uri s = Ret None) \/
  (exists t r s', text_of uri s = Some t /\ process (l_env en) t = Ret r /\
                  results en uri s = Ret (Some (r, s')) /\ same s s' /\ cached en s') \/
  (exists t, text_of uri s = Some t /\ process (l_env en) t = Panic /\ results en uri s = Panic) \/
  (exists t, text_of uri s = Some t /\ process (l_env en) t = OutOfFuel /\ results en uri s = OutOfFuel).
Proof.
  intros C. pose proof (results_spec en uri s C) as R.
  destruct (text_of uri s) as [t|] eqn:T; [|left; tauto].
  right. destruct (process (l_env en) t) as [r| |] eqn:P.
  - destruct R as [s' R]. left. exists t, r, s'. tauto.
  - right. left. exists t. tauto.
  - right. right. exists t. tauto.
Qed.

Lemma text_get uri s : match text_of uri s with Some t => exists d, get_doc uri s = Some d /\ d_text d = t | None => get_doc uri s = None end.
Proof. unfold text_of. destruct (get_doc uri s) as [d|]; [exists d; split; reflexivity|reflexivity]. Qed.

(* what is written about a document depends on its text, the settings and the counter *)
Lemma written_about en uri c id s1 s2 : cached en s1 -> cached en s2 ->
  s_id s1 = s_id s2 -> s_config s1 = s_config s2 -> s_shutdown s1 = false -> s_shutdown s2 = false ->
  text_of uri s1 = text_of uri s2 -> about uri c ->
  written (handle en s1 (Call id c)) = written (handle en s2 (Call id c)).
Proof.
  intros C1 C2 I F D1 D2 T A.
  assert (R : (results en uri s1 = Ret None /\ results en uri s2 = Ret None /\ get_doc uri s1 = None /\ get_doc uri s2 = None) \/
              (exists r s1' s2' d1 d2, results en uri s1 = Ret (Some (r, s1')) /\ results en uri s2 = Ret (Some (r, s2')) /\
                 same s1 s1' /\ same s2 s2' /\ get_doc uri s1 = Some d1 /\ get_doc uri s2 = Some d2 /\ d_text d1 = d_text d2) \/
              (results en uri s1 = results en uri s2 /\ (results en uri s2 = Panic \/ results en uri s2 = OutOfFuel) /\
               exists d1 d2, get_doc uri s1 = Some d1 /\ get_doc uri s2 = Some d2)).
  { pose proof (results_spec en uri s1 C1) as R1. pose proof (results_spec en uri s2 C2) as R2.
    pose proof (text_get uri s1) as G1. pose proof (text_get uri s2) as G2. rewrite <- T in R2, G2.
    destruct (text_of uri s1) as [t|]; [|left; tauto]. right.
    destruct G1 as [d1 [G1 E1]]. destruct G2 as [d2 [G2 E2]].
    destruct (process (l_env en) t) as [r| |].
    - left. destruct R1 as [s1' [R1 [S1 _]]]. destruct R2 as [s2' [R2 [S2 _]]].
      exists r, s1', s2', d1, d2. repeat (split; [assumption|]). congruence.
    - right. rewrite R1, R2. repeat split; [left; reflexivity|]. exists d1, d2. tauto.
    - right. rewrite R1, R2. repeat split; [right; reflexivity|]. exists d1, d2. tauto. }
  assert (Send : forall s s' us es, s_id s = s_id s' -> written (Ret (send_edit us es s)) = written (Ret (send_edit us es s'))).
  { intros s s' us es E. unfold written, send_edit. cbn [bindr snd]. rewrite E. reflexivity. }
  destruct c; try contradiction; cbn [handle]; rewrite D1, D2.
  - (* executeCommand *)
    destruct p as [| |c]; try contradiction. cbn [about] in A.
    destruct c; try contradiction;
      match goal with a : option (list _) |- _ => destruct a as [[|x [|y l]]|]; try contradiction; try (destruct x as [[? ?] ?]; contradiction); try (destruct x; contradiction) end.
    + destruct x as [u v]. subst u. cbn [execute one_arg].
      destruct R as [[R1 [R2 _]]|[[r [s1' [s2' [d1 [d2 [R1 [R2 [S1 [S2 _]]]]]]]]]|[R1 [[R2|R2] _]]]].
      * rewrite R1, R2. reflexivity.
      * rewrite R1, R2. cbn [bindr]. apply Send. destruct S1 as [S1 _], S2 as [S2 _]. congruence.
      * rewrite R1, R2. reflexivity.
      * rewrite R1, R2. reflexivity.
    + destruct x as [[u rg] v]. subst u. cbn [execute one_arg].
      destruct R as [[_ [_ [G1 G2]]]|[[r [s1' [s2' [d1 [d2 [_ [_ [_ [_ [G1 [G2 _]]]]]]]]]]]|[_ [_ [d1 [d2 [G1 G2]]]]]]];
        rewrite G1, G2; [reflexivity| |]; apply Send; exact I.
    + destruct x as [u v]. subst u. cbn [execute one_arg].
      destruct R as [[_ [_ [G1 G2]]]|[[r [s1' [s2' [d1 [d2 [_ [_ [_ [_ [G1 [G2 _]]]]]]]]]]]|[_ [_ [d1 [d2 [G1 G2]]]]]]];
        rewrite G1, G2; [reflexivity| |]; apply Send; exact I.
    + destruct x as [u v]. subst u. cbn [execute one_arg].
      destruct R as [[R1 [R2 _]]|[[r [s1' [s2' [d1 [d2 [R1 [R2 [S1 [S2 _]]]]]]]]]|[R1 [[R2|R2] _]]]].
      * rewrite R1, R2. reflexivity.
      * rewrite R1, R2. cbn [bindr]. apply Send. destruct S1 as [S1 _], S2 as [S2 _]. congruence.
      * rewrite R1, R2. reflexivity.
      * rewrite R1, R2. reflexivity.
    + destruct x as [u v]. subst u. cbn [execute one_arg].
      destruct R as [[R1 [R2 _]]|[[r [s1' [s2' [d1 [d2 [R1 [R2 [S1 [S2 _]]]]]]]]]|[R1 [[R2|R2] _]]]].
      * rewrite R1, R2. reflexivity.
      * rewrite R1, R2. cbn [bindr]. apply Send. destruct S1 as [S1 _], S2 as [S2 _]. congruence.
      * rewrite R1, R2. reflexivity.
      * rewrite R1, R2. reflexivity.
  - (* queries *)
    destruct p as [| |[u q]]; try contradiction. cbn [about] in A. subst u.
    destruct R as [[R1 [R2 _]]|[[r [s1' [s2' [d1 [d2 [R1 [R2 [S1 [S2 [G1 [G2 E]]]]]]]]]]]|[R1 [[R2|R2] _]]]].
    + rewrite R1, R2. reflexivity.
    + rewrite R1, R2, G1, G2. cbn [bindr]. rewrite E, F.
      destruct (answer_query en (s_config s2) uri (d_text d2) r q); reflexivity.
    + rewrite R1, R2. reflexivity.
    + rewrite R1, R2. reflexivity.
  - destruct p as [| |[u|]]; try contradiction. cbn [about] in A. subst u.
    destruct R as [[R1 [R2 _]]|[[r [s1' [s2' [d1 [d2 [R1 [R2 _]]]]]]]|[R1 [[R2|R2] _]]]]; rewrite R1, R2; reflexivity.
  - destruct p as [| |[u|]]; try contradiction. cbn [about] in A. subst u.
    destruct R as [[R1 [R2 _]]|[[r [s1' [s2' [d1 [d2 [R1 [R2 _]]]]]]]|[R1 [[R2|R2] _]]]]; rewrite R1, R2; reflexivity.
Qed.

(* ------------------------------------------------------------------------------------------ *)
(* one message *)
Lemma change_spec en uri chs : forall s s', cached en s -> change_doc uri chs s = Ret s' ->
  cached en s' /\ s_shutdown s' = s_shutdown s /\ s_exit s' = s_exit s /\ s_id s' = s_id s /\ s_config s' = s_config s /\
  s_code s' = s_code s /\
  forall u, text_of u s' = if seqb uri u then match text_of u s with Some old => Some (last_text chs old) | None => None end else text_of u s.
Proof.
  induction chs as [|ch r IH]; intros s s' C E; cbn [change_doc] in E.
  - injection E as <-. repeat (split; [auto|]). intros u. cbn. destruct (seqb uri u), (text_of u s); reflexivity.
  - pose proof (text_get uri s) as TG. destruct (get_doc uri s) as [d|] eqn:G.
    + destruct ch as [t|]; [|discriminate].
      destruct (IH _ _ (cached_put en uri t s C) E) as [A [B [B2 [B3 [B4 [B5 H]]]]]]. repeat (split; [assumption|]).
      intros u. rewrite H, text_put. cbn [d_text]. destruct (seqb uri u) eqn:U; [|reflexivity].
      apply seqb_eq in U. subst u. unfold text_of. rewrite G. reflexivity.
    + injection E as <-. repeat (split; [auto|]). intros u. destruct (seqb uri u) eqn:U; [|reflexivity].
      apply seqb_eq in U. subst u. unfold text_of. rewrite G. reflexivity.
Qed.

(* what a message may change *)
Record step (en : lenv) (s s' : server) (m : message) (out : list output) : Prop := {
  st_cached : cached en s';
  st_text : s_shutdown s = false -> forall uri, text_of uri s' = hear uri (text_of uri s) (Message m);
  st_shut : s_shutdown s' = s_shutdown s || asks_shutdown (Message m);
  st_exit : s_exit s' = s_exit s || asks_exit (Message m);
  st_code : s_code s' = if asks_exit (Message m) && negb (s_shutdown s) then 1 else s_code s;
  st_ids : s_id s' = s_id s + length (request_ids out) /\
           request_ids out = map (fun i => dec (N.of_nat i)) (seq (S (s_id s)) (length (request_ids out)));
  st_reply : match m with Call id _ => forallb (fun o => negb (is_response o) || answers id o) out = true | Response => out = [] end;
  st_one : length out <= 1;
  st_dead : s_shutdown s = true -> out = [] /\ s_config s' = s_config s
}.

Lemma step_same en s s' m out : cached en s' -> same s s' ->
  (forall uri t, hear uri t (Message m) = t) -> asks_shutdown (Message m) = false -> asks_exit (Message m) = false ->
  request_ids out = [] -> length out <= 1 ->
  match m with Call id _ => forallb (fun o => negb (is_response o) || answers id o) out = true | Response => out = [] end ->
  (s_shutdown s = true -> out = []) -> step en s s' m out.
Proof.
  intros C [A1 [A2 [A3 [A4 [A5 A6]]]]] H N X R L M D. constructor; auto.
  - intros _ uri. rewrite H. apply A6.
  - rewrite N, orb_false_r. exact A3.
  - rewrite X, orb_false_r. exact A4.
  - rewrite X. exact A5.
  - rewrite R. cbn. split; [lia|reflexivity].
Qed.

Lemma answers_refl id a : answers id (Reply id a) = true.
Proof. destruct id; cbn; [reflexivity|apply Z.eqb_refl|apply seqb_eq; reflexivity]. Qed.
Lemma answers_fail id a : answers id (Fail id a) = true.
Proof. destruct id; cbn; [reflexivity|apply Z.eqb_refl|apply seqb_eq; reflexivity]. Qed.

Lemma step_send en s s0 id c uri es : same s s0 -> cached en s0 -> s_shutdown s = false ->
  step en s (fst (send_edit uri es s0)) (Call id (ExecuteCommand c)) (snd (send_edit uri es s0)).
Proof.
  intros [A1 [A2 [A3 [A4 [A5 A6]]]]] C D. unfold send_edit. cbn [fst snd]. constructor.
  - exact C.
  - intros _ u. apply A6.
  - cbn. rewrite orb_false_r. exact A3.
  - cbn. rewrite orb_false_r. exact A4.
  - exact A5.
  - cbn [request_ids flat_map app length map seq s_id]. rewrite A1. split; [lia|reflexivity].
  - reflexivity.
  - cbn. lia.
  - rewrite D. discriminate.
Qed.

Lemma step_of en s m s' out : cached en s -> handle en s m = Ret (s', out) -> step en s s' m out.
Proof.
  intros C E. pose proof (same_refl s) as SR.
  assert (Stay : forall id c, (forall uri t, hear uri t (Message (Call id c)) = t) ->
            asks_shutdown (Message (Call id c)) = false -> asks_exit (Message (Call id c)) = false ->
            Ret (s, []) = Ret (s', out) -> step en s s' (Call id c) out).
  { intros id c H1 H2 H3 H4. injection H4 as <- <-. apply step_same; auto. }
  assert (Ans : forall id c s0 a, (forall uri t, hear uri t (Message (Call id c)) = t) ->
            asks_shutdown (Message (Call id c)) = false -> asks_exit (Message (Call id c)) = false -> s_shutdown s = false ->
            same s s0 -> cached en s0 -> Ret (s0, [Reply id a]) = Ret (s', out) -> step en s s' (Call id c) out).
  { intros id c s0 a H1 H2 H3 H4 H5 H6 H7. injection H7 as <- <-. apply step_same; auto.
    - cbn [forallb]. rewrite answers_refl. reflexivity.
    - congruence. }
  destruct m as [|id c]; cbn [handle] in E.
  { injection E as <- <-. apply step_same; auto. }
  destruct c.
  - apply Stay; auto.
  - injection E as <- <-. constructor; cbn -[answers]; auto.
    + rewrite orb_false_r. reflexivity.
    + rewrite orb_true_r. reflexivity.
    + destruct (s_shutdown s); reflexivity.
  - destruct p as [| |[[uri t]|]]; try discriminate; [apply Stay; auto|].
    injection E as <- <-. constructor; cbn -[answers]; auto; try (rewrite orb_false_r; reflexivity).
    + apply cached_put. exact C.
    + intros _ u. rewrite text_put. destruct (seqb uri u); reflexivity.
  - destruct p as [| |[u chs]]; try discriminate; [apply Stay; auto|].
    assert (X : exists uri, u = Some uri /\ change_doc uri chs s = Ret s' /\ out = [] \/ chs = [] /\ s' = s /\ out = []).
    { destruct u as [uri|].
      - exists uri. left. destruct chs; [injection E as <- <-; auto|].
        destruct (change_doc uri (o :: chs) s); try discriminate. cbn in E. injection E as <- <-. auto.
      - exists []. right. destruct chs; [injection E as <- <-; auto|discriminate]. }
    clear E. destruct X as [uri [[-> [E ->]]|[-> [-> ->]]]].
    + destruct (change_spec en uri chs s s' C E) as [A [B [B2 [B3 [B4 [B5 H]]]]]].
      constructor; cbn; auto; try (rewrite orb_false_r; assumption). split; [lia|reflexivity].
    + apply step_same; auto. intros w t. cbn. destruct u as [u|]; [|reflexivity].
      destruct (seqb u w), t; reflexivity.
  - apply Stay; auto. 
  - destruct (s_shutdown s) eqn:D.
    + injection E as <- <-. constructor; cbn -[answers]; auto; rewrite ?D; auto; try (rewrite orb_false_r; reflexivity).
    + injection E as <- <-. constructor; cbn -[answers]; auto; rewrite ?D; try discriminate; rewrite ?orb_false_r, ?answers_refl; reflexivity.
  - destruct (s_shutdown s); apply Stay; auto.
  - destruct (s_shutdown s) eqn:D.
    + injection E as <- <-. constructor; cbn -[answers]; auto; rewrite ?D; auto; try (rewrite orb_false_r; reflexivity); try discriminate.
    + destruct p as [| |[u|]]; try discriminate; [apply Stay; auto|].
      injection E as <- <-. constructor; cbn -[answers]; auto; rewrite ?D; auto; try (rewrite orb_false_r; reflexivity); try discriminate.
      * apply cached_remove. exact C.
      * intros _ w. rewrite text_remove. destruct (seqb u w); reflexivity.
  - destruct (s_shutdown s) eqn:D; [apply Stay; auto|].
    destruct p as [| |c]; try discriminate; [apply Stay; auto|].
    assert (Rs : forall uri, (exists X, results en uri s = X /\ (X = Ret None \/ X = Panic \/ X = OutOfFuel)) \/
                   exists r s0, results en uri s = Ret (Some (r, s0)) /\ same s s0 /\ cached en s0).
    { intros uri. destruct (results_cases en uri s C) as [[_ R]|[[t [r [s0 [_ [_ R]]]]]|[[t [_ [_ R]]]|[t [_ [_ R]]]]]];
        [left; eexists; split; [exact R|auto]|right; exists r, s0; exact R|left; eexists; split; [exact R|auto]|left; eexists; split; [exact R|auto]]. }
    destruct c.
    + cbn [execute] in E. destruct (one_arg a) as [[u v]|]; [|apply Stay; auto].
      destruct (Rs u) as [[X [R [-> |[-> | ->]]]]|[r [s0 [R [S1 S2]]]]]; rewrite R in E; cbn [bindr] in E; try discriminate; [apply Stay; auto|].
      injection E as <- <-. apply (step_send en s s0); assumption.
    + cbn [execute] in E. destruct (one_arg a) as [[[u rg] v]|]; [|apply Stay; auto].
      destruct (get_doc u s); [|apply Stay; auto]. injection E as <- <-. apply (step_send en s s); assumption.
    + cbn [execute] in E. destruct (one_arg a) as [[u v]|]; [|apply Stay; auto].
      destruct (get_doc u s); [|apply Stay; auto]. injection E as <- <-. apply (step_send en s s); assumption.
    + cbn [execute] in E. destruct (one_arg a) as [[u v]|]; [|apply Stay; auto].
      destruct (Rs u) as [[X [R [-> |[-> | ->]]]]|[r [s0 [R [S1 S2]]]]]; rewrite R in E; cbn [bindr] in E; try discriminate; [apply Stay; auto|].
      injection E as <- <-. apply (step_send en s s0); assumption.
    + cbn [execute] in E. destruct (one_arg a) as [[u v]|]; [|apply Stay; auto].
      destruct (Rs u) as [[X [R [-> |[-> | ->]]]]|[r [s0 [R [S1 S2]]]]]; rewrite R in E; cbn [bindr] in E; try discriminate; [apply Stay; auto|].
      injection E as <- <-. apply (step_send en s s0); assumption.
    + injection E as <- <-. apply step_same; auto.
      * cbn [forallb]. rewrite answers_fail. reflexivity.
      * congruence.
  - destruct (s_shutdown s) eqn:D; [apply Stay; auto|].
    destruct p as [| |[u q]]; try discriminate; [apply Stay; auto|].
    destruct (results_cases en u s C) as [[_ R]|[[t [r [s0 [_ [_ [R [S1 S2]]]]]]]|[[t [_ [_ R]]]|[t [_ [_ R]]]]]];
      rewrite R in E; cbn [bindr] in E; try discriminate; [apply Stay; auto|].
    destruct (get_doc u s) as [d|]; [|apply Stay; auto].
    destruct (answer_query en (s_config s) u (d_text d) r q) as [a| |]; try discriminate. cbn [bindr] in E.
    eapply Ans; eauto.
  - destruct (s_shutdown s) eqn:D; [apply Stay; auto|].
    destruct p as [| |[u|]]; try discriminate; [apply Stay; auto|].
    destruct (results_cases en u s C) as [[_ R]|[[t [r [s0 [_ [_ [R [S1 S2]]]]]]]|[[t [_ [_ R]]]|[t [_ [_ R]]]]]];
      rewrite R in E; cbn [bindr] in E; try discriminate; [apply Stay; auto|]. eapply Ans; eauto.
  - destruct (s_shutdown s) eqn:D; [apply Stay; auto|].
    destruct p as [| |[u|]]; try discriminate; [apply Stay; auto|].
    destruct (results_cases en u s C) as [[_ R]|[[t [r [s0 [_ [_ [R [S1 S2]]]]]]]|[[t [_ [_ R]]]|[t [_ [_ R]]]]]];
      rewrite R in E; cbn [bindr] in E; try discriminate; eapply Ans; eauto.
  - destruct (s_shutdown s) eqn:D; [apply Stay; auto|].
    destruct p as [| |[o|]]; [apply Stay; auto|eapply Ans; eauto| |eapply Ans; eauto].
    injection E as <- <-. constructor; cbn -[answers]; auto; rewrite ?D; auto; try (rewrite orb_false_r; reflexivity); try discriminate.
    rewrite answers_refl. reflexivity.
  - destruct (s_shutdown s); apply Stay; auto.
Qed.

(* ------------------------------------------------------------------------------------------ *)
(* sessions *)
Lemma run_exited en s es : s_exit s = true -> run en s es = Ret (s, []).
Proof. intros E. destruct es; cbn; rewrite E; reflexivity. Qed.

Lemma request_ids_app a b : request_ids (a ++ b) = request_ids a ++ request_ids b.
Proof. unfold request_ids. apply flat_map_app. Qed.

Lemma run_inv en es : forall s s' out, cached en s -> s_exit s = false -> run en s es = Ret (s', out) ->
  cached en s' /\
  (s_shutdown s' = false -> s_exit s' = false -> forall uri, text_of uri s' = fold_left (hear uri) es (text_of uri s)) /\
  s_exit s' = existsb asks_exit es /\
  s_shutdown s' = s_shutdown s || existsb asks_shutdown (before_exit es) /\
  s_code s' = (if existsb asks_exit es && negb (s_shutdown s || existsb asks_shutdown (before_exit es)) then 1 else s_code s) /\
  s_id s' = s_id s + length (request_ids out) /\
  request_ids out = map (fun i => dec (N.of_nat i)) (seq (S (s_id s)) (length (request_ids out))) /\
  (s_shutdown s = true -> out = []).
Proof.
  induction es as [|e es IH]; intros s s' out C X E; cbn [run] in E; rewrite X in E.
  { injection E as <- <-. cbn. rewrite orb_false_r. repeat split; auto. }
  destruct e as [|m].
  { destruct (IH _ _ _ C X E) as [A1 [A2 [A3 [A4 [A5 [A6 [A7 A8]]]]]]]. repeat (split; [assumption|]). exact A8. }
  destruct (handle en s m) as [[s1 o1]| |] eqn:H; try discriminate. cbn [bindr fst snd] in E.
  destruct (run en s1 es) as [[s2 o2]| |] eqn:R; try discriminate. cbn [bindr fst snd] in E.
  injection E as <- <-. pose proof (step_of en s m s1 o1 C H) as S1.
  pose proof (st_cached _ _ _ _ _ S1) as B1. pose proof (st_text _ _ _ _ _ S1) as B2.
  pose proof (st_shut _ _ _ _ _ S1) as B3. pose proof (st_exit _ _ _ _ _ S1) as B4.
  pose proof (st_code _ _ _ _ _ S1) as B5. pose proof (st_ids _ _ _ _ _ S1) as [B6 B7].
  pose proof (st_dead _ _ _ _ _ S1) as B8. rewrite X, orb_false_l in B4.
  cbn [existsb before_exit].
  destruct (asks_exit (Message m)) eqn:Q.
  - rewrite (run_exited en s1 es B4) in R. injection R as <- <-. rewrite app_nil_r.
    assert (N : asks_shutdown (Message m) = false).
    { destruct m as [|id c]; [reflexivity|]. destruct c; try reflexivity. discriminate Q. }
    rewrite N, orb_false_r in B3. cbn [orb existsb]. rewrite orb_false_r.
    split; [exact B1|]. split; [congruence|]. split; [exact B4|]. split; [exact B3|].
    split; [rewrite B5; reflexivity|]. split; [exact B6|]. split; [exact B7|]. intros D. apply B8. exact D.
  - cbn [orb existsb]. destruct (IH _ _ _ B1 B4 R) as [A1 [A2 [A3 [A4 [A5 [A6 [A7 A8]]]]]]].
    split; [exact A1|]. split.
    { intros D2 X2 uri. assert (D1 : s_shutdown s1 = false).
      { rewrite A4 in D2. apply orb_false_iff in D2. tauto. }
      assert (D : s_shutdown s = false). { rewrite B3 in D1. apply orb_false_iff in D1. tauto. }
      rewrite (A2 D2 X2). cbn [fold_left]. rewrite (B2 D). reflexivity. }
    split; [exact A3|]. split; [rewrite A4, B3, orb_assoc; reflexivity|].
    split; [rewrite A5, B5, B3, orb_assoc; destruct (existsb asks_exit es); reflexivity|].
    rewrite request_ids_app, app_length. split; [lia|]. split.
    { rewrite seq_app, map_app. replace (S (s_id s) + length (request_ids o1)) with (S (s_id s1)) by lia.
      rewrite <- A7, <- B7. reflexivity. }
    intros D. destruct (B8 D) as [-> _]. rewrite A8; [reflexivity|]. rewrite B3, D. reflexivity.
Qed.

Lemma cached_start en : cached en start.
Proof. intros uri d r E. discriminate E. Qed.

(* C39 *)
Theorem answers_latest en es s out uri id c :
  run en start es = Ret (s, out) -> s_exit s = false -> s_shutdown s = false -> about uri c ->
  written (handle en s (Call id c)) = written (handle en (just_opened s uri (latest uri es)) (Call id c)).
Proof.
  intros R X D A. destruct (run_inv en es start s out (cached_start en) eq_refl R) as [C [T _]].
  specialize (T D X uri). change (text_of uri start) with (@None str) in T.
  apply (written_about en uri); auto.
  - intros u d r. unfold just_opened, get_doc. cbn [s_docs]. destruct (latest uri es) as [t|]; cbn; [|discriminate].
    destruct (seqb uri u); [|discriminate]. intros E1 E2. injection E1 as <-. discriminate E2.
  - rewrite T. unfold latest. destruct (fold_left (hear uri) es None) as [t|]; [|reflexivity].
    unfold just_opened, text_of, get_doc. cbn. rewrite (proj2 (seqb_eq uri uri) eq_refl). reflexivity.
Qed.

(* what is answered about a text *)
Theorem query_answer en es s out uri id q :
  run en start es = Ret (s, out) -> s_exit s = false -> s_shutdown s = false ->
  written (handle en s (Call id (Query (Params (uri, q))))) =
  match latest uri es with
  | None => Ret []
  | Some t =>
      letr r := process (l_env en) t in
      letr a := answer_query en (s_config s) uri t r q in
      Ret [Reply id a]
  end.
Proof.
  intros R X D. rewrite (answers_latest en es s out uri id (Query (Params (uri, q))) R X D eq_refl).
  unfold just_opened. cbn [handle s_shutdown s_config]. unfold results, get_doc.
  destruct (latest uri es) as [t|]; cbn [s_docs find fst]; [|reflexivity].
  rewrite (proj2 (seqb_eq uri uri) eq_refl). cbn [d_res d_text].
  destruct (process (l_env en) t) as [r| |]; cbn [bindr]; try reflexivity.
  destruct (answer_query en (s_config s) uri t r q); reflexivity.
Qed.

Lemma silent_unopened en es s out uri id c :
  run en start es = Ret (s, out) -> s_exit s = false -> s_shutdown s = false -> about uri c ->
  latest uri es = None -> (forall p, c <> Diagnostic p) ->
  written (handle en s (Call id c)) = Ret [].
Proof.
  intros R X D A L N. rewrite (answers_latest en es s out uri id _ R X D A), L.
  destruct c; try contradiction; cbn [handle just_opened s_shutdown].
  - destruct p as [| |c]; try contradiction. cbn [about] in A.
    destruct c; try contradiction; destruct a as [[|x [|y l]]|]; try contradiction; try (destruct x as [[? ?] ?]; contradiction); try (destruct x; contradiction);
      cbn [execute one_arg]; try (destruct x as [u v]; reflexivity). destruct x as [[u rg] v]. reflexivity.
  - destruct p as [| |[u q]]; try contradiction. reflexivity.
  - destruct p as [| |[u|]]; try contradiction. reflexivity.
  - exfalso; exact (N p eq_refl).
Qed.

(* ------------------------------------------------------------------------------------------ *)
(* C40 *)
Theorem life_cycle en es s out : run en start es = Ret (s, out) ->
  s_exit s = existsb asks_exit es /\
  (existsb asks_exit es = true ->
     s_code s = if existsb asks_shutdown (before_exit es) then 0 else 1) /\
  (existsb asks_exit es = false -> s_code s = 0).
Proof.
  intros R. destruct (run_inv en es start s out (cached_start en) eq_refl R) as [_ [_ [A [_ [B _]]]]].
  split; [exact A|]. cbn in B. split; intros E; rewrite E in B; cbn in B.
  - rewrite B. destruct (existsb asks_shutdown (before_exit es)); reflexivity.
  - exact B.
Qed.

Theorem dead_requests en s id c : s_shutdown s = true ->
  (match c with Initialized | Exit | DidOpen _ | DidChange _ | DidSave _ => False | _ => True end) ->
  handle en s (Call id c) = Ret (s, []).
Proof. intros D H. destruct c; try contradiction; cbn [handle]; rewrite D; reflexivity. Qed.

Lemma run_app en a : forall s s1 o1 b, s_exit s1 = false -> run en s a = Ret (s1, o1) ->
  run en s (a ++ b) = letr y := run en s1 b in Ret (fst y, o1 ++ snd y).
Proof.
  induction a as [|e a IH]; intros s s1 o1 b X R; cbn [run app] in *.
  - assert (E : Ret (s, []) = Ret (s1, o1)) by (destruct (s_exit s); exact R). injection E as <- <-.
    destruct (run en s b) as [[s' o']| |]; reflexivity.
  - destruct (s_exit s) eqn:Y; [injection R as <- <-; congruence|].
    destruct e as [|m]; [apply IH; assumption|].
    destruct (handle en s m) as [[s2 o2]| |]; try discriminate. cbn [bindr fst snd] in *.
    destruct (run en s2 a) as [[s3 o3]| |] eqn:R2; try discriminate. cbn [bindr fst snd] in R. injection R as <- <-.
    rewrite (IH _ _ _ b X R2). destruct (run en s3 b) as [[s4 o4]| |]; try reflexivity. cbn [bindr fst snd].
    rewrite app_assoc. reflexivity.
Qed.

Lemma run_app_exit en a : forall s s1 o1 b, s_exit s1 = true -> run en s a = Ret (s1, o1) -> run en s (a ++ b) = Ret (s1, o1).
Proof.
  induction a as [|e a IH]; intros s s1 o1 b X R; cbn [run app] in *.
  - assert (E : Ret (s, []) = Ret (s1, o1)) by (destruct (s_exit s); exact R). injection E as <- <-.
    apply run_exited. exact X.
  - destruct (s_exit s); [exact R|]. destruct e as [|m]; [apply IH; assumption|].
    destruct (handle en s m) as [[s2 o2]| |]; try discriminate. cbn [bindr fst snd] in *.
    destruct (run en s2 a) as [[s3 o3]| |] eqn:R2; try discriminate. cbn [bindr fst snd] in R. injection R as -> <-.
    rewrite (IH _ _ _ b X R2). reflexivity.
Qed.

Lemma run_prefix en a : forall s x b, run en s (a ++ b) = Ret x -> exists y, run en s a = Ret y.
Proof.
  induction a as [|e a IH]; intros s x b R; cbn [run app] in *.
  - destruct (s_exit s); eexists; reflexivity.
  - destruct (s_exit s); [eexists; reflexivity|]. destruct e as [|m]; [eapply IH; exact R|].
    destruct (handle en s m) as [[s2 o2]| |]; try discriminate. cbn [bindr fst snd] in *.
    destruct (run en s2 (a ++ b)) as [z| |] eqn:R2; try discriminate.
    destruct (IH _ _ _ R2) as [y ->]. eexists. reflexivity.
Qed.

Theorem silent_after_shutdown en a b s out : run en start (a ++ b) = Ret (s, out) ->
  existsb asks_shutdown (before_exit a) = true -> exists s1, run en start a = Ret (s1, out).
Proof.
  intros R H. destruct (run_prefix en a _ _ _ R) as [[s1 o1] A].
  destruct (run_inv en a start s1 o1 (cached_start en) eq_refl A) as [C [_ [X [D _]]]]. rewrite H in D. cbn in D.
  destruct (s_exit s1) eqn:Y.
  - rewrite (run_app_exit en a _ _ _ b Y A) in R. injection R as <- <-. exists s1. exact A.
  - rewrite (run_app en a start s1 o1 b Y A) in R.
    destruct (run en s1 b) as [[s2 o2]| |] eqn:B; try discriminate. cbn [bindr fst snd] in R. injection R as <- <-.
    destruct (run_inv en b s1 s2 o2 C Y B) as [_ [_ [_ [_ [_ [_ [_ E]]]]]]]. rewrite (E D), app_nil_r. exists s1. exact A.
Qed.

(* ------------------------------------------------------------------------------------------ *)
(* C41 *)
Lemma reachable_cached en es s out : run en start es = Ret (s, out) -> cached en s.
Proof. intros R. exact (proj1 (run_inv en es start s out (cached_start en) eq_refl R)). Qed.

Theorem at_most_one en es s out id c s' o : run en start es = Ret (s, out) ->
  handle en s (Call id c) = Ret (s', o) ->
  length (filter is_response o) <= 1 /\ forall x, In x o -> is_response x = true -> answers id x = true.
Proof.
  intros R H. pose proof (step_of en s _ s' o (reachable_cached en es s out R) H) as S1.
  pose proof (st_one _ _ _ _ _ S1) as L. pose proof (st_reply _ _ _ _ _ S1) as F. cbn in F. split.
  - destruct o as [|x [|y r]]; cbn in *; [lia|destruct (is_response x); cbn; lia|lia].
  - intros x I E. rewrite forallb_forall in F. specialize (F x I). rewrite E in F. exact F.
Qed.

Theorem no_answer_to_notification en s id c s' o : notification c -> handle en s (Call id c) = Ret (s', o) -> o = [].
Proof.
  intros N H. destruct c; try contradiction; cbn [handle] in H.
  - injection H as _ <-. reflexivity.
  - injection H as _ <-. reflexivity.
  - destruct p as [| |[[u t]|]]; try discriminate; injection H as _ <-; reflexivity.
  - destruct p as [| |[[u|] [|ch r]]]; try discriminate; try (injection H as _ <-; reflexivity).
    destruct (change_doc u (ch :: r) s); try discriminate. injection H as _ <-. reflexivity.
  - injection H as _ <-. reflexivity.
  - destruct (s_shutdown s); injection H as _ <-; reflexivity.
  - destruct (s_shutdown s); [injection H as _ <-; reflexivity|].
    destruct p as [| |[u|]]; try discriminate; injection H as _ <-; reflexivity.
Qed.

Theorem served_answered en es s out id c s' o : run en start es = Ret (s, out) -> s_exit s = false -> s_shutdown s = false ->
  served (fun u => latest u es <> None) c -> handle en s (Call id c) = Ret (s', o) ->
  exists x, o = [x] /\ answers id x = true.
Proof.
  intros R X D V H. pose proof (run_inv en es start s out (cached_start en) eq_refl R) as [C [T _]].
  destruct c; try contradiction; cbn [handle] in H; rewrite D in H.
  - injection H as _ <-. eexists. split; [reflexivity|apply answers_refl].
  - destruct p as [| |c]; try contradiction. destruct c; try contradiction. cbn in H. injection H as _ <-.
    eexists. split; [reflexivity|apply answers_fail].
  - destruct p as [| |[u q]]; try contradiction. cbn [served] in V.
    specialize (T D X u). change (text_of u start) with (@None str) in T. fold (latest u es) in T.
    pose proof (results_cases en u s C) as RC. pose proof (text_get u s) as TG. rewrite T in RC, TG.
    destruct (latest u es) as [t|]; [|congruence]. destruct TG as [d [G _]].
    destruct RC as [[E _]|[[t' [r [s0 [_ [_ [E _]]]]]]|[[t' [_ [_ E]]]|[t' [_ [_ E]]]]]]; [discriminate| | |];
      rewrite E in H; cbn [bindr] in H; try discriminate. rewrite G in H.
    destruct (answer_query en (s_config s) u (d_text d) r q); try discriminate. cbn in H. injection H as _ <-.
    eexists. split; [reflexivity|apply answers_refl].
  - destruct p as [| |[u|]]; try contradiction. cbn [served] in V.
    specialize (T D X u). change (text_of u start) with (@None str) in T. fold (latest u es) in T.
    pose proof (results_cases en u s C) as RC. rewrite T in RC.
    destruct (latest u es) as [t|]; [|congruence].
    destruct RC as [[E _]|[[t' [r [s0 [_ [_ [E _]]]]]]|[[t' [_ [_ E]]]|[t' [_ [_ E]]]]]]; [discriminate| | |];
      rewrite E in H; cbn [bindr] in H; try discriminate. injection H as _ <-.
    eexists. split; [reflexivity|apply answers_refl].
  - destruct p as [| |[u|]]; try contradiction.
    destruct (results_cases en u s C) as [[_ E]|[[t' [r [s0 [_ [_ [E _]]]]]]|[[t' [_ [_ E]]]|[t' [_ [_ E]]]]]];
      rewrite E in H; cbn [bindr] in H; try discriminate; injection H as _ <-;
      eexists; (split; [reflexivity|apply answers_refl]).
  - destruct p as [| |[o'|]]; [contradiction V; reflexivity| | |]; injection H as _ <-;
      eexists; (split; [reflexivity|apply answers_refl]).
Qed.

(* ------------------------------------------------------------------------------------------ *)
(* C42 *)
Lemma dec_injective a b : dec a = dec b -> a = b.
Proof.
  intros E. destruct (dec_spec a) as [_ [_ [A _]]]. destruct (dec_spec b) as [_ [_ [B _]]]. congruence.
Qed.
Lemma NoDup_map_inj {A B} (f : A -> B) l : (forall x y, f x = f y -> x = y) -> NoDup l -> NoDup (map f l).
Proof.
  intros I. induction 1 as [|x l N _ IH]; cbn; constructor; [|exact IH].
  intros H. apply in_map_iff in H. destruct H as [y [E Y]]. apply I in E. subst y. contradiction.
Qed.
Theorem fresh_ids en es s out : run en start es = Ret (s, out) -> NoDup (request_ids out).
Proof.
  intros R. destruct (run_inv en es start s out (cached_start en) eq_refl R) as [_ [_ [_ [_ [_ [_ [E _]]]]]]].
  rewrite E. apply NoDup_map_inj; [|apply seq_NoDup].
  intros x y H. apply dec_injective in H. lia.
Qed.
