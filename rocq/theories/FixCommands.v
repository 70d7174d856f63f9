(* What the commands send, after any session. *)
From Verif Require Import Base LexSpec Lexer LexerThms DocLines DocProofs Expr Codec OpTable Process ProcessSpec ProcessDoc ProcessThms Semantics Query Lsp LspSpec LspProofs Edit RoundTripSpec QueryProofs EditProofs RenameProofs FixLines FixProofs FixVersion.

Definition sent (en : lenv) (s : server) (c : command) (uri : str) (es : list text_edit) : Prop :=
  forall id, written (handle en s (Call id (ExecuteCommand (Params c)))) = Ret [ApplyEdit (dec (N.of_nat (S (s_id s)))) uri es].

Section session.
Variables (en : lenv) (es : list event) (s : server) (out : list output) (uri : str) (t : str) (r : presult).
Hypothesis HR : run en start es = Ret (s, out).
Hypothesis HE : s_exit s = false.
Hypothesis HS : s_shutdown s = false.
Hypothesis HT : latest uri es = Some t.
Hypothesis HP : process (l_env en) t = Ret r.

Lemma get_opened : get_doc uri (just_opened s uri (Some t)) = Some (LDoc t None).
Proof. unfold get_doc, just_opened. cbn [s_docs find fst]. destruct (seqb_spec uri uri); [reflexivity|congruence]. Qed.
Lemma results_opened : exists s', results en uri (just_opened s uri (Some t)) = Ret (Some (r, s')) /\ s_id s' = s_id s.
Proof. unfold results. rewrite get_opened. cbn [d_res d_text]. rewrite HP. cbn [bindr]. eexists. split; [reflexivity|]. reflexivity. Qed.

Lemma send_by c : about uri (ExecuteCommand (Params c)) -> forall es', (forall id, written (execute en id c (just_opened s uri (Some t))) = Ret [ApplyEdit (dec (N.of_nat (S (s_id s)))) uri es']) -> sent en s c uri es'.
Proof.
  intros A es' H id. rewrite (answers_latest en es s out uri id _ HR HE HS A), HT. rewrite <- (H id). reflexivity.
Qed.

Theorem line_remove_sent i : sent en s (LineRemove (Some [(uri, Z.of_nat i)])) uri (remove_line i).
Proof. apply send_by; [reflexivity|]. intros id. cbn [execute one_arg]. rewrite get_opened. reflexivity. Qed.
Theorem label_create_sent name : sent en s (LabelCreate (Some [(uri, name)])) uri (create_label r name).
Proof.
  apply send_by; [reflexivity|]. intros id. cbn [execute one_arg]. destruct results_opened as [s' [-> E]]. cbn [bindr]. unfold send_edit. cbn [written bindr snd]. rewrite E. reflexivity.
Qed.
Theorem version_update_sent v : sent en s (VersionUpdate (Some [(uri, v)])) uri (update_version r v).
Proof.
  apply send_by; [reflexivity|]. intros id. cbn [execute one_arg]. destruct results_opened as [s' [-> E]]. cbn [bindr]. unfold send_edit. cbn [written bindr snd]. rewrite E. reflexivity.
Qed.
Theorem value_replace_sent rg v : sent en s (ValueReplace (Some [(uri, rg, v)])) uri [TextEdit rg v].
Proof. apply send_by; [reflexivity|]. intros id. cbn [execute one_arg]. rewrite get_opened. reflexivity. Qed.
End session.

(* the label of a fix is a missing one; not quoted, it is a word *)
Lemma offered_label en src r rg acts name : process en src = Ret r -> code_actions r rg = Ret acts -> In (FixCreateLabel name) acts ->
  In name (map tok_v (r_miss r)) /\ (starts_quote name = false -> is_word name = true).
Proof.
  intros P Q H. assert (M : exists t, In t (r_miss r) /\ tok_v t = name).
  { unfold code_actions in Q. destruct (inlay_hints r rg) as [hs| |]; cbn [bindr] in Q; try discriminate Q. injection Q as <-.
    rewrite !in_app_iff in H. destruct H as [H|[H|[H|[H|H]]]]; apply in_map_iff in H; destruct H as [x [E I]]; try discriminate E.
    injection E as E. apply filter_In in I. exists x. split; [apply I|exact E]. }
  destruct M as [t [I <-]]. split; [apply in_map; exact I|]. intros Sq.
  destruct (symbols_complete en src r P) as [_ [R [M _]]]. apply M in I. destruct I as [I _]. rewrite R in I. apply in_flat_map in I. destruct I as [l [Il It]].
  pose proof (names_labels_incl _ _ It) as Itl. destruct (fact_of _ _ _ P t (in_line _ t l Itl Il)) as [_ B].
  assert (T : tok_t t = TokValue).
  { pose proof (no_eol _ _ _ P t l Itl Il) as X. destruct (lines_of_result _ _ _ P) as [_ _ _ C]. rewrite Forall_forall in C. specialize (C l Il). rewrite Forall_forall in C.
    assert (Tl : In t (tl l)).
    { clear - It. unfold names_labels in It. destruct l as [|o w]; [destruct It|]. destruct (kind_of _); try destruct It. cbn [tl].
      destruct (one_of _ _); [destruct w; [destruct It|]; destruct It as [<-|[]]; left; reflexivity|]. destruct (one_of _ _); [exact It|destruct It]. }
    specialize (C t Tl). destruct (tok_t t); congruence. }
  destruct (B T) as [C _]. destruct (C Sq) as [_ W]. exact W.
Qed.

Theorem formatting_result en src ps r cf uri a : Lexes src ps -> strings_on_one_line ps -> (forall w, ~ In (POpen w) ps) -> process (l_env en) src = Ret r ->
  answer_query en cf uri src r QFormatting = Ret a ->
  exists e body tail, a = AFormatting e /\ src = body ++ tail /\ (body = [] \/ exists u c, body = u ++ [c] /\ is_eolc c) /\ one_line tail /\
    ((Forall is_blank tail /\ apply_edits [e] src = l_format en src ++ tail) \/ (~ Forall is_blank tail /\ apply_edits [e] src = l_format en src)).
Proof.
  intros L O Op P Q. cbn [answer_query] in Q. injection Q as <-. destruct (replace_all_result (l_env en) src ps r (l_format en src) L O Op P) as [body [tail H]].
  eexists. exists body, tail. split; [reflexivity|]. exact H.
Qed.
