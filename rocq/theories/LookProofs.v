(* Requests that only look leave the session as it is. *)
From Verif Require Import Base Process Vm Dbg LookSpec.

Definition same_end (a b : res session) : Prop :=
  match a, b with Ret s, Ret s' => same_session s s' | Panic, Panic => True | OutOfFuel, OutOfFuel => True | _, _ => False end.
Definition same_outcome (a b : outcome) : Prop := map content (fst a) = map content (fst b) /\ same_end (snd a) (snd b).

Lemma same_refl s : same_session s s.
Proof. repeat split. Qed.
Lemma same_trans a b c : same_session a b -> same_session b c -> same_session a c.
Proof. intros [A [B C]] [D [E F]]. repeat split; congruence. Qed.
Lemma same_sym a b : same_session a b -> same_session b a.
Proof. intros [A [B C]]. repeat split; congruence. Qed.
Lemma same_done s s' : same_session s s' -> same_outcome (done s) (done s').
Proof. intros H. split; [reflexivity|exact H]. Qed.
Lemma same_crash : same_outcome crash crash.
Proof. split; reflexivity. Qed.
Lemma same_set n n' s s' : same_session s s' -> same_session (set_seq n s) (set_seq n' s').
Proof. intros [A [B C]]. repeat split; assumption. Qed.
Lemma same_reply q c b k k' s s' : same_session s s' -> (forall x y, same_session x y -> same_outcome (k x) (k' y)) ->
  same_outcome (reply q c b k s) (reply q c b k' s').
Proof.
  intros H K. unfold reply. specialize (K _ _ (same_set (S (s_seq s)) (S (s_seq s')) s s' H)).
  destruct (k _) as [o r], (k' _) as [o' r']. destruct K as [A B]. cbn [fst snd map content] in *. split; [cbn; rewrite A; reflexivity|exact B].
Qed.
Lemma same_notify e k k' s s' : same_session s s' -> (forall x y, same_session x y -> same_outcome (k x) (k' y)) ->
  same_outcome (notify e k s) (notify e k' s').
Proof.
  intros H K. unfold notify. specialize (K _ _ (same_set (S (s_seq s)) (S (s_seq s')) s s' H)).
  destruct (k _) as [o r], (k' _) as [o' r']. destruct K as [A B]. cbn [fst snd map content] in *. split; [cbn; rewrite A; reflexivity|exact B].
Qed.
Lemma same_machine v s s' : same_session s s' -> same_session (set_machine v s) (set_machine v s').
Proof. intros [A [B C]]. unfold set_machine. repeat split; cbn [s_lz s_cz s_vm]; try assumption. rewrite C. reflexivity. Qed.
Lemma same_stopped r v s s' : same_session s s' -> same_outcome (stopped r v s) (stopped r v s').
Proof.
  intros H. unfold stopped. destruct (current_thread v); [|apply same_crash|apply same_crash]. apply same_notify; [exact H|]. intros. apply same_done. assumption.
Qed.
Lemma same_resume pick fuel a s s' : same_session s s' -> same_outcome (resume pick fuel a s) (resume pick fuel a s').
Proof.
  intros H. pose proof H as [_ [_ V]]. unfold resume. rewrite <- V. destruct (s_vm s) as [[v p]|]; [|apply same_done; exact H].
  destruct (run_vm fuel v) as [w| |]; [|apply same_crash|split; reflexivity]. pose proof (same_machine w _ _ H) as M.
  destruct (v_error w); [apply same_notify; auto using same_done|]. destruct (v_trig w); [destruct (v_branch w); [apply same_done; exact M|apply same_notify; auto using same_done]|].
  destruct a; [apply same_crash|apply same_crash|apply same_notify; auto using same_done].
Qed.
Lemma same_advance a s s' : same_session s s' -> same_outcome (advance a s) (advance a s').
Proof.
  intros H. pose proof H as [_ [_ V]]. unfold advance. rewrite <- V. destruct (s_vm s) as [[v p]|]; [|apply same_crash].
  destruct a; [apply same_crash|apply same_crash|]. destruct (step _) as [w| |]; [|apply same_crash|split; reflexivity]. pose proof (same_machine w _ _ H) as M.
  destruct (v_error w); [apply same_notify; auto using same_done|apply same_stopped; exact M].
Qed.

Section Look.
Variables (en : env) (pick : list nat -> nat) (fuel : nat).

(* a handler does not look at the number of the messages sent *)
Lemma same_handle s s' m : same_session s s' -> same_outcome (handle en pick fuel s m) (handle en pick fuel s' m).
Proof.
  intros H. pose proof H as [A [B C]]. destruct m as [q r|]; [|apply same_done; exact H].
  destruct r; cbn [handle]; try (apply same_reply; auto using same_done; fail); try (apply same_done; exact H); try destruct a as [| |a]; try (apply same_done; exact H); try apply same_crash;
    try rewrite <- A; try rewrite <- B; try rewrite <- C.
  - destruct a as [ln cl]. apply same_reply; [repeat split; cbn [s_lz s_cz s_vm]; congruence|]. intros. apply same_notify; auto using same_done.
  - destruct a as [path [src|]]; [|apply same_done; exact H]. destruct (letr r := _ in _) as [v| |]; [|apply same_crash|split; reflexivity].
    apply same_reply; [repeat split; assumption|]. intros. apply same_notify; [assumption|]. intros. apply same_stopped. assumption.
  - destruct (s_vm s) as [[v p]|]; [apply same_crash|apply same_reply; auto using same_done].
  - destruct (s_vm s) as [[v p]|]; [|apply same_reply; auto using same_done]. destruct a as [src lines]. destruct (set_breakpoints _ v) as [[w ns]| |]; [|apply same_crash|apply same_crash].
    apply same_reply; [apply same_machine; exact H|auto using same_done].
  - apply same_reply; auto using same_done.
  - apply same_reply; [exact H|]. intros x y X. cbv beta. pose proof X as [_ [_ V]]. rewrite <- V. destruct (s_vm x) as [[v p]|]; [apply same_stopped; exact X|apply same_crash].
  - apply same_reply; auto using same_resume.
  - apply same_reply; auto using same_resume.
  - apply same_reply; auto using same_advance.
  - apply same_reply; auto using same_advance.
  - destruct a as [[rf st] ct]. destruct (variables _ _ _ _); [apply same_reply; auto using same_done|apply same_crash|apply same_crash].
  - destruct (s_vm s) as [[v p]|]; [apply same_crash|apply same_reply; auto using same_done].
  - destruct (s_vm s) as [[v p]|]; [|apply same_reply; auto using same_done]. destruct (for_branches _ _ _); [apply same_reply; auto using same_done|apply same_crash|apply same_crash].
  - destruct (s_vm s) as [[v p]|]; [apply same_crash|apply same_reply; auto using same_done].
  - destruct (s_vm s) as [[v p]|]; [|apply same_reply; auto using same_done]. destruct (for_branches _ _ _); [apply same_reply; auto using same_done|apply same_crash|apply same_crash].
Qed.

Lemma done_ret s o s1 : done s = (o, Ret s1) -> s1 = s.
Proof. unfold done. congruence. Qed.
Lemma reply_ret q c b s o s1 : reply q c b done s = (o, Ret s1) -> same_session s1 s.
Proof. unfold reply, done. intros E. injection E as _ <-. repeat split. Qed.
(* looking leaves the session as it is *)
Lemma look_keeps s m o s1 : acts m = false -> handle en pick fuel s m = (o, Ret s1) -> same_session s1 s.
Proof.
  intros N H. destruct m as [q r|]; [|apply done_ret in H as ->; apply same_refl].
  destruct r; try discriminate N; cbn [handle] in H; try (exact (reply_ret _ _ _ _ _ _ H)); try (apply done_ret in H as ->; apply same_refl).
  - unfold reply, stopped, notify, done, crash in H. cbn [set_seq s_vm] in H. destruct (s_vm s) as [[v p]|]; [|discriminate H]. destruct (current_thread v); [|discriminate H|discriminate H].
    injection H as _ <-. repeat split.
  - destruct a as [| |[[rf st] ct]]; [apply done_ret in H as ->; apply same_refl|discriminate H|]. destruct (variables _ _ _ _); try discriminate H. exact (reply_ret _ _ _ _ _ _ H).
  - destruct a as [| |a]; [apply done_ret in H as ->; apply same_refl| |]; (destruct (s_vm s) as [[v p]|]; [|exact (reply_ret _ _ _ _ _ _ H)]); [discriminate H|].
    destruct (for_branches _ _ _); try discriminate H. exact (reply_ret _ _ _ _ _ _ H).
  - destruct a as [| |a]; [apply done_ret in H as ->; apply same_refl| |]; (destruct (s_vm s) as [[v p]|]; [|exact (reply_ret _ _ _ _ _ _ H)]); [discriminate H|].
    destruct (for_branches _ _ _); try discriminate H. exact (reply_ret _ _ _ _ _ _ H).
Qed.

(* the same messages in the same session *)
Lemma same_dialogue s h s2 : dialogue en pick fuel s h s2 -> forall t, same_session s t ->
  exists h' t2, dialogue en pick fuel t h' t2 /\ same_talk h h' /\ same_session s2 t2.
Proof.
  induction 1 as [s|s m o s1 h s2 H D IH]; intros t S; [exists [], t; repeat split; try constructor; apply S|].
  pose proof (same_handle s t m S) as [A B]. rewrite H in A, B. destruct (handle en pick fuel t m) as [o' [t1| |]] eqn:E; cbn [fst snd same_end] in A, B; try contradiction.
  destruct (IH t1 B) as [h' [t2 [D' [T S']]]]. exists ((m, o') :: h'), t2. split; [econstructor; eassumption|]. split; [constructor; [split; [reflexivity|exact A]|exact T]|exact S'].
Qed.

(* without the messages that look *)
Theorem without_looking s h s2 : dialogue en pick fuel s h s2 -> forall t, same_session s t ->
  exists h' t2, dialogue en pick fuel t h' t2 /\ same_talk (filter (fun x => acts (fst x)) h) h' /\ same_session s2 t2.
Proof.
  induction 1 as [s|s m o s1 h s2 H D IH]; intros t S; [exists [], t; repeat split; try constructor; apply S|].
  cbn [filter fst]. destruct (acts m) eqn:Ac.
  - pose proof (same_handle s t m S) as [A B]. rewrite H in A, B. destruct (handle en pick fuel t m) as [o' [t1| |]] eqn:E; cbn [fst snd same_end] in A, B; try contradiction.
    destruct (IH t1 B) as [h' [t2 [D' [T S']]]]. exists ((m, o') :: h'), t2. split; [econstructor; eassumption|]. split; [constructor; [split; [reflexivity|exact A]|exact T]|exact S'].
  - apply IH. exact (same_trans _ _ _ (look_keeps s m o s1 Ac H) S).
Qed.

(* a look added or asked again *)
Theorem look_added s m o s1 h s2 : acts m = false -> handle en pick fuel s m = (o, Ret s1) -> dialogue en pick fuel s h s2 ->
  exists h' t2, dialogue en pick fuel s ((m, o) :: h') t2 /\ same_talk h h' /\ same_session s2 t2.
Proof.
  intros N H D. destruct (same_dialogue s h s2 D s1 (same_sym _ _ (look_keeps s m o s1 N H))) as [h' [t2 [D' [T S]]]]. exists h', t2. split; [econstructor; eassumption|]. auto.
Qed.
Theorem look_again s m o s1 : acts m = false -> handle en pick fuel s m = (o, Ret s1) ->
  exists o' s2, handle en pick fuel s1 m = (o', Ret s2) /\ map content o' = map content o.
Proof.
  intros N H. pose proof (same_handle _ _ m (look_keeps s m o s1 N H)) as [A B]. rewrite H in A, B. destruct (handle en pick fuel s1 m) as [o' [t1| |]]; cbn [fst snd same_end] in A, B; try contradiction.
  exists o', t1. auto.
Qed.

(* dialogues and whole conversations *)
Lemma dialogue_converse s h s2 : dialogue en pick fuel s h s2 -> converse en pick fuel s (map fst h) = (concat (map snd h), Ret s2).
Proof.
  induction 1 as [s|s m o s1 h s2 H D IH]; [reflexivity|]. cbn [map converse fst snd concat]. rewrite H, IH. reflexivity.
Qed.
Lemma converse_dialogue ms : forall s o s2, converse en pick fuel s ms = (o, Ret s2) -> exists h, dialogue en pick fuel s h s2 /\ map fst h = ms /\ concat (map snd h) = o.
Proof.
  induction ms as [|m ms IH]; intros s o s2 H; cbn [converse] in H.
  - injection H as <- <-. exists []. repeat split. constructor.
  - destruct (handle en pick fuel s m) as [o1 [s1| |]] eqn:E; try discriminate H. destruct (converse en pick fuel s1 ms) as [o' e] eqn:C. injection H as <- ->.
    destruct (IH _ _ _ C) as [h [D [M O]]]. exists ((m, o1) :: h). split; [econstructor; eassumption|]. cbn [map fst snd concat]. rewrite M, O. split; reflexivity.
Qed.
End Look.
