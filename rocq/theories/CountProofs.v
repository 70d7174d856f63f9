(* Where the client starts counting. *)
From Verif Require Import Base Process Vm Dbg DbgSpec.

(* the number of the first line or column for a client that says this: 1 unless it says otherwise *)
Definition first (o : option bool) : Z := match o with Some false => 0 | _ => 1 end.
(* a message that says where to start *)
Definition says (m : dmessage) : bool := match m with DRequest _ (RInitialize (Args _)) => true | _ => false end.

(* the only lines a client sends are those of the breakpoints *)
Definition sent (dl : Z) (m : dmessage) : dmessage :=
  match m with
  | DRequest q (RSetBreakpoints (Args (src, lines))) => DRequest q (RSetBreakpoints (Args (src, map (fun n => n + dl)%Z lines)))
  | _ => m
  end.
(* lines and columns are received in stack traces, lines with breakpoints *)
Definition received (dl dc : Z) (o : dout) : dout :=
  match o with
  | Response n q c (BStackTrace l t) =>
      Response n q c (BStackTrace (map (fun f => SFrame (sf_id f) (sf_name f) (sf_line f + dl) (sf_column f + dc) (sf_path f)) l) t)
  | Response n q c (BBreakpoints l) =>
      Response n q c (BBreakpoints (map (fun b => DBreakpoint (db_id b) (db_verified b) (db_line b + dl) (db_source b)) l))
  | _ => o
  end.
Definition moved (dl dc : Z) (s : session) : session := Session (s_seq s) (s_lz s + dl) (s_cz s + dc) (s_vm s).
Definition moved_end (dl dc : Z) (e : res session) : res session :=
  match e with Ret s => Ret (moved dl dc s) | Panic => Panic | OutOfFuel => OutOfFuel end.

Section Move.
Variables (en : env) (pick : list nat -> nat) (fuel : nat) (dl dc : Z).
Definition over_there (x : outcome) : outcome := (map (received dl dc) (fst x), moved_end dl dc (snd x)).

Lemma move_reply q c b b' k k' s s' : s' = moved dl dc s -> (forall n, received dl dc (Response n q c b) = Response n q c b') ->
  (forall x, k' (moved dl dc x) = over_there (k x)) -> reply q c b' k' s' = over_there (reply q c b k s).
Proof.
  intros -> B K. unfold reply. change (set_seq (S (s_seq (moved dl dc s))) (moved dl dc s)) with (moved dl dc (set_seq (S (s_seq s)) s)).
  rewrite K. change (s_seq (moved dl dc s)) with (s_seq s). destruct (k _) as [o r]. unfold over_there. cbn [fst snd map]. rewrite B. reflexivity.
Qed.
Lemma move_notify e k k' s : (forall x, k' (moved dl dc x) = over_there (k x)) -> notify e k' (moved dl dc s) = over_there (notify e k s).
Proof.
  intros K. unfold notify. change (set_seq (S (s_seq (moved dl dc s))) (moved dl dc s)) with (moved dl dc (set_seq (S (s_seq s)) s)).
  rewrite K. change (s_seq (moved dl dc s)) with (s_seq s). destruct (k _) as [o r]. reflexivity.
Qed.
Lemma move_done s : done (moved dl dc s) = over_there (done s).
Proof. reflexivity. Qed.
Lemma move_machine v s : set_machine v (moved dl dc s) = moved dl dc (set_machine v s).
Proof. reflexivity. Qed.
Lemma move_stopped r v s : stopped r v (moved dl dc s) = over_there (stopped r v s).
Proof. unfold stopped. destruct (current_thread v); [|reflexivity|reflexivity]. apply move_notify. exact move_done. Qed.
Lemma move_resume a s : resume pick fuel a (moved dl dc s) = over_there (resume pick fuel a s).
Proof.
  unfold resume. change (s_vm (moved dl dc s)) with (s_vm s). destruct (s_vm s) as [[v p]|]; [|reflexivity].
  destruct (run_vm fuel v) as [w| |]; [|reflexivity|reflexivity]. rewrite move_machine. cbv zeta.
  destruct (v_error w); [apply move_notify; exact move_done|].
  destruct (v_trig w); [destruct (v_branch w); [reflexivity|apply move_notify; exact move_done]|].
  destruct a; [reflexivity|reflexivity|apply move_notify; exact move_done].
Qed.
Lemma move_advance a s : advance a (moved dl dc s) = over_there (advance a s).
Proof.
  unfold advance. change (s_vm (moved dl dc s)) with (s_vm s). destruct (s_vm s) as [[v p]|]; [|reflexivity].
  destruct a; [reflexivity|reflexivity|]. destruct (step _) as [w| |]; [|reflexivity|reflexivity]. rewrite move_machine. cbv zeta.
  destruct (v_error w); [apply move_notify; exact move_done|apply move_stopped].
Qed.

Definition elsewhere (f : sframe) : sframe := SFrame (sf_id f) (sf_name f) (sf_line f + dl) (sf_column f + dc) (sf_path f).
Lemma move_frames id lz cz p fs : forall ln nm,
  trace_frames id (lz + dl) (cz + dc) p ln nm fs = map elsewhere (trace_frames id lz cz p ln nm fs).
Proof.
  induction fs as [|f fs IH]; intros ln nm; cbn [trace_frames map elsewhere sf_id sf_name sf_line sf_column sf_path]; unfold elsewhere at 1; cbn [sf_id sf_name sf_line sf_column sf_path].
  - f_equal. f_equal. lia.
  - f_equal; [f_equal; lia|apply IH].
Qed.
Lemma move_branches i (f g : branch -> list sframe) l : (forall b, g b = map elsewhere (f b)) ->
  for_branches i (fun b => Ret (g b)) l = letr x := for_branches i (fun b => Ret (f b)) l in Ret (map elsewhere x).
Proof.
  intros E. induction l as [|b l IH]; [reflexivity|]. cbn [for_branches]. rewrite IH, E.
  destruct (has_id i b); cbn [bindr]; (destruct (for_branches i (fun b => Ret (f b)) l); cbn [bindr]; [|reflexivity|reflexivity]); rewrite map_app; reflexivity.
Qed.
Lemma move_entries src lz lines ns :
  breakpoint_entries src (lz + dl) (map (fun n => n + dl)%Z lines) ns =
  map (fun b => DBreakpoint (db_id b) (db_verified b) (db_line b + dl) (db_source b)) (breakpoint_entries src lz lines ns).
Proof.
  unfold breakpoint_entries. rewrite !map_map. apply map_ext. intros n. cbv zeta. cbn [db_id db_verified db_line db_source].
  replace (n + dl - (lz + dl))%Z with (n - lz)%Z by lia. f_equal. lia.
Qed.
Lemma move_lines lz lines : map (fun ln => ln - (lz + dl))%Z (map (fun n => n + dl)%Z lines) = map (fun ln => ln - lz)%Z lines.
Proof. rewrite map_map. apply map_ext. intros n. lia. Qed.

(* the adapter for a client that counts from elsewhere *)
Theorem move_handle s m : says m = false -> handle en pick fuel (moved dl dc s) (sent dl m) = over_there (handle en pick fuel s m).
Proof.
  intros N. destruct m as [q r|]; [|reflexivity].
  destruct r as [a|a| | | |a| | | | |a| |a|a|a|a|x]; cbn [sent handle]; try reflexivity.
  - destruct a; [reflexivity|reflexivity|discriminate N].
  - destruct a as [| |[path [src|]]]; try reflexivity. destruct (letr r := _ in _) as [v| |]; [|reflexivity|reflexivity]. cbv zeta.
    apply move_reply; [reflexivity|reflexivity|]. intros x. apply move_notify. intros y. apply move_stopped.
  - destruct a as [| |[src lines]]; [reflexivity|cbn [handle]; change (s_vm (moved dl dc s)) with (s_vm s); destruct (s_vm s) as [[v p]|]; reflexivity|].
    cbn [handle]. change (s_vm (moved dl dc s)) with (s_vm s). destruct (s_vm s) as [[v p]|]; [|reflexivity]. cbn [moved s_lz]. rewrite move_lines.
    destruct (set_breakpoints _ v) as [[w ns]| |]; [|reflexivity|reflexivity].
    apply move_reply; [apply move_machine| |exact move_done]. intros n. cbn [received]. rewrite move_entries. reflexivity.
  - apply move_reply; [reflexivity|reflexivity|]. intros x. cbv beta. change (s_vm (moved dl dc x)) with (s_vm x).
    destruct (s_vm x) as [[v p]|]; [apply move_stopped|reflexivity].
  - destruct a; try reflexivity; (apply move_reply; [reflexivity|reflexivity|]; intros x; apply move_resume).
  - destruct a; try reflexivity; (apply move_reply; [reflexivity|reflexivity|]; intros x; apply move_advance).
  - destruct a as [| |[[rf st] ct]]; try reflexivity. change (s_vm (moved dl dc s)) with (s_vm s). destruct (variables _ _ _ _); reflexivity.
  - change (s_vm (moved dl dc s)) with (s_vm s). destruct a as [| |a]; [reflexivity|destruct (s_vm s) as [[v p]|]; reflexivity|].
    destruct (s_vm s) as [[v p]|]; [|reflexivity]. destruct (for_branches _ _ _); reflexivity.
  - change (s_vm (moved dl dc s)) with (s_vm s). destruct a as [| |a]; [reflexivity|destruct (s_vm s) as [[v p]|]; reflexivity|].
    destruct (s_vm s) as [[v p]|]; [|reflexivity]. cbn [moved s_lz s_cz].
    rewrite (move_branches a (fun b => trace_frames (b_id b) (s_lz s) (s_cz s) p (b_line b) (b_name b) (b_frames b))) by (intros b; apply move_frames).
    destruct (for_branches _ _ _) as [l| |]; cbn [bindr]; [|reflexivity|reflexivity].
    apply move_reply; [reflexivity|reflexivity|exact move_done].
Qed.
Theorem move_converse ms : forallb (fun m => negb (says m)) ms = true -> forall s,
  converse en pick fuel (moved dl dc s) (map (sent dl) ms) = over_there (converse en pick fuel s ms).
Proof.
  induction ms as [|m ms IH]; intros N s; [reflexivity|]. cbn [forallb map converse] in *. apply andb_prop in N as [A B]. apply Bool.negb_true_iff in A.
  rewrite (move_handle s m A). destruct (handle en pick fuel s m) as [o [s1| |]]; unfold over_there at 1; cbn [fst snd moved_end]; [|reflexivity|reflexivity].
  rewrite (IH B). destruct (converse en pick fuel s1 ms) as [o' e]. unfold over_there. cbn [fst snd]. rewrite map_app. reflexivity.
Qed.
End Move.

Section Kept.
Variables (en : env) (pick : list nat -> nat) (fuel : nat).
Definition keeps (s : session) (x : outcome) : Prop := match snd x with Ret s1 => s_lz s1 = s_lz s /\ s_cz s1 = s_cz s | _ => True end.
Lemma keeps_done s t : s_lz t = s_lz s -> s_cz t = s_cz s -> keeps s (done t).
Proof. split; assumption. Qed.
Lemma keeps_reply q c b k s t : keeps s (k (set_seq (S (s_seq t)) t)) -> keeps s (reply q c b k t).
Proof. unfold reply. destruct (k _) as [o r]. exact (fun H => H). Qed.
Lemma keeps_notify e k s t : keeps s (k (set_seq (S (s_seq t)) t)) -> keeps s (notify e k t).
Proof. unfold notify. destruct (k _) as [o r]. exact (fun H => H). Qed.
Lemma keeps_stopped r v s t : s_lz t = s_lz s -> s_cz t = s_cz s -> keeps s (stopped r v t).
Proof. intros A B. unfold stopped. destruct (current_thread v); [|exact I|exact I]. apply keeps_notify, keeps_done; assumption. Qed.
Lemma kept_handle s m o s1 : says m = false -> handle en pick fuel s m = (o, Ret s1) -> s_lz s1 = s_lz s /\ s_cz s1 = s_cz s.
Proof.
  intros N H. enough (K : keeps s (handle en pick fuel s m)) by (rewrite H in K; exact K). clear H o s1.
  destruct m as [q r|]; [|split; reflexivity].
  destruct r as [a|a| | | |a| | | | |a| |a|a|a|a|x]; cbn [handle]; try (split; reflexivity).
  - destruct a; [split; reflexivity|exact I|discriminate N].
  - destruct a as [| |[path [src|]]]; try (split; reflexivity). destruct (letr r := _ in _) as [v| |]; [|exact I|exact I].
    apply keeps_reply, keeps_notify, keeps_stopped; reflexivity.
  - destruct a as [| |[src lines]]; [split; reflexivity| |]; (destruct (s_vm s) as [[v p]|]; [|split; reflexivity]); [exact I|].
    destruct (set_breakpoints _ v) as [[w ns]| |]; [|exact I|exact I]. split; reflexivity.
  - apply keeps_reply. cbn [set_seq s_vm]. destruct (s_vm s) as [[v p]|]; [|exact I]. apply keeps_stopped; reflexivity.
  - destruct a as [| |a]; [split; reflexivity| |]; apply keeps_reply; unfold resume; cbn [set_seq s_vm]; (destruct (s_vm s) as [[v p]|]; [|split; reflexivity]);
      (destruct (run_vm fuel v) as [w| |]; [|exact I|exact I]); (destruct (v_error w); [split; reflexivity|]);
      (destruct (v_trig w); [destruct (v_branch w); split; reflexivity|]); [exact I|split; reflexivity].
  - destruct a as [| |a]; [split; reflexivity| |]; apply keeps_reply; unfold advance; cbn [set_seq s_vm]; (destruct (s_vm s) as [[v p]|]; [|exact I]); [exact I|].
    destruct (step _) as [w| |]; [|exact I|exact I]. destruct (v_error w); [split; reflexivity|apply keeps_stopped; reflexivity].
  - destruct a as [| |[[rf st] ct]]; [split; reflexivity|exact I|]. destruct (variables _ _ _ _); [split; reflexivity|exact I|exact I].
  - destruct a as [| |a]; [split; reflexivity| |]; (destruct (s_vm s) as [[v p]|]; [|split; reflexivity]); [exact I|].
    destruct (for_branches _ _ _); [split; reflexivity|exact I|exact I].
  - destruct a as [| |a]; [split; reflexivity| |]; (destruct (s_vm s) as [[v p]|]; [|split; reflexivity]); [exact I|].
    destruct (for_branches _ _ _); [split; reflexivity|exact I|exact I].
Qed.
Lemma kept_converse ms : forallb (fun m => negb (says m)) ms = true -> forall s o s1, converse en pick fuel s ms = (o, Ret s1) -> s_lz s1 = s_lz s /\ s_cz s1 = s_cz s.
Proof.
  induction ms as [|m ms IH]; intros N s o s1 H; [injection H as _ <-; auto|]. cbn [forallb converse] in *. apply andb_prop in N as [A B]. apply Bool.negb_true_iff in A.
  destruct (handle en pick fuel s m) as [o1 [s'| |]] eqn:E; try discriminate H. destruct (converse en pick fuel s' ms) as [o' e] eqn:C. injection H as <- ->.
  destruct (kept_handle _ _ _ _ A E) as [L R]. destruct (IH B _ _ _ C) as [L' R']. split; congruence.
Qed.
Lemma columns_shown id lz cz p fs : forall ln nm f, In f (trace_frames id lz cz p ln nm fs) -> sf_column f = cz.
Proof. induction fs as [|g fs IH]; intros ln nm f [<-|H]; try reflexivity; [destruct H|exact (IH _ _ _ H)]. Qed.
End Kept.
