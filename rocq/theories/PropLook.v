(* Property C114: looking at a debugging session does not disturb it. *)
From Verif Require Import Base Expr Codec Process PropProcess Vm Dbg LookSpec LookProofs PropDbg.

(* A session in which every message has been dealt with goes the same way without the messages that only look: every other
   message gets the same answers, but for their numbers, and the program is in the same state in the end. *)
Theorem C114 en pick fuel ms s o s2 : converse en pick fuel s ms = (o, Ret s2) ->
  exists h h' o' t2, dialogue en pick fuel s h s2 /\ map fst h = ms /\ concat (map snd h) = o /\
    converse en pick fuel s (filter acts ms) = (o', Ret t2) /\ same_session s2 t2 /\
    map fst h' = filter acts ms /\ concat (map snd h') = o' /\ same_talk (filter (fun x => acts (fst x)) h) h'.
Proof.
  intros C. destruct (converse_dialogue en pick fuel ms s o s2 C) as [h [D [M O]]].
  destruct (without_looking en pick fuel s h s2 D s (same_refl s)) as [h' [t2 [D' [T S]]]].
  assert (F : map fst h' = filter acts ms).
  { rewrite <- M. clear - T. assert (X : map fst (filter (fun x => acts (fst x)) h) = filter acts (map fst h)).
    { clear T. induction h as [|x h IH]; [reflexivity|]. cbn [filter map]. destruct (acts (fst x)); cbn [map]; rewrite IH; reflexivity. }
    rewrite <- X. clear X. unfold same_talk in T. revert T. generalize (filter (fun x : dmessage * list dout => acts (fst x)) h). intros g T. induction T as [|x y a b [H _] T IH]; [reflexivity|]. cbn [map]. rewrite H, IH. reflexivity. }
  exists h, h', (concat (map snd h')), t2. split; [exact D|]. split; [exact M|]. split; [exact O|].
  split; [rewrite <- F; exact (dialogue_converse _ _ _ _ _ _ D')|]. auto.
Qed.
Print Assumptions C114.

(* A look in between changes nothing in the rest of a session. *)
Theorem C114_added en pick fuel s m o s1 h s2 : acts m = false -> handle en pick fuel s m = (o, Ret s1) -> dialogue en pick fuel s h s2 ->
  exists h' t2, dialogue en pick fuel s ((m, o) :: h') t2 /\ same_talk h h' /\ same_session s2 t2.
Proof. exact (look_added en pick fuel s m o s1 h s2). Qed.
Print Assumptions C114_added.

(* Asked again, the adapter says the same. *)
Theorem C114_again en pick fuel s m o s1 : acts m = false -> handle en pick fuel s m = (o, Ret s1) ->
  exists o' s2, handle en pick fuel s1 m = (o', Ret s2) /\ map content o' = map content o.
Proof. exact (look_again en pick fuel s m o s1). Qed.
Print Assumptions C114_again.

Definition ask (q : Z) (r : request) : dmessage := DRequest q r.
Example C114_ex : exists o o' s s',
  talk 100 [launch looping; ask 3 RThreads; ask 4 (RNext (Args 0%Z)); ask 5 (RVariables (Args (2, None, None)%Z)); ask 6 (RVariables (Args (2, None, None)%Z)); ask 7 RPause;
            ask 8 (RNext (Args 0%Z)); ask 9 (RStackTrace (Args 0%Z)); ask 10 (RContinue (Args 0%Z))] = (o, Ret s) /\
  talk 100 [launch looping; ask 4 (RNext (Args 0%Z)); ask 8 (RNext (Args 0%Z)); ask 10 (RContinue (Args 0%Z))] = (o', Ret s') /\
  s_seq s = 15 /\ s_seq s' = 9 /\ s_vm s = s_vm s' /\
  In (Response 7 5 "variables" (BVariables [(bs "0", bs "uint64: 1")])) o /\ In (Response 8 6 "variables" (BVariables [(bs "0", bs "uint64: 1")])) o.
Proof. do 4 eexists. split; [vm_compute; reflexivity|]. split; [vm_compute; reflexivity|]. vm_compute. tauto. Qed.
