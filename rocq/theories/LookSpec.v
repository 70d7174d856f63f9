(* Looking at a debugging session. *)
From Verif Require Import Base Process Vm Dbg.

(* the requests that set the session up or let the program go on; all others only look *)
Definition acts (m : dmessage) : bool :=
  match m with
  | DRequest _ (RInitialize _ | RLaunch _ | RSetBreakpoints _ | RContinue _ | RNext _) => true
  | _ => false
  end.

(* what is said, apart from the number of the message *)
Definition content (o : dout) : (Z * str * body) + devent :=
  match o with Response _ q c b => inl (q, c, b) | Event _ e => inr e end.
(* sessions that differ in the number of messages sent *)
Definition same_session (s s' : session) : Prop := s_lz s = s_lz s' /\ s_cz s = s_cz s' /\ s_vm s = s_vm s'.

(* messages with what was said to each of them, while the adapter runs *)
Inductive dialogue (en : env) (pick : list nat -> nat) (fuel : nat) : session -> list (dmessage * list dout) -> session -> Prop :=
| DialogueEnd s : dialogue en pick fuel s [] s
| DialogueStep s m o s1 h s2 : handle en pick fuel s m = (o, Ret s1) -> dialogue en pick fuel s1 h s2 -> dialogue en pick fuel s ((m, o) :: h) s2.
(* the same messages with the same answers *)
Definition same_talk : list (dmessage * list dout) -> list (dmessage * list dout) -> Prop :=
  Forall2 (fun x y => fst x = fst y /\ map content (snd x) = map content (snd y)).
