(* A launch starts afresh. *)
From Verif Require Import Base Process Vm Dbg DbgSpec LookSpec LookProofs PropProcess PropDbg CountProofs PropCount.
Local Open Scope Z_scope.

Lemma same_converse en pick fuel ms : forall s t, same_session s t -> same_outcome (converse en pick fuel s ms) (converse en pick fuel t ms).
Proof.
  induction ms as [|m ms IH]; intros s t H; [split; [reflexivity|exact H]|]. cbn [converse]. destruct (same_handle en pick fuel s t m H) as [A B].
  destruct (handle en pick fuel s m) as [o [s1| |]], (handle en pick fuel t m) as [o' [t1| |]]; cbn [fst snd same_end] in A, B; try contradiction; try (split; [exact A|exact I]).
  destruct (IH s1 t1 B) as [C D]. destruct (converse en pick fuel s1 ms) as [p e], (converse en pick fuel t1 ms) as [p' e']. cbn [fst snd] in *.
  split; [cbn [fst]; rewrite !map_app, A, C; reflexivity|exact D].
Qed.

(* whatever has been debugged before, the answers to a launch and to all that follows are the same, and the program is in the
   same state; the sessions count lines and columns the same way *)
Theorem C122 en pick fuel ms ms' s o s' o' q path src rest :
  after en pick fuel ms s o -> after en pick fuel ms' s' o' -> s_lz s = s_lz s' -> s_cz s = s_cz s' ->
  let a := converse en pick fuel s (DRequest q (RLaunch (Args (path, Some src))) :: rest) in
  let b := converse en pick fuel s' (DRequest q (RLaunch (Args (path, Some src))) :: rest) in
  map content (fst a) = map content (fst b) /\
  match snd a, snd b with
  | Ret x, Ret y => s_vm x = s_vm y
  | Panic, Panic | OutOfFuel, OutOfFuel => True
  | _, _ => False
  end.
Proof.
  intros _ _ L C. cbv zeta.
  set (s0 := Session (s_seq s) (s_lz s) (s_cz s) None). set (t0 := Session (s_seq s') (s_lz s') (s_cz s') None).
  assert (E : forall x y r, s_seq x = s_seq y -> s_lz x = s_lz y -> s_cz x = s_cz y ->
    converse en pick fuel x (DRequest q (RLaunch (Args (path, Some src))) :: r) = converse en pick fuel y (DRequest q (RLaunch (Args (path, Some src))) :: r)).
  { intros x y r A B D. cbn [converse handle]. rewrite A, B, D. reflexivity. }
  rewrite (E s s0 rest), (E s' t0 rest) by reflexivity.
  destruct (same_converse en pick fuel (DRequest q (RLaunch (Args (path, Some src))) :: rest) s0 t0) as [A B].
  { repeat split; assumption. }
  split; [exact A|]. unfold same_end in B. destruct (snd (converse en pick fuel s0 _)), (snd (converse en pick fuel t0 _)); try exact I; try contradiction. apply B.
Qed.
(* so two sessions whose clients said the same about counting agree, whatever else was said before *)
Theorem C122_said en pick fuel q0 q1 ln cn ms ms' s o s' o' q path src rest :
  forallb (fun m => negb (says m)) ms = true -> forallb (fun m => negb (says m)) ms' = true ->
  after en pick fuel (DRequest q0 (RInitialize (Args (ln, cn))) :: ms) s o ->
  after en pick fuel (DRequest q1 (RInitialize (Args (ln, cn))) :: ms') s' o' ->
  map content (fst (converse en pick fuel s (DRequest q (RLaunch (Args (path, Some src))) :: rest))) =
  map content (fst (converse en pick fuel s' (DRequest q (RLaunch (Args (path, Some src))) :: rest))).
Proof.
  intros N N' A B. destruct (count_after en pick fuel q0 ln cn ms s o N A) as [E F], (count_after en pick fuel q1 ln cn ms' s' o' N' B) as [G H].
  exact (proj1 (C122 en pick fuel _ _ s o s' o' q path src rest A B (eq_trans E (eq_sym G)) (eq_trans F (eq_sym H)))).
Qed.
(* a breakpoint and two steps in another program do not show after the launch; without the launch they do *)
Definition before : list dmessage :=
  [initialize; launch ["int 1"; "int 2"; "int 3"]%string; DRequest 3 (RSetBreakpoints (Args (here, [3]))); DRequest 4 (RNext (Args 0)); DRequest 5 (RNext (Args 0))].
Definition asked : list dmessage := [DRequest 6 (RStackTrace (Args 0)); DRequest 7 (RContinue (Args 0)); DRequest 8 (RVariables (Args (2, None, None)))].
Definition answers (ms : list dmessage) (rest : list dmessage) : list ((Z * str * body) + devent) :=
  match talk 100 ms with (_, Ret s) => map content (fst (converse env0 choose 100 s rest)) | _ => [] end.
Example C122_ex : answers before (launch looping :: asked) = answers [initialize] (launch looping :: asked) /\
  length (answers before (launch looping :: asked)) = 7%nat /\
  answers before asked <> skipn 3 (answers [initialize] (launch looping :: asked)).
Proof. split; [vm_compute; reflexivity|]. split; [vm_compute; reflexivity|]. vm_compute. discriminate. Qed.
(* a program that cannot be read is not launched: the old one stays *)
Example C122_unread : answers before (DRequest 9 (RLaunch (Args (bs "b.teal", None))) :: asked) = answers before asked.
Proof. vm_compute. reflexivity. Qed.
Print Assumptions C122.
Print Assumptions C122_said.
