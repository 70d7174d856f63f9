(* Lines and columns are counted the way the client says. *)
From Verif Require Import Base Process Vm Dbg DbgSpec DbgProofs PropProcess PropDbg CountProofs.
Local Open Scope Z_scope.

(* the session starts with one message that says where to start *)
Definition counting (q : Z) (ln cn : option bool) (ms : list dmessage) : list dmessage :=
  DRequest q (RInitialize (Args (ln, cn))) :: ms.

Lemma count_after en pick fuel q ln cn ms s o : forallb (fun m => negb (says m)) ms = true ->
  after en pick fuel (counting q ln cn ms) s o -> s_lz s = first ln /\ s_cz s = first cn.
Proof.
  intros N A. unfold after, counting in A. cbn [converse handle] in A. unfold reply, notify, done in A. cbv zeta in A.
  match type of A with (let (_, _) := converse _ _ _ ?x _ in _) = _ => set (s0 := x) in A; assert (E : s_lz s0 = first ln /\ s_cz s0 = first cn) by (destruct ln as [[|]|], cn as [[|]|]; split; reflexivity) end.
  destruct (converse en pick fuel s0 ms) as [o' e] eqn:C. injection A as _ ->. destruct (kept_converse _ _ _ _ N _ _ _ C) as [L R], E as [E F]. split; congruence.
Qed.

(* a stack trace shows the lines and columns counted from there *)
Theorem C121_trace en pick fuel q0 ln cn ms s o v p b q :
  forallb (fun m => negb (says m)) ms = true -> after en pick fuel (counting q0 ln cn ms) s o -> s_vm s = Some (v, p) -> In b (v_branches v) ->
  exists fs,
    shown (handle en pick fuel s (DRequest q (RStackTrace (Args (Z.of_nat (b_id b)))))) q (RStackTrace NilArgs) (BStackTrace fs 1) /\
    map (fun f => (sf_line f, sf_column f)) fs = map (fun x => (line_number (snd x) + first ln, first cn)) (call_chain b).
Proof.
  intros N A V B. destruct (count_after _ _ _ _ _ _ _ _ _ N A) as [L C]. rewrite <- L, <- C.
  pose proof (after_runs _ _ _ _ _ _ A) as R. rewrite V in R. destruct (runs_wf _ _ _ R) as [li [ver W]].
  eexists. split.
  - unfold shown. cbn [handle]. rewrite V. rewrite (for_one _ b _ (wf_nodup _ _ _ W) B). eexists. eexists. reflexivity.
  - unfold call_chain. generalize (b_line b) (b_name b). induction (b_frames b) as [|f fs IH]; intros l n; cbn [trace_frames map snd sf_line sf_column]; [reflexivity|].
    f_equal. apply IH.
Qed.
(* a breakpoint is set where the client means it *)
Theorem C121_breakpoints en pick fuel q0 ln cn ms s o v p q src lines :
  forallb (fun m => negb (says m)) ms = true -> after en pick fuel (counting q0 ln cn ms) s o -> s_vm s = Some (v, p) ->
  (forall l, In l lines -> first ln <= l) ->
  exists n es s' v',
    handle en pick fuel s (DRequest q (RSetBreakpoints (Args (src, lines)))) = ([Response n q "setBreakpoints" (BBreakpoints es)], Ret s') /\
    Forall2 (fun l e => db_line e = l /\ (db_verified e = true <-> instruction_at v (l - first ln))) lines es /\
    s_vm s' = Some (v', p) /\
    forall i, In i (v_bps v') <-> exists l, In l lines /\ l - first ln = Z.of_nat i /\ instruction_at v (Z.of_nat i).
Proof.
  intros N A V B. destruct (count_after _ _ _ _ _ _ _ _ _ N A) as [L _]. rewrite <- L in *.
  destruct (breakpoint_reply en pick fuel _ s o v p q src lines A V B) as [n [es [s' [v' [H [F [V' [_ I]]]]]]]].
  exists n, es, s', v'. repeat split; try assumption; try apply I. clear -F. induction F as [|l e ls es [X [_ Y]] F IH]; constructor; auto.
Qed.
(* two clients that do the same and count differently see the same, counted differently *)
Theorem C121 en pick fuel q ln cn ln' cn' ms : forallb (fun m => negb (says m)) ms = true ->
  let dl := first ln' - first ln in let dc := first cn' - first cn in
  let a := converse en pick fuel opened (counting q ln cn ms) in
  let b := converse en pick fuel opened (counting q ln' cn' (map (sent dl) ms)) in
  fst b = map (received dl dc) (fst a) /\
  match snd a, snd b with
  | Ret s, Ret s' => s_vm s' = s_vm s
  | Panic, Panic | OutOfFuel, OutOfFuel => True
  | _, _ => False
  end.
Proof.
  intros N. cbv zeta. unfold counting. cbn [converse handle]. unfold reply, notify, done. cbv zeta.
  match goal with |- context [converse _ _ _ ?x ms] => set (s0 := x) end.
  match goal with |- context [converse _ _ _ ?x (map _ ms)] => replace x with (moved (first ln' - first ln) (first cn' - first cn) s0)
    by (destruct ln as [[|]|], cn as [[|]|], ln' as [[|]|], cn' as [[|]|]; reflexivity) end.
  rewrite (move_converse en pick fuel _ _ ms N s0). destruct (converse en pick fuel s0 ms) as [o e]. unfold over_there. cbn [fst snd app map received].
  split; [reflexivity|]. destruct e; cbn [moved_end]; [reflexivity|exact I|exact I].
Qed.
(* the session of C53, with lines from 1 and from 0, and columns from 0 and from 1 *)
Definition steps : list dmessage :=
  [launch looping; DRequest 3 (RNext (Args 0)); DRequest 4 (RNext (Args 0)); DRequest 5 (RStackTrace (Args 0))].
Definition seen (ln cn : option bool) : list (list (Z * Z)) :=
  flat_map (fun o => match o with Response _ _ _ (BStackTrace fs _) => [map (fun f => (sf_line f, sf_column f)) fs] | _ => [] end)
    (fst (talk 100 (counting 1 ln cn steps))).
Example C121_ex :
  seen (Some true) (Some false) = [[(8, 0); (3, 0)]] /\ seen None None = [[(8, 1); (3, 1)]] /\ seen (Some false) None = [[(7, 1); (2, 1)]].
Proof. repeat split; vm_compute; reflexivity. Qed.
(* breakpoints on the lines with int 5 and f: *)
Definition marks (ln : option bool) (lines : list Z) : list (list (Z * bool)) :=
  flat_map (fun o => match o with Response _ _ _ (BBreakpoints es) => [map (fun e => (db_line e, db_verified e)) es] | _ => [] end)
    (fst (talk 100 (counting 1 ln None [launch looping; DRequest 3 (RSetBreakpoints (Args (here, lines)))]))).
Example C121_ex2 : marks None [4; 7] = [[(4, true); (7, false)]] /\ marks (Some false) [3; 6] = [[(3, true); (6, false)]].
Proof. split; vm_compute; reflexivity. Qed.
(* the hypotheses hold after the steps *)
Example C121_hyps : forallb (fun m => negb (says m)) steps = true /\
  exists s o v p b, after env0 choose 100 (counting 1 None (Some false) steps) s o /\ s_vm s = Some (v, p) /\ In b (v_branches v).
Proof. split; [reflexivity|]. do 4 eexists. eexists. split; [vm_compute; reflexivity|]. split; [reflexivity|left; reflexivity]. Qed.
(* a second message that says 0 is not heeded *)
Theorem C121_again_refuted : exists ms s o, after env0 choose 100 (ms ++ [DRequest 2 (RInitialize (Args (Some false, Some false)))]) s o /\
  s_lz s <> first (Some false) /\ s_cz s <> first (Some false).
Proof. exists [initialize]. do 2 eexists. split; [vm_compute; reflexivity|]. split; discriminate. Qed.
Print Assumptions C121.
Print Assumptions C121_trace.
Print Assumptions C121_breakpoints.
Print Assumptions C121_again_refuted.
