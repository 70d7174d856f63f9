(* A stop names breakpoints the client knows. *)
From Verif Require Import Base Expr Process Vm VmSpec VmInv VmThms Dbg DbgSpec DbgProofs PropProcess PropDbg CountProofs PropCount MarkProofs HitCount.
Local Open Scope Z_scope.

(* the breakpoints of a reply that were accepted have this identifier *)
Definition known (es : list dbreakpoint) (h : nat) : Prop := exists e, In e es /\ db_id e = Z.of_nat h /\ db_verified e = true.

(* a breakpoint below a label is named twice *)
Theorem C125_refuted : exists ms s o q a n es s1 q' t hits,
  after env0 choose 100 ms s o /\
  handle env0 choose 100 s (DRequest q (RSetBreakpoints a)) = ([Response n q "setBreakpoints" (BBreakpoints es)], Ret s1) /\
  stops (fst (handle env0 choose 100 s1 (DRequest q' (RContinue (Args 0))))) = [EStopped ByBreakpoint (Some t) hits] /\
  NoDup (map db_id es) /\ ~ NoDup hits.
Proof.
  exists [initialize; launch looping]. do 2 eexists. exists 3, (Args (here, [8])). do 3 eexists. exists 4. do 2 eexists.
  split; [vm_compute; reflexivity|]. split; [vm_compute; reflexivity|]. split; [vm_compute; reflexivity|].
  split; [repeat constructor; intros []|]. intros H. inversion H as [|? ? N _]. apply N. left. reflexivity.
Qed.
(* until the next launch or change, every stop by a breakpoint names only such *)
Theorem C125_partial en pick fuel ms s o v p q src lines n es s1 rest o1 s2 q' a o2 s3 t hits :
  after en pick fuel ms s o -> s_vm s = Some (v, p) ->
  handle en pick fuel s (DRequest q (RSetBreakpoints (Args (src, lines)))) = ([Response n q "setBreakpoints" (BBreakpoints es)], Ret s1) ->
  forallb quiet rest = true -> converse en pick fuel s1 rest = (o1, Ret s2) ->
  handle en pick fuel s2 (DRequest q' (RContinue a)) = (o2, Ret s3) -> stops o2 = [EStopped ByBreakpoint (Some t) hits] ->
  hits <> [] /\ forall h, In h hits -> known es h.
Proof.
  intros A V H Q C H' S.
  assert (Lz : forall l, In l lines -> s_lz s <= l).
  { cbn [handle] in H. rewrite V in H. destruct (set_breakpoints _ v) as [[w ns]| |] eqn:E; try discriminate H. unfold set_breakpoints in E.
    destruct (bind_lines _ _) as [ms'| |] eqn:F; try discriminate E. intros l I. assert (0 <= l - s_lz s); [|lia].
    apply (bind_marks _ _ _ F). apply in_map_iff. exists l. auto. }
  destruct (breakpoint_reply en pick fuel ms s o v p q src lines A V Lz) as [n' [es' [s' [v' [E [F [V' [Ls Hb]]]]]]]].
  rewrite H in E. injection E as <- <- <-.
  assert (Es : forall l, In l lines -> instruction_at v (l - s_lz s) -> exists e, In e es /\ db_id e = l - s_lz s /\ db_verified e = true).
  { revert H. cbn [handle]. rewrite V. destruct (set_breakpoints _ v) as [[w0 ns]| |]; intros H; try discriminate H. unfold reply, done in H. injection H as _ <- _.
    clear -F. unfold breakpoint_entries in *. induction lines as [|l ls IH]; intros l' Il Al; [destruct Il|]. cbn [map] in F |- *. inversion F as [|? ? ? ? P F']; subst. destruct Il as [->|Il].
    - eexists. split; [left; reflexivity|]. split; [reflexivity|]. apply P. exact Al.
    - destruct (IH F' l' Il Al) as [e [X Y]]. exists e. split; [right; exact X|exact Y]. }
  assert (R1 : runs en (s_vm s1)) by (pose proof (handle_runs en pick fuel s (DRequest q (RSetBreakpoints (Args (src, lines)))) (after_runs _ _ _ _ _ _ A)) as K; rewrite H in K; exact (K _ eq_refl)).
  assert (K1 : kept (v_bps v') (v_listing v') p (s_vm s1)) by (exists v'; auto).
  pose proof (converse_quiet en pick fuel _ _ _ rest Q s1 o1 s2 R1 K1 C) as K2. pose proof (converse_runs _ _ _ _ _ _ _ R1 C) as R2.
  pose proof (handle_quiet en pick fuel _ _ _ s2 (DRequest q' (RContinue a)) eq_refl R2 K2) as K3. rewrite H' in K3. destruct K3 as [w [W [Bw _]]].
  destruct a as [| |id]; [cbn [handle] in H'; injection H' as <- _; discriminate S| |];
    destruct K2 as [u [U _]]; rewrite U in R2; destruct R2 as [x [r [_ R2]]];
    (assert (T : exists ev, stops o2 = [ev] /\ exists r, truthful w (RContinue r) ev);
     [cbn [handle] in H'; apply reply_split in H' as [o3 [H' St]]; rewrite St;
      match type of H' with resume _ _ ?a ?s0 = _ => destruct (resume_spec pick fuel _ _ a s0 o3 s3 u p U R2 H') as [w' [W' [ev [Se T]]]] end;
      rewrite W in W'; injection W' as <-; exists ev; split; [exact Se|eexists; exact T]
     |destruct T as [ev [Se [r' T]]]; rewrite S in Se; injection Se as <-; inversion T; subst;
      [match goal with Y : forall a, RContinue _ <> RContinue a |- _ => exfalso; exact (Y _ eq_refl) end
      |split; [assumption|]; intros h Hin; match goal with Hh : forall h, In h hits -> h = ?i, Hi : In ?i (v_bps w) |- _ => rewrite (Hh h Hin); rewrite Bw in Hi; apply Hb in Hi as [l [Il [El Al]]] end]]).
  all: rewrite <- El in Al; destruct (Es l Il Al) as [e [X [Y Z]]]; exists e; split; [exact X|split; [congruence|exact Z]].
Qed.
Lemma bind_nodup l : forall lns ns, bind_lines l lns = Ret ns -> NoDup lns -> NoDup ns /\ forall i, In i ns -> In (Z.of_nat i) lns.
Proof.
  induction lns as [|z lns IH]; intros ns E N; [injection E as <-; split; [constructor|intros i []]|]. inversion N as [|? ? Nz N']; subst.
  cbn [bind_lines] in E. destruct (z >=? Z.of_nat (length l)); [destruct (IH _ E N') as [A B]; split; [exact A|intros i I; right; apply B, I]|].
  destruct (z <? 0) eqn:Ez; [discriminate|]. destruct (index l (Z.to_nat z)) as [e| |]; try discriminate. cbn [bindr] in E.
  destruct (bind_lines l lns) as [ms| |]; try discriminate. cbn [bindr] in E. destruct (IH _ eq_refl N') as [A B].
  destruct (is_nop e); injection E as <-; [split; [exact A|intros i I; right; apply B, I]|]. split.
  - constructor; [|exact A]. intros I. apply B in I. rewrite Z2Nat.id in I by lia. exact (Nz I).
  - intros i [<-|I]; [left; lia|right; apply B, I].
Qed.
Lemma continue_hits pick fuel l ver a s o s' v v' p p' t hits : s_vm s = Some (v, p) -> reach l ver v -> resume pick fuel a s = (o, Ret s') ->
  s_vm s' = Some (v', p') -> stops o = [EStopped ByBreakpoint (Some t) hits] -> counted (v_listing v') (v_bps v') hits.
Proof.
  intros V R E V' S. unfold resume in E. rewrite V in E. destruct (run_vm fuel v) as [w| |] eqn:Er; [|discriminate|discriminate].
  cbv zeta in E. destruct (v_error w) eqn:Ee; [unfold notify, done in E; injection E as <- <-; discriminate S|].
  pose proof (reach_command _ _ _ _ R (cmd_run _ _ _ Er)) as R'.
  destruct (v_trig w) as [|t0 ts] eqn:Et.
  - destruct (v_branch w); unfold notify, done in E; injection E as <- <-; discriminate S.
  - destruct a as [| |id]; [discriminate|discriminate|]. unfold notify, done in E. injection E as <- <-. cbn in V'. rewrite V in V'. injection V' as <- <-.
    cbn [stops] in S. injection S as _ <-. destruct (run_last _ _ _ _ _ R Er) as [[-> Hf]|[u [Ru Eu]]].
    + exfalso. destruct Hf as [Hf|Hf]; [|congruence]. pose proof (reach_calm _ _ _ R' Hf). congruence.
    + pose proof (counted_step _ _ _ _ (reach_wf _ _ _ Ru) Eu (stopped_thread pick (t0 :: ts) id)) as G. rewrite Et in G. exact G.
Qed.
(* with every line asked for once, one breakpoint is named: once, or twice if the line above it is not an instruction *)
Theorem C125_twice en pick fuel ms s o v p q src lines n es s1 rest o1 s2 q' a o2 s3 t hits :
  after en pick fuel ms s o -> s_vm s = Some (v, p) -> NoDup lines ->
  handle en pick fuel s (DRequest q (RSetBreakpoints (Args (src, lines)))) = ([Response n q "setBreakpoints" (BBreakpoints es)], Ret s1) ->
  forallb quiet rest = true -> converse en pick fuel s1 rest = (o1, Ret s2) ->
  handle en pick fuel s2 (DRequest q' (RContinue a)) = (o2, Ret s3) -> stops o2 = [EStopped ByBreakpoint (Some t) hits] ->
  exists h, hits = [h] \/ hits = [h; h] /\ (0 < h)%nat /\ ~ instruction_at v (Z.of_nat h - 1).
Proof.
  intros A V N H Q C H' S.
  destruct (C125_partial _ _ _ _ _ _ _ _ _ _ _ _ _ _ _ _ _ _ _ _ _ _ _ A V H Q C H' S) as [Ne _].
  assert (R1 : runs en (s_vm s1)) by (pose proof (handle_runs en pick fuel s (DRequest q (RSetBreakpoints (Args (src, lines)))) (after_runs _ _ _ _ _ _ A)) as K; rewrite H in K; exact (K _ eq_refl)).
  assert (K1 : exists ns, NoDup ns /\ kept ns (v_listing v) p (s_vm s1)).
  { cbn [handle] in H. rewrite V in H. destruct (set_breakpoints _ v) as [[w ns]| |] eqn:E; try discriminate H. unfold set_breakpoints in E.
    destruct (bind_lines _ _) as [ns'| |] eqn:F; try discriminate E. cbn [bindr] in E. injection E as <- <-.
    exists ns'. split; [refine (proj1 (bind_nodup _ _ _ F _)); apply FinFun.Injective_map_NoDup; [intros x y; lia|exact N]|].
    unfold reply, done in H. injection H as _ _ <-. exists (set_bps ns' v). cbn. rewrite V. auto. }
  destruct K1 as [ns [Nn K1]].
  pose proof (converse_quiet en pick fuel _ _ _ rest Q s1 o1 s2 R1 K1 C) as K2. pose proof (converse_runs _ _ _ _ _ _ _ R1 C) as R2.
  pose proof (handle_quiet en pick fuel _ _ _ s2 (DRequest q' (RContinue a)) eq_refl R2 K2) as K3. rewrite H' in K3. destruct K3 as [w [W [Bw Lw]]].
  destruct K2 as [u [U _]]; rewrite U in R2; destruct R2 as [x [r [_ R2]]].
  assert (G : counted (v_listing w) (v_bps w) hits).
  { destruct a as [| |id]; [cbn [handle] in H'; injection H' as <- _; discriminate S| |]; cbn [handle] in H'; apply reply_split in H' as [o3 [H' St]]; rewrite St in S;
    (eapply continue_hits; [|exact R2|exact H'|exact W|exact S]; exact U). }
  rewrite Bw, Lw in G. destruct G as [i [m [E M]]]. exists i.
  assert (T : (times ns i <= 1)%nat) by (apply (proj1 (NoDup_count_occ Nat.eq_dec ns) Nn)).
  destruct m as [|[|[|m]]]; [exfalso; exact (Ne E)|left; exact E| |exfalso; lia].
  right. split; [exact E|]. destruct M as [M|[_ [k [e [-> [Hk Hn]]]]]]; [lia|]. split; [lia|].
  clear S. intros I. replace (Z.of_nat (S k) - 1) with (Z.of_nat k) in I by lia. destruct I as [_ [e' [He' X]]]. rewrite Nat2Z.id in He'. rewrite Hk in He'. injection He' as <-.
  destruct e; try discriminate Hn; exact X.
Qed.
(* breakpoints on lines 4 and 7, of which 7 is a label; two steps later the program stops at the first *)
Example C125_ex : exists o s n es s1 o1 s2,
  talk 100 [initialize; launch looping] = (o, Ret s) /\
  handle env0 choose 100 s (DRequest 3 (RSetBreakpoints (Args (here, [7; 4])))) = ([Response n 3 "setBreakpoints" (BBreakpoints es)], Ret s1) /\
  map (fun e => (db_id e, db_verified e)) es = [(6, false); (3, true)] /\
  forallb quiet [DRequest 4 (RNext (Args 0)); DRequest 5 (RNext (Args 0))] = true /\
  converse env0 choose 100 s1 [DRequest 4 (RNext (Args 0)); DRequest 5 (RNext (Args 0))] = (o1, Ret s2) /\
  stops (fst (handle env0 choose 100 s2 (DRequest 6 (RContinue (Args 0))))) = [EStopped ByBreakpoint (Some 0%nat) [3%nat]].
Proof. do 7 eexists. split; [vm_compute; reflexivity|]. split; [vm_compute; reflexivity|]. split; [reflexivity|]. split; [reflexivity|]. split; [vm_compute; reflexivity|]. vm_compute; reflexivity. Qed.
Print Assumptions C125_refuted.
Print Assumptions C125_partial.
Print Assumptions C125_twice.
