(* C119: continuing is stepping until there is a reason to stop. *)
From Verif Require Import Base Expr Process PropProcess Vm VmSpec VmInv VmThms VmSim Dbg DbgSpec DbgProofs PropDbg.

(* the machine of the session *)
Definition machine (s : session) (v : vm) : Prop := exists p, s_vm s = Some (v, p).
(* the branch the machine is at *)
Definition at_branch (v : vm) (b : branch) : Prop := exists k, v_branch v = Some k /\ nth_error (v_branches v) k = Some b.
(* the program is over, an instruction failed or a breakpoint was hit *)
Definition over (v : vm) : Prop := v_branch v = None \/ v_error v = true.
Definition has_reason (v : vm) : Prop := over v \/ v_trig v <> [].

(* next is sent for the thread the machine is at, n times, until there is a reason to stop *)
Inductive pressed (en : env) (pick : list nat -> nat) (fuel : nat) (s : session) : nat -> session -> Prop :=
| pressed_over v : machine s v -> over v -> pressed en pick fuel s 0 s
| pressed_stop q v b out s' v' : machine s v -> ~ over v -> at_branch v b ->
    handle en pick fuel s (DRequest q (RNext (Args (Z.of_nat (b_id b))))) = (out, Ret s') -> machine s' v' -> has_reason v' ->
    pressed en pick fuel s 1 s'
| pressed_more q v b out s' v' n s'' : machine s v -> ~ over v -> at_branch v b ->
    handle en pick fuel s (DRequest q (RNext (Args (Z.of_nat (b_id b))))) = (out, Ret s') -> machine s' v' -> ~ has_reason v' ->
    pressed en pick fuel s' n s'' -> pressed en pick fuel s (S n) s''.

Lemma find_at bs k : forall i, map b_id bs = seq i (length bs) -> k < length bs -> find_branch i bs (i + k) = Some (i + k).
Proof.
  revert k. induction bs as [|b bs IH]; intros k i E L; [inversion L|]. cbn in E. injection E as Eb E. cbn [find_branch].
  destruct k as [|k].
  - rewrite Nat.add_0_r, Eb, Nat.eqb_refl. reflexivity.
  - destruct (Nat.eqb_spec (b_id b) (i + S k)); [lia|]. replace (i + S k) with (S i + k) by lia. apply IH; [exact E|cbn in L; lia].
Qed.

(* going to the branch the machine is at changes nothing *)
Lemma switch_here l ver v b : reach l ver v -> at_branch v b -> switch_z (Z.of_nat (b_id b)) v = v.
Proof.
  intros R (k & K & B). pose proof (reach_wf _ _ _ R) as W. pose proof (wf_branch _ _ _ W) as Q. rewrite K in Q. subst k.
  assert (Id : b_id b = v_current v).
  { pose proof (wf_ids _ _ _ W) as I. assert (N : nth_error (map b_id (v_branches v)) (v_current v) = Some (b_id b)) by (rewrite nth_error_map, B; reflexivity).
    rewrite I in N. rewrite (nth_error_nth' _ 0) in N by (rewrite seq_length; apply (wf_cur _ _ _ W)). injection N as <-. rewrite seq_nth by apply (wf_cur _ _ _ W). reflexivity. }
  unfold switch_z. destruct (Z.ltb_spec (Z.of_nat (b_id b)) 0); [lia|]. rewrite Nat2Z.id, Id. unfold switch_vm.
  pose proof (find_at (v_branches v) (v_current v) 0 (wf_ids _ _ _ W) (wf_cur _ _ _ W)) as F. cbn [plus] in F. rewrite F. clear F.
  destruct v. unfold set_branch, set_current. cbn in *. rewrite K. reflexivity.
Qed.

Lemma at_some l ver v : reach l ver v -> ~ over v -> exists b, at_branch v b.
Proof.
  intros R N. destruct (v_branch v) as [k|] eqn:K; [|exfalso; apply N; left; exact K].
  pose proof (reach_wf _ _ _ R) as W. pose proof (wf_branch _ _ _ W) as Q. rewrite K in Q.
  destruct (nth_error (v_branches v) k) as [b|] eqn:B; [exists b, k; auto|]. apply nth_error_None in B. pose proof (wf_cur _ _ _ W). lia.
Qed.

Lemma current_fine l ver v : reach l ver v -> exists t, current_thread v = Ret t.
Proof.
  intros R. unfold current_thread. pose proof (reach_wf _ _ _ R) as W. pose proof (wf_branch _ _ _ W) as Q. pose proof (wf_cur _ _ _ W) as C.
  destruct (v_branch v) as [k|]; [|eexists; reflexivity]. subst k. unfold index.
  destruct (nth_error (v_branches v) (v_current v)) eqn:B; [cbn; eexists; reflexivity|]. apply nth_error_None in B. lia.
Qed.

(* what a next for that thread does *)
Lemma next_steps en pick fuel l ver s q v b : reach l ver v -> machine s v -> at_branch v b ->
  match step v with
  | Ret v' => exists out s', handle en pick fuel s (DRequest q (RNext (Args (Z.of_nat (b_id b))))) = (out, Ret s') /\ machine s' v' /\
      forall p, s_vm s = Some (v, p) -> s_vm s' = Some (v', p)
  | Panic => False
  | OutOfFuel => exists out, handle en pick fuel s (DRequest q (RNext (Args (Z.of_nat (b_id b))))) = (out, OutOfFuel)
  end.
Proof.
  intros R [p M] A. cbn [handle]. unfold reply, advance. cbn [set_seq s_vm]. rewrite M, (switch_here l ver v b R A).
  destruct (step v) as [v'| |] eqn:E.
  - assert (R' : reach l ver v') by (eapply reach_command; [exact R|apply cmd_step; exact E]).
    destruct (current_fine l ver v' R') as [t T]. unfold stopped, set_machine. rewrite T. unfold notify, done, set_seq. cbn [s_seq s_lz s_cz s_vm]. rewrite M.
    destruct (v_error v'); do 2 eexists; (split; [reflexivity|]); (split; [eexists; reflexivity|]); intros p' Hp; injection Hp as <-; reflexivity.
  - exact (step_no_panic l ver v (reach_wf _ _ _ R) E).
  - eexists. reflexivity.
Qed.

Lemma over_dec v : over v \/ ~ over v.
Proof. unfold over. destruct (v_branch v), (v_error v); intuition congruence. Qed.
Lemma reason_dec v : has_reason v \/ ~ has_reason v.
Proof. unfold has_reason. destruct (over_dec v) as [O|O]; [left; left; exact O|]. destruct (v_trig v) eqn:T; [right; intros [H|H]; congruence|left; right; discriminate]. Qed.

Lemma run_over fuel v : over v -> run_vm fuel v = Ret v.
Proof. intros [E|E]; destruct fuel; cbn [run_vm]; rewrite E; try reflexivity; destruct (v_branch v); reflexivity. Qed.
Lemma run_on fuel v : ~ over v -> run_vm fuel v = match fuel with 0 => OutOfFuel | S fuel => letr v := step v in match v_trig v with [] => run_vm fuel v | _ :: _ => Ret v end end.
Proof.
  intros N. destruct fuel; cbn [run_vm]; destruct (v_branch v) eqn:B; try (exfalso; apply N; left; exact B);
    destruct (v_error v) eqn:E; try (exfalso; apply N; right; exact E); reflexivity.
Qed.

Lemma run_pressed en pick g l ver : forall fuel s v v' p, reach l ver v -> s_vm s = Some (v, p) -> run_vm fuel v = Ret v' ->
  exists n s', n <= fuel /\ pressed en pick g s n s' /\ s_vm s' = Some (v', p).
Proof.
  induction fuel as [|fuel IH]; intros s v v' p R M E; (destruct (over_dec v) as [O|O]; [rewrite (run_over _ _ O) in E; injection E as <-; exists 0, s; split; [lia|]; split; [eapply pressed_over; [exists p; exact M|exact O]|exact M]|]);
    rewrite (run_on _ _ O) in E; [discriminate|].
  destruct (at_some l ver v R O) as [b A]. assert (H := next_steps en pick g l ver s 0%Z v b R (ex_intro _ p M) A).
  destruct (step v) as [v1| |] eqn:Es; [|contradiction|discriminate]. cbn [bindr] in E. destruct H as (out & s1 & Eh & M1 & K). specialize (K p M).
  assert (R1 : reach l ver v1) by (eapply reach_command; [exact R|apply cmd_step; exact Es]).
  destruct (reason_dec v1) as [Re|Re].
  - assert (v' = v1) as ->.
    { destruct (v_trig v1) eqn:T; [|congruence]. destruct Re as [Re|Re]; [|contradiction]. rewrite (run_over _ _ Re) in E. congruence. }
    exists 1, s1. split; [lia|]. split; [|exact K]. eapply pressed_stop; [exists p; exact M|exact O|exact A|exact Eh|exact M1|exact Re].
  - assert (T : v_trig v1 = []) by (destruct (v_trig v1) eqn:T; [reflexivity|exfalso; apply Re; right; rewrite T; discriminate]). rewrite T in E.
    destruct (IH s1 v1 v' p R1 K E) as (n & s' & L & P & Hs). exists (S n), s'. split; [lia|]. split; [|exact Hs].
    eapply pressed_more; [exists p; exact M|exact O|exact A|exact Eh|exact M1|exact Re|exact P].
Qed.

Lemma machine_fun s v w : machine s v -> machine s w -> v = w.
Proof. intros [p A] [q B]. congruence. Qed.

Lemma pressed_run en pick g l ver s n s' : pressed en pick g s n s' -> forall v, machine s v -> reach l ver v ->
  exists v', machine s' v' /\ has_reason v' /\ forall fuel, n <= fuel -> run_vm fuel v = Ret v'.
Proof.
  induction 1 as [s v M O|s q v b out s' v' M O A E M' Re|s q v b out s' v' n s'' M O A E M' Re P IH]; intros w W R; pose proof (machine_fun _ _ _ M W) as <-.
  - exists v. split; [exact M|]. split; [left; exact O|]. intros fuel _. exact (run_over fuel v O).
  - assert (H := next_steps en pick g l ver s q v b R M A). destruct (step v) as [v1| |] eqn:Es; [|contradiction|destruct H as [o H]; congruence].
    destruct H as (out1 & s1 & E1 & M1 & _). rewrite E in E1. injection E1 as <- <-. pose proof (machine_fun _ _ _ M' M1) as ->.
    exists v1. split; [exact M1|]. split; [exact Re|]. intros [|fuel] L; [lia|]. rewrite (run_on _ _ O), Es. cbn [bindr].
    destruct (v_trig v1) eqn:T; [|reflexivity]. destruct Re as [Re|Re]; [exact (run_over _ _ Re)|contradiction].
  - assert (H := next_steps en pick g l ver s q v b R M A). destruct (step v) as [v1| |] eqn:Es; [|contradiction|destruct H as [o H]; congruence].
    destruct H as (out1 & s1 & E1 & M1 & _). rewrite E in E1. injection E1 as <- <-. pose proof (machine_fun _ _ _ M' M1) as ->.
    assert (R1 : reach l ver v1) by (eapply reach_command; [exact R|apply cmd_step; exact Es]).
    destruct (IH v1 M1 R1) as (v2 & M2 & Re2 & F). exists v2. split; [exact M2|]. split; [exact Re2|]. intros [|fuel] L; [lia|].
    rewrite (run_on _ _ O), Es. cbn [bindr]. destruct (v_trig v1) eqn:T; [apply F; lia|]. exfalso. apply Re. right. rewrite T. discriminate.
Qed.

(* a continue for any thread leaves the machine where pressing next leaves it *)
Theorem C119 en pick fuel ms o s q id v p out s' : after en pick fuel ms s o -> s_vm s = Some (v, p) ->
  handle en pick fuel s (DRequest q (RContinue (Args id))) = (out, Ret s') ->
  exists n s'', n <= fuel /\ pressed en pick fuel s n s'' /\ s_vm s' = s_vm s''.
Proof.
  intros Af M E. pose proof (after_runs _ _ _ _ _ _ Af) as R0. rewrite M in R0. destruct R0 as (src & r & _ & R). set (l := r_listing r) in R. set (ver := r_version r) in R.
  cbn [handle] in E. unfold reply, resume in E. cbn [set_seq s_vm] in E. rewrite M in E.
  destruct (run_vm fuel v) as [v'| |] eqn:Er; [|discriminate|discriminate].
  destruct (run_pressed en pick fuel l ver fuel s v v' p R M Er) as (n & s'' & L & P & Hs). exists n, s''. split; [exact L|]. split; [exact P|]. rewrite Hs.
  unfold set_machine, notify, done, set_seq in E. cbn [s_vm s_seq s_lz s_cz] in E. rewrite ?M in E.
  destruct (v_error v'); [injection E as _ <-; reflexivity|].
  destruct (v_trig v'); [destruct (v_branch v')|]; injection E as _ <-; reflexivity.
Qed.
Print Assumptions C119.

(* and the other way round: if pressing next comes to a reason to stop, so does continue, at the same state *)
Theorem C119_back en pick fuel ms o s q id v p n s'' : after en pick fuel ms s o -> s_vm s = Some (v, p) ->
  pressed en pick fuel s n s'' -> n <= fuel ->
  exists out s', handle en pick fuel s (DRequest q (RContinue (Args id))) = (out, Ret s') /\
    (exists v', machine s' v' /\ machine s'' v' /\ has_reason v').
Proof.
  intros Af M P L. pose proof (after_runs _ _ _ _ _ _ Af) as R0. rewrite M in R0. destruct R0 as (src & r & _ & R). set (l := r_listing r) in R. set (ver := r_version r) in R.
  destruct (pressed_run en pick fuel l ver s n s'' P v (ex_intro _ p M) R) as (v' & M' & Re & F). specialize (F fuel L).
  cbn [handle]. unfold reply, resume. cbn [set_seq s_vm]. rewrite M, F. unfold set_machine, notify, done, set_seq. cbn [s_vm s_seq s_lz s_cz]. rewrite ?M.
  destruct (v_error v'); [do 2 eexists; split; [reflexivity|]; exists v'; split; [eexists; reflexivity|auto]|].
  destruct (v_trig v'); [destruct (v_branch v')|]; do 2 eexists; (split; [reflexivity|]); exists v'; (split; [eexists; reflexivity|auto]).
Qed.
Print Assumptions C119_back.

(* a run to a breakpoint, and the same by hand: four nexts *)
Definition paused : list dmessage := [launch looping; DRequest 3 (RSetBreakpoints (Args (here, [4%Z])))].
Definition vm_after (ms : list dmessage) : option vm :=
  match talk 100 ms with (_, Ret s) => option_map fst (s_vm s) | _ => None end.
Definition next_0 : dmessage := DRequest 5 (RNext (Args 0%Z)).
Example C119_ex : exists v w,
  vm_after (paused ++ [DRequest 4 (RContinue (Args 0%Z))]) = Some v /\ v_trig v <> [] /\
  vm_after (paused ++ [next_0]) = Some w /\ ~ has_reason w /\
  vm_after (paused ++ repeat next_0 4) = Some v.
Proof. do 2 eexists. split; [vm_compute; reflexivity|]. split; [vm_compute; discriminate|]. split; [vm_compute; reflexivity|]. split; [vm_compute; intuition congruence|vm_compute; reflexivity]. Qed.
