(* Next executes one instruction of the thread it names. *)
From Verif Require Import Base Expr Process Vm VmSpec VmInv VmThms TurnSpec TurnProofs PropTurn Dbg DbgSpec DbgProofs PropProcess PropDbg.

(* a next for a thread that has left the program executes an instruction of another one *)
Theorem C126_refuted : exists ms s o v p q id b o' s' v' j x x',
  after env0 choose 100 ms s o /\ s_vm s = Some (v, p) /\ has_branch v id b /\ exited b /\
  handle env0 choose 100 s (DRequest q (RNext (Args (Z.of_nat id)))) = (o', Ret s') /\ s_vm s' = Some (v', p) /\
  j <> id /\ has_branch v j x /\ has_branch v' j x' /\ b_trace x' = b_trace x ++ [IntExpr 3].
Proof.
  exists [launch ["#pragma version 8"; "int 1"; "bnz a"; "int 2"; "return"; "a:"; "int 3"]%string; DRequest 3 (RNext (Args 0%Z)); DRequest 4 (RNext (Args 0%Z));
    DRequest 5 (RNext (Args 0%Z)); DRequest 6 (RNext (Args 0%Z))].
  do 4 eexists. exists 7%Z, 0. do 4 eexists. exists 1. do 2 eexists.
  split; [vm_compute; reflexivity|]. split; [reflexivity|]. split; [split; [left; reflexivity|reflexivity]|]. split; [reflexivity|].
  split; [vm_compute; reflexivity|]. split; [reflexivity|]. split; [discriminate|].
  split; [split; [right; left; reflexivity|reflexivity]|]. split; [split; [right; left; reflexivity|reflexivity]|]. reflexivity.
Qed.

Lemma find_branch_at : forall l j i b, nth_error l j = Some b -> (forall k c, nth_error l k = Some c -> b_id c = i + k) -> find_branch i l (i + j) = Some (i + j).
Proof.
  induction l as [|c l IH]; intros j i b E H; [destruct j; discriminate|]. cbn [find_branch]. rewrite (H 0 c eq_refl). destruct j as [|j].
  - rewrite !Nat.add_0_r, Nat.eqb_refl. reflexivity.
  - destruct (Nat.eqb_spec (i + 0) (i + S j)); [lia|]. replace (i + S j) with (S i + j) by lia. eapply IH; [exact E|]. intros k d K. rewrite (H (S k) d K). lia.
Qed.
Lemma switch_turn l ver v id b : wf l ver v -> nth_error (v_branches v) id = Some b -> in_program l b ->
  exists i e, b_line b = Some i /\ nth_error l i = Some e /\ turn l (switch_z (Z.of_nat id) v) id b i e /\ v_branches (switch_z (Z.of_nat id) v) = v_branches v.
Proof.
  intros W E [i [L P]]. destruct (nth_error l i) as [e|] eqn:He; [|apply nth_error_None in He; lia]. exists i, e.
  split; [exact L|]. split; [exact He|]. unfold switch_z. destruct (Z.ltb_spec (Z.of_nat id) 0); [lia|]. rewrite Nat2Z.id. unfold switch_vm.
  assert (F : find_branch 0 (v_branches v) id = Some id) by (apply (find_branch_at (v_branches v) id 0 b E); intros k c K; rewrite (ids_nth _ _ _ _ _ W K); reflexivity).
  rewrite F.
  split; [|reflexivity]. assert (Hid : id < length (v_branches v)) by (apply nth_error_Some; congruence).
  constructor; cbn; [|exact E|exact L|exact He]. exists 0. rewrite Nat.add_0_r. split; [lia|]. split; [symmetry; apply Nat.mod_small; exact Hid|].
  split; [|intros d' c D; lia]. intros c C N. rewrite E in C. injection C as <-. apply N. exists i. auto.
Qed.
Lemma first_self over c l k b : first_from over c l k -> c < length l -> nth_error l c = Some b -> ~ over b -> k = c.
Proof.
  intros [d [D [K [_ F]]]] C E N. destruct d as [|d]; [rewrite K, Nat.add_0_r; apply Nat.mod_small; exact C|].
  exfalso. apply N. apply (F 0 b); [lia|]. rewrite Nat.add_0_r, Nat.mod_small by exact C. exact E.
Qed.

(* a next for a thread that is in the program executes its instruction, or finds that it cannot be paid for, or fails; it
   leaves the other threads alone, and the stop names the thread as long as it is in the program *)
Theorem C126_partial en pick fuel ms s o v p q id b o' s' :
  after en pick fuel ms s o -> s_vm s = Some (v, p) -> has_branch v id b -> in_program (v_listing v) b ->
  handle en pick fuel s (DRequest q (RNext (Args (Z.of_nat id)))) = (o', Ret s') ->
  exists v' b' i e, s_vm s' = Some (v', p) /\ has_branch v' id b' /\ on_line b i /\ nth_error (v_listing v) i = Some e /\
    (b_trace b' = b_trace b ++ [e] \/ b_trace b' = b_trace b /\ (exited b' \/ v_error v' = true)) /\
    (forall j x, has_branch v j x -> j <> id -> exists x', has_branch v' j x' /\ unmoved x x') /\
    (stops o' = [EStopped ByStep (Some id) []] \/ exited b' \/ stops o' = [EStopped ByException None []] /\ v_error v' = true).
Proof.
  intros A V [Hb Hid] P H. pose proof (after_runs _ _ _ _ _ _ A) as R. rewrite V in R. destruct R as [x [r [_ R]]].
  pose proof (reach_wf _ _ _ R) as W. rewrite (wf_listing _ _ _ W) in P |- *.
  apply In_nth_error in Hb as [k Hk]. pose proof (ids_nth _ _ _ _ _ W Hk) as Hi. assert (Kid : k = id) by congruence. clear Hi. subst k.
  destruct (switch_turn _ _ _ _ _ W Hk P) as [i [e [L [He [T Sb]]]]].
  cbn [handle] in H. apply reply_split in H as [o1 [H St]]. unfold advance in H. cbn [s_vm set_seq] in H. rewrite V in H.
  destruct (step (switch_z (Z.of_nat id) v)) as [v'| |] eqn:E; [|discriminate|discriminate].
  pose proof (C102_step _ _ _ v' _ _ _ _ (reach_switch _ _ (Z.of_nat id) _ R) T E) as [[b' [Hb' [Ib' C]]] O].
  assert (V' : s_vm s' = Some (v', p)).
  { cbv zeta in H. destruct (v_error v'); [unfold notify, done in H; injection H as _ <-; cbn; rewrite V; reflexivity|].
    unfold stopped in H. destruct (current_thread v'); try discriminate. unfold notify, done in H. injection H as _ <-. cbn. rewrite V. reflexivity. }
  exists v', b', i, e. split; [exact V'|]. split; [split; [eapply nth_error_In; exact Hb'|congruence]|]. split; [exact L|]. split; [exact He|].
  split; [destruct C as [[C _]|C]; auto|]. split.
  - intros j y [Hy Iy] N. apply In_nth_error in Hy as [k Ky]. pose proof (ids_nth _ _ _ _ _ W Ky) as Kj. assert (Kid : k = j) by congruence. clear Kj. subst k.
    rewrite <- Sb in Ky. destruct (O j y N Ky) as [y' [Y U]]. exists y'. split; [|exact U]. split; [eapply nth_error_In; exact Y|]. destruct U as [U _]. congruence.
  - rewrite St. cbv zeta in H. destruct (v_error v') eqn:Ee.
    + unfold notify, done in H. injection H as <- _. right; right. split; reflexivity.
    + destruct C as [[_ [C|C]]|[_ [C|C]]]; try discriminate; [|right; left; exact C].
      destruct (b_line b') as [i'|] eqn:Lb; [left|right; left; exact Lb].
      destruct (v_branch v') as [k'|] eqn:Bk.
      * assert (k' = id) by (eapply first_self; [exact C|apply nth_error_Some; congruence|exact Hb'|intros Q; unfold exited in Q; congruence]). subst k'.
        unfold stopped, current_thread in H. rewrite Bk in H. unfold index in H. rewrite Hb' in H. cbn [bindr] in H. unfold notify, done in H. injection H as <- _. cbn. congruence.
      * exfalso. specialize (C b' (nth_error_In _ _ Hb')). unfold exited in C. congruence.
Qed.
(* the search for a thread to step begins at the named one, or at the current one when there is no such thread *)
Definition begins (v : vm) (z : Z) (c : nat) : Prop :=
  (z = Z.of_nat c /\ c < length (v_branches v)) \/ ((z < 0 \/ Z.of_nat (length (v_branches v)) <= z)%Z /\ c = v_current v).
Lemma find_branch_none l : forall i n, (forall k c, nth_error l k = Some c -> b_id c = i + k) -> i + length l <= n -> find_branch i l n = None.
Proof.
  induction l as [|c l IH]; intros i n H L; [reflexivity|]. cbn [find_branch length] in *. rewrite (H 0 c eq_refl).
  destruct (Nat.eqb_spec (i + 0) n); [lia|]. apply IH; [|lia]. intros k d K. rewrite (H (S k) d K). lia.
Qed.
Lemma switch_begins l ver v z : wf l ver v -> begins v z (v_current (switch_z z v)) /\ v_branches (switch_z z v) = v_branches v.
Proof.
  intros W. unfold begins, switch_z. destruct (Z.ltb_spec z 0) as [N|P]; [split; [right; auto|reflexivity]|]. unfold switch_vm.
  assert (F : forall k c, nth_error (v_branches v) k = Some c -> b_id c = 0 + k) by (intros k c K; rewrite (ids_nth _ _ _ _ _ W K); reflexivity).
  destruct (nth_error (v_branches v) (Z.to_nat z)) as [b|] eqn:E.
  - pose proof (find_branch_at _ _ 0 b E F) as G. cbn [Nat.add] in G. rewrite G. cbn. split; [left|reflexivity]. split; [lia|]. apply nth_error_Some. congruence.
  - apply nth_error_None in E. rewrite (find_branch_none _ 0 (Z.to_nat z) F) by (cbn; lia). split; [right; split; [lia|reflexivity]|reflexivity].
Qed.
(* whatever thread is named, one instruction is executed of the first thread in the program, around the ring from there; or
   no thread is in the program, and nothing happens to any *)
Theorem C126_exact en pick fuel ms s o v p q z o' s' :
  after en pick fuel ms s o -> s_vm s = Some (v, p) -> handle en pick fuel s (DRequest q (RNext (Args z))) = (o', Ret s') ->
  exists v' c, s_vm s' = Some (v', p) /\ begins v z c /\
  ((exists k b b' i e, first_from (fun b => ~ in_program (v_listing v) b) c (v_branches v) k /\
      nth_error (v_branches v) k = Some b /\ on_line b i /\ nth_error (v_listing v) i = Some e /\ nth_error (v_branches v') k = Some b' /\
      (b_trace b' = b_trace b ++ [e] \/ b_trace b' = b_trace b /\ (exited b' \/ v_error v' = true)) /\
      forall j x, j <> k -> nth_error (v_branches v) j = Some x -> exists x', nth_error (v_branches v') j = Some x' /\ unmoved x x') \/
   (forall b, In b (v_branches v) -> ~ in_program (v_listing v) b) /\ Forall2 unmoved (v_branches v) (v_branches v')).
Proof.
  intros A V H. pose proof (after_runs _ _ _ _ _ _ A) as R. rewrite V in R. destruct R as [x [r [_ R]]].
  pose proof (reach_wf _ _ _ R) as W. rewrite (wf_listing _ _ _ W).
  cbn [handle] in H. apply reply_split in H as [o1 [H _]]. unfold advance in H. cbn [s_vm set_seq] in H. rewrite V in H.
  destruct (step (switch_z z v)) as [v'| |] eqn:E; [|discriminate|discriminate].
  assert (V' : s_vm s' = Some (v', p)).
  { cbv zeta in H. destruct (v_error v'); [unfold notify, done in H; injection H as _ <-; cbn; rewrite V; reflexivity|].
    unfold stopped in H. destruct (current_thread v'); try discriminate. unfold notify, done in H. injection H as _ <-. cbn. rewrite V. reflexivity. }
  destruct (switch_begins _ _ _ z W) as [B Sb]. pose proof (reach_switch _ _ z _ R) as R'.
  exists v', (v_current (switch_z z v)). split; [exact V'|]. split; [exact B|].
  destruct (C102_turn _ _ _ R') as [[k [b [i [e T]]]]|[O [w [Ew [_ U]]]]].
  - left. destruct (C102_step _ _ _ v' _ _ _ _ R' T E) as [[b' [Hb' [_ C]]] O]. destruct T as [T1 T2 T3 T4]. rewrite Sb in T1, T2, O.
    exists k, b, b', i, e. split; [exact T1|]. split; [exact T2|]. split; [exact T3|]. split; [exact T4|]. split; [exact Hb'|].
    split; [destruct C as [[C _]|C]; auto|exact O].
  - right. rewrite E in Ew. injection Ew as <-. rewrite Sb in O, U. split; [exact O|exact U].
Qed.
(* the second of two threads is stepped, and the stop names it *)
Example C126_ex : exists s o v p b,
  after env0 choose 100 [launch ["#pragma version 8"; "int 1"; "bnz a"; "int 2"; "return"; "a:"; "int 3"; "int 4"]%string; DRequest 3 (RNext (Args 0%Z)); DRequest 4 (RNext (Args 0%Z))] s o /\
  s_vm s = Some (v, p) /\ has_branch v 1 b /\ in_program (v_listing v) b /\
  stops (fst (handle env0 choose 100 s (DRequest 5 (RNext (Args 1%Z))))) = [EStopped ByStep (Some 1) []].
Proof.
  do 5 eexists. split; [vm_compute; reflexivity|]. split; [reflexivity|]. split; [split; [right; left; reflexivity|reflexivity]|].
  split; [eexists; split; [reflexivity|cbn; lia]|]. vm_compute. reflexivity.
Qed.
(* a thread that does not exist: the current one is stepped; at the end nothing is *)
Example C126_unknown : exists s o v p, after env0 choose 100 [launch ["int 1"; "int 2"]%string; DRequest 3 (RNext (Args 9%Z))] s o /\
  s_vm s = Some (v, p) /\ map b_trace (v_branches v) = [[IntExpr 1]] /\ begins v 9 0 /\
  exists s2 o2 v2, after env0 choose 100 [launch ["int 1"; "int 2"]%string; DRequest 3 (RNext (Args 9%Z)); DRequest 4 (RNext (Args 0%Z)); DRequest 5 (RNext (Args 0%Z))] s2 o2 /\
  s_vm s2 = Some (v2, p) /\ map b_trace (v_branches v2) = [[IntExpr 1; IntExpr 2]].
Proof.
  do 4 eexists. split; [vm_compute; reflexivity|]. split; [reflexivity|]. split; [reflexivity|]. split; [right; split; [right; cbn; lia|reflexivity]|].
  do 3 eexists. split; [vm_compute; reflexivity|]. split; [reflexivity|]. reflexivity.
Qed.
Print Assumptions C126_refuted.
Print Assumptions C126_partial.
Print Assumptions C126_exact.
