(* C82: the debugger shows every state of every real execution. *)
From Verif Require Import Base Expr Fields VmOps Vm VmProofs VmSkip VmStep VmExec VmSpec VmInv VmThms VmSim
  VmFlow LangSpec RealSpec RealProofs RealThms.
From Coq Require Import ZifyBool ZifyNat ZifyN.

(* a complete session that does not show what a real execution does *)
Definition misses (slots : bool) (l : listing) : Prop :=
  exists w ver v0 v c, lawful w /\ new_vm l ver = Ret v0 /\ session v0 v /\ v_branch v = None /\
    goes w l (fun _ _ => True) beginning c /\
    ~ shown w slots l v0 v c /\ forall c1, ~ given_up w slots l ver v0 v c1.

(* a world in which no instruction that asks it succeeds *)
Definition no_world : world := World (fun _ _ _ => False) (fun _ => []).

Lemma no_world_lawful : lawful no_world.
Proof. intros e args res []. Qed.

(* ------------------------------------------------------------------------------------------ *)
(* all states of the sessions with a small program *)
Definition closed (ss : list vm) : Prop :=
  forall s, In s ss ->
    (forall s', step s = Ret s' -> v_error s' = false -> exists t, In t ss /\ sim s' t) /\
    (forall id, exists t, In t ss /\ sim (switch_vm id s) t).

Lemma switch_sim id v v' : sim v v' -> sim (switch_vm id v) (switch_vm id v').
Proof.
  intros S. unfold switch_vm. assert (Eb : v_branches v = v_branches v') by apply S. rewrite <- Eb.
  destruct (find_branch 0 (v_branches v) id); [|exact S].
  unfold sim in *. cbn. intuition.
Qed.

Lemma session_in ss v0 v : closed ss -> In v0 ss -> session v0 v -> exists s, In s ss /\ sim v s.
Proof.
  intros C H0 S. induction S as [|v1 v2 S IH E R|v1 id S IH|v1 lns v2 ns S IH E].
  - exists v0. split; [exact H0|apply sim_refl].
  - destruct IH as [s [Hs Q]]. pose proof (step_sim _ _ Q) as X. rewrite E in X.
    destruct (step s) as [s'| |] eqn:Es; try contradiction. cbn in X.
    destruct (proj1 (C s Hs) s' Es) as [t [Ht Qt]].
    { unfold sim in X. rewrite <- R. symmetry. tauto. }
    exists t. split; [exact Ht|]. eapply sim_trans; eauto.
  - destruct IH as [s [Hs Q]]. destruct (proj2 (C s Hs) id) as [t [Ht Qt]].
    exists t. split; [exact Ht|]. eapply sim_trans; [apply switch_sim; exact Q|exact Qt].
  - destruct IH as [s [Hs Q]]. exists s. split; [exact Hs|].
    eapply sim_trans; [|exact Q]. unfold set_breakpoints in E.
    destruct (bind_lines _ _); try discriminate. injection E as <- _. repeat split.
Qed.

Fixpoint click (n : nat) (v : vm) : vm :=
  match n with
  | 0 => v
  | S n => match step v with Ret v' => click n v' | _ => v end
  end.

Fixpoint clean (n : nat) (v : vm) : bool :=
  match n with
  | 0 => true
  | S n => match step v with Ret v' => negb (v_error v') && clean n v' | _ => false end
  end.

Lemma click_session n : forall v, clean n v = true -> session v (click n v).
Proof.
  induction n as [|n IH]; intros v H; cbn [clean click] in *; [apply session_now|].
  destruct (step v) as [v'| |] eqn:E; try discriminate.
  apply andb_prop in H. destruct H as [H1 H2].
  eapply session_trans; [|apply IH; exact H2].
  eapply session_step; [apply session_now|exact E|]. destruct (v_error v'); [discriminate|reflexivity].
Qed.

Definition started (l : listing) : vm :=
  match new_vm l 8 with Ret v => v | _ => Vm 0 [] 0 [] [] None 0 [] [] false end.

(* enough to tell the states of the programs below apart *)
Definition key (v : vm) : list nat :=
  let line x := match x with Some i => S i | None => 0 end in
  line (v_branch v) :: v_current v :: map (fun b => line (b_line b)) (v_branches v).

Definition same_key (v v' : vm) : bool := if list_eq_dec Nat.eq_dec (key v) (key v') then true else false.

Fixpoint explore (fuel : nat) (todo done : list vm) : list vm :=
  match fuel, todo with
  | S fuel, s :: r =>
      if existsb (same_key s) done then explore fuel r done
      else explore fuel
             (match step s with Ret s' => if v_error s' then [] else [s'] | _ => [] end ++
              map (fun b => switch_vm (b_id b) s) (v_branches s) ++ r) (done ++ [s])
  | _, _ => done
  end.

Ltac pick ss n :=
  match n with
  | O => fail
  | S ?m => first [ exists (nth m ss (started [])); split;
                      [apply nth_In; apply Nat.ltb_lt; reflexivity|vm_compute; repeat split; reflexivity]
                  | pick ss m ]
  end.

(* the states are those listed *)
Ltac close ss n :=
  intros s H; unfold ss in H;
  repeat (destruct H as [<-|H];
    [split;
      [intros s' E Er; vm_compute in E; first [discriminate|injection E as <-]; first [discriminate|pick ss n]
      |intros [|[|id]]; pick ss n]|]);
  destruct H.

(* some branch at some time of a session *)
Ltac anywhere ss closed_ S1 Hb :=
  let s := fresh "s" in let Hs := fresh "Hs" in let Q := fresh "Q" in
  destruct (session_in ss _ _ closed_ (or_introl eq_refl) S1) as [s [Hs Q]];
  apply proj2, proj2, proj2, proj2, proj1 in Q; rewrite Q in Hb; clear Q S1;
  unfold ss in Hs;
  repeat (destruct Hs as [<-|Hs]; [repeat (destruct Hb as [<-|Hb]; [|]); try (destruct Hb; fail)|]);
  try (destruct Hs; fail).

(* the last instruction of an execution *)
Ltac back st e :=
  apply (goes_on _ _ _ _ st _ e); [|reflexivity|first [exact I|reflexivity|cbn; lia]|].

(* nobody runs out of budget *)
Ltac solvent ss closed_ :=
  let c1 := fresh "c1" in
  intros c1 [v1 [b [i [e [cost [S1 [_ [Hb [_ [Ho [He [Hc Hlt]]]]]]]]]]]];
  unfold on_line in Ho;
  anywhere ss closed_ S1 Hb; cbn in Ho; try discriminate; injection Ho as <-; cbn in He; injection He as <-;
  cbn in Hc, Hlt; destruct Hc as [Hc|[Hc ->]]; try discriminate; try injection Hc as <-; lia.

(* pushints 1 *)
Definition one_int : listing := [PushIntsExpr [1%N]].
Definition one_int_states : list vm := Eval vm_compute in explore 50 [started one_int] [].
Lemma one_int_closed : closed one_int_states.
Proof. close one_int_states 3. Qed.

Theorem C82_pushints_refuted : misses false one_int.
Proof.
  exists no_world, 8%N, (started one_int), (click 1 (started one_int)).
  exists (Real 1 [CInt 1] [] (fun _ => CInt 0)).
  split; [exact no_world_lawful|]. split; [vm_compute; reflexivity|].
  split; [apply click_session; vm_compute; reflexivity|].
  split; [reflexivity|].
  split.
  { eapply goes_on; [apply goes_now|reflexivity|exact I|].
    apply (i_constants no_world one_int (PushIntsExpr [1%N]) 0 [CInt 1] []). reflexivity. }
  split.
  - intros [v1 [b [S1 [_ [Hb [_ [D _]]]]]]]. cbn [c_stack] in D.
    anywhere one_int_states one_int_closed S1 Hb; cbn [b_stack] in D; inversion D; subst.
    all: match goal with H : describes _ _ _ _ |- _ => inversion H; subst; contradiction end.
  - solvent one_int_states one_int_closed.
Qed.
Print Assumptions C82_pushints_refuted.

(* load 0: slots hold 0 at first, the debugger says that they hold nothing *)
Definition one_load : listing := [LoadExpr 0].
Definition one_load_states : list vm := Eval vm_compute in explore 50 [started one_load] [].
Lemma one_load_closed : closed one_load_states.
Proof. close one_load_states 3. Qed.

Theorem C82_load_refuted : misses true one_load.
Proof.
  exists no_world, 8%N, (started one_load), (click 1 (started one_load)).
  exists (Real 1 [CInt 0] [] (fun _ => CInt 0)).
  split; [exact no_world_lawful|]. split; [vm_compute; reflexivity|].
  split; [apply click_session; vm_compute; reflexivity|].
  split; [reflexivity|].
  split.
  { eapply goes_on; [apply goes_now|reflexivity|exact I|].
    apply (i_load no_world one_load 0 0 [] [] (fun _ => CInt 0)). }
  split.
  - intros [v1 [b [S1 [_ [Hb [_ [D _]]]]]]]. cbn [c_stack] in D.
    anywhere one_load_states one_load_closed S1 Hb; cbn [b_stack] in D; inversion D; subst.
    all: match goal with H : describes _ _ _ _ |- _ => inversion H; subst; try discriminate end.
    all: match goal with H : describes _ _ (Val TNone None) _ |- _ => inversion H; subst; contradiction end.
  - solvent one_load_states one_load_closed.
Qed.
Print Assumptions C82_load_refuted.

(* callsub f; int 1; return; f: int 0; bz g; err; g: retsub *)
Definition jump_in_sub : listing :=
  [CallSubExpr (bs "f"); IntExpr 1; ReturnExpr; LabelExpr (bs "f"); IntExpr 0; BzExpr (bs "g"); ErrExpr;
   LabelExpr (bs "g"); RetSubExpr].
Definition jump_in_sub_states : list vm := Eval vm_compute in explore 500 [started jump_in_sub] [].
Lemma jump_in_sub_closed : closed jump_in_sub_states.
Proof. close jump_in_sub_states 13. Qed.

Theorem C82_branch_in_subroutine_refuted : misses false jump_in_sub.
Proof.
  exists no_world, 8%N, (started jump_in_sub), (click 5 (started jump_in_sub)).
  exists (Real 7 [] [Call 0 0 None] (fun _ => CInt 0)).
  split; [exact no_world_lawful|]. split; [vm_compute; reflexivity|].
  split; [apply click_session; vm_compute; reflexivity|].
  split; [reflexivity|].
  assert (T : forall t i, find jump_in_sub t = Some i -> target jump_in_sub t (Some i)).
  { intros t i E. rewrite <- E. apply find_target. }
  split.
  { set (m := fun _ : N => CInt 0).
    back (Real 5 [CInt 0] [Call 0 0 None] m) (BzExpr (bs "g")); [|apply i_bz_taken, T; reflexivity].
    back (Real 4 [] [Call 0 0 None] m) (IntExpr 0);
      [|apply (i_constants no_world jump_in_sub (IntExpr 0) 4 [CInt 0] []); reflexivity].
    back (Real 3 [] [Call 0 0 None] m) (LabelExpr (bs "f")); [|apply i_nop; reflexivity].
    back beginning (CallSubExpr (bs "f"));
      [|apply (i_callsub no_world jump_in_sub (bs "f") 0 3), T; reflexivity].
    apply goes_now. }
  split.
  - intros [v1 [b [S1 [_ [Hb [A [_ D]]]]]]]. cbn [c_calls c_line] in *.
    destruct A as [j [Hj [Hm A]]].
    assert (j = 8) as ->.
    { destruct j as [|[|[|[|[|[|[|[|[|j]]]]]]]]]; try lia; try reflexivity.
      - cbn in A. destruct A; discriminate.
      - destruct (Hm 8) as [e [He Hn]]; [lia|]. cbn in He. injection He as <-. discriminate. }
    cbn in A. destruct A as [_ A]. unfold on_line in A.
    anywhere jump_in_sub_states jump_in_sub_closed S1 Hb; cbn in A; try discriminate; inversion D.
  - solvent jump_in_sub_states jump_in_sub_closed.
Qed.
Print Assumptions C82_branch_in_subroutine_refuted.

(* ------------------------------------------------------------------------------------------ *)
(* What holds: in a session without failing instructions that goes on until nothing is left to
   execute, every state of every real execution is shown by a branch, unless the branch that
   shows an earlier state of that execution runs out of budget there.  Missing: executions that
   pass the instructions and states excluded by followed. *)
Theorem C82_partial : forall w slots l ver v0 v c,
  lawful w -> new_vm l ver = Ret v0 -> session v0 v -> v_branch v = None ->
  goes w l (followed slots) beginning c ->
  shown w slots l v0 v c \/
  exists c1, goes w l (followed slots) beginning c1 /\ goes w l (followed slots) c1 c /\
    given_up w slots l ver v0 v c1.
Proof.
  intros w slots l ver v0 v c Lw E S End G.
  eapply real_shown; eauto using new_wf. eapply beginning_shown; eauto.
Qed.
Print Assumptions C82_partial.

(* txn Fee; dup; bnz a; store 1; int 3; b end; a: byte 0x61; sha256; pop; end: itob *)
Definition both_ways : listing :=
  [TxnExpr 1; Op0 DupExpr; BnzExpr (bs "a"); StoreExpr 1; IntExpr 3; BExpr (bs "end"); LabelExpr (bs "a");
   ByteExpr (bs "a") 0; Op0 Sha256Expr; Op0 PopExpr; LabelExpr (bs "end"); Op0 ItobExpr].

(* a world in which the fee is 5, sha256 gives 32 bytes, and itob works *)
Definition small_world : world :=
  World (fun e args res =>
    (e = TxnExpr 1 /\ args = [] /\ res = [CInt 5]) \/
    (exists b, e = Op0 Sha256Expr /\ args = [CBytes b] /\ res = [CBytes (repeat "000"%char 32)]) \/
    (exists n, e = Op0 ItobExpr /\ args = [CInt n] /\ res = [CBytes (bs "12345678")]))
  (fun _ => bs "1234").

Lemma small_world_lawful : lawful small_world.
Proof.
  intros e args res [[-> [-> ->]]|[[b [-> [-> ->]]]|[n [-> [-> ->]]]]].
  - exists [], [TAny]. repeat split; repeat constructor.
    intros specs f s c rest H Hs Hr. injection H as <- <-. vm_compute in Hs. injection Hs as <-.
    injection Hr as <- <-. exact I.
  - exists [TBytes], [TBytes]. repeat split; repeat constructor. discriminate.
  - exists [TUint64], [TBytes]. repeat split; repeat constructor. discriminate.
Qed.

(* the execution that jumps goes through sha256 and ends with the eight bytes on the stack; the
   session goes through both ways *)
Example C82_nonvacuous : exists v0 v,
  lawful small_world /\ new_vm both_ways 8 = Ret v0 /\ session v0 v /\ v_branch v = None /\
  (exists m, goes small_world both_ways (followed true) beginning
     (Real 9 [CBytes (repeat "000"%char 32); CInt 5] [] m)) /\
  (exists m, goes small_world both_ways (followed true) beginning (Real 12 [CBytes (bs "12345678")] [] m)) /\
  length (v_branches v) = 2.
Proof.
  exists (started both_ways), (click 11 (started both_ways)).
  split; [exact small_world_lawful|]. split; [vm_compute; reflexivity|].
  split; [apply click_session; vm_compute; reflexivity|].
  split; [vm_compute; reflexivity|].
  assert (T : forall t i, find both_ways t = Some i -> target both_ways t (Some i)).
  { intros t i E. rewrite <- E. apply find_target. }
  set (m := fun _ : N => CInt 0).
  assert (X : goes small_world both_ways (followed true) beginning
                (Real 9 [CBytes (repeat "000"%char 32); CInt 5] [] m)).
  { back (Real 8 [CBytes (bs "a"); CInt 5] [] m) (Op0 Sha256Expr).
    2:{ apply (i_world small_world both_ways (Op0 Sha256Expr) 8 [CBytes (bs "a")] [_] [CInt 5]); [reflexivity|].
        right. left. eauto. }
    back (Real 7 [CInt 5] [] m) (ByteExpr (bs "a") 0).
    2:{ apply (i_constants small_world both_ways (ByteExpr (bs "a") 0) 7 [CBytes (bs "a")] [CInt 5]). reflexivity. }
    back (Real 6 [CInt 5] [] m) (LabelExpr (bs "a")); [|apply i_nop; reflexivity].
    back (Real 2 [CInt 5; CInt 5] [] m) (BnzExpr (bs "a")); [|apply i_bnz_taken; [discriminate|apply T; reflexivity]].
    back (Real 1 [CInt 5] [] m) (Op0 DupExpr); [|apply i_stack; reflexivity].
    back beginning (TxnExpr 1); [|].
    2:{ apply (i_world small_world both_ways (TxnExpr 1) 0 [] [CInt 5] []); [reflexivity|]. left. auto. }
    apply goes_now. }
  split; [exists m; exact X|]. split; [|vm_compute; reflexivity].
  exists m. back (Real 11 [CInt 5] [] m) (Op0 ItobExpr).
  2:{ apply (i_world small_world both_ways (Op0 ItobExpr) 11 [CInt 5] [_] []); [reflexivity|].
      right. right. exists 5%N. auto. }
  back (Real 10 [CInt 5] [] m) (LabelExpr (bs "end")); [|apply i_nop; reflexivity].
  back (Real 9 [CBytes (repeat "000"%char 32); CInt 5] [] m) (Op0 PopExpr); [|apply i_stack; reflexivity].
  exact X.
Qed.

(* ------------------------------------------------------------------------------------------ *)
(* C60 for instructions that read a field, for which langspec.json promises only some value: the
   deepest result is the value of the field and has the type of that field (C56 is about the tables) *)
Theorem C60_field_types : forall l ver v k b i e v' specs f sp a r,
  reach l ver v -> before l v k b i e -> executes ver v b e v' ->
  field_read e = Some (specs, f) -> spec_by_field specs f = Some sp -> lang_spec e = Some (a, r) ->
  exists b' up y rest, nth_error (v_branches v') k = Some b' /\ b_stack b' = up ++ y :: rest /\
    length r = S (length up) /\
    v_T y = match f_type sp with StackUint64 => TUint64 | StackBytes => TBytes | StackAny => TAny | StackNone => TNone end.
Proof.
  intros l ver v k b i e v' specs f sp a r R B E F S L.
  destruct (field_shown l ver v k b i e v' specs f sp a r R B E F S L) as (b' & up & y & rest & Hb & Hs & Hl & Ht).
  exists b', up, y, rest. split; [exact Hb|]. split; [exact Hs|]. split; [exact Hl|]. rewrite Ht. destruct (f_type sp); reflexivity.
Qed.
Print Assumptions C60_field_types.

Example C60_field_types_nonvacuous : exists v v' b i sp,
  reach [TxnExpr 1] 8 v /\ before [TxnExpr 1] v 0 b i (TxnExpr 1) /\ executes 8 v b (TxnExpr 1) v' /\
  field_read (TxnExpr 1) = Some (txnFieldSpecs, 1%N) /\ spec_by_field txnFieldSpecs 1 = Some sp /\
  vm_type (f_type sp) = TUint64.
Proof.
  exists (started [TxnExpr 1]), (click 1 (started [TxnExpr 1])). do 3 eexists.
  split; [eexists; split; [vm_compute; reflexivity|constructor]|].
  split; [constructor; reflexivity|].
  split; [|split; [reflexivity|split; reflexivity]].
  split; [vm_compute; reflexivity|]. split; [reflexivity|].
  exists 1%Z. split; [right; split; reflexivity|]. vm_compute. discriminate.
Qed.
