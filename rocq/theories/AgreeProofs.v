(* Proofs about the lines the branches of the debugger stand on. *)
From Verif Require Import Base Expr Fields VmOps Vm VmSpec AgreeSpec VmProofs VmExec VmSkip VmStep VmInv VmFlow VmThms.
From Verif Require Import Linter.
From Verif Require Flow LintSpec FlowProofs LinterProofs LinterThms.
From Coq Require Import ZifyBool ZifyNat ZifyN.

(* ------------------------------------------------------------------------------------------ *)
(* a set of lines for every branch identity that execution does not leave *)
Section Closed.
Variable l : listing.
Variable N0 : nat. (* identities from here on are given to new branches *)
Variable good : nat -> nat -> Prop. (* branch identity, line *)
Variable gframe : nat -> nat -> Prop. (* branch identity, line of a pending call *)

Hypothesis H_next : forall id i e,
  good id i -> nth_error l i = Some e -> falls e -> good id (S i).
Hypothesis H_jump : forall id i e t j,
  good id i -> nth_error l i = Some e -> e = BExpr t \/ e = CallSubExpr t ->
  target l t (Some j) -> good id j.
Hypothesis H_fork : forall id i e t j id',
  good id i -> nth_error l i = Some e -> Flow.names e t -> target l t (Some j) -> N0 <= id' -> good id' j.
Hypothesis H_call : forall id i t, good id i -> nth_error l i = Some (CallSubExpr t) -> gframe id i.
Hypothesis H_ret : forall id i r,
  good id i -> nth_error l i = Some RetSubExpr -> gframe id r -> good id (S r).

Definition ok (b : branch) : Prop :=
  (forall i, b_line b = Some i -> good (b_id b) i) /\
  Forall (fun f => exists r, fr_return f = Some r /\ gframe (b_id b) r) (b_frames b).
Definition all_ok (v : vm) : Prop := v_listing v = l /\ N0 <= v_id v /\ Forall ok (v_branches v).

Lemma ok_put k b v : all_ok v -> ok b -> all_ok (put k b v).
Proof.
  intros (A & B & C) H. split; [exact A|]. split; [exact B|]. cbn.
  apply Forall_forall. intros x Hx. apply In_upd_nth in Hx as [->|Hx]; [exact H|].
  rewrite Forall_forall in C. auto.
Qed.

Lemma all_ok_nth k b v : all_ok v -> nth_error (v_branches v) k = Some b -> ok b.
Proof. intros (_ & _ & C) H. rewrite Forall_forall in C. apply C. eapply nth_error_In; eauto. Qed.

Lemma nop_falls o : is_nop o = true -> falls o.
Proof. destruct o; try exact (fun _ => I); discriminate. Qed.

Lemma good_land g x : good g x -> good g (first_op (skipn x l) x).
Proof.
  remember (length l - x) as n eqn:Hn. revert x Hn.
  induction n as [|n IH]; intros x Hn H.
  - rewrite skipn_ge by lia. exact H.
  - destruct (nth_lt_some l x) as [o Ho]; [lia|]. rewrite (skipn_nth _ _ _ Ho). cbn [first_op].
    destruct (is_nop o) eqn:En; [|exact H]. apply IH; [lia|].
    eapply H_next; eauto using nop_falls.
Qed.

Lemma ok_land b b' : ok b -> b_id b' = b_id b -> b_frames b' = b_frames b ->
  b_line b' = land l (b_line b) -> ok b'.
Proof.
  intros [O1 O2] Ei Ef El. split.
  - intros j Hj. rewrite Ei. rewrite El in Hj. destruct (b_line b) as [x|]; [|discriminate].
    cbn in Hj. injection Hj as <-. apply good_land. auto.
  - rewrite Ei, Ef. exact O2.
Qed.

Lemma ok_settle b b' : ok b -> settle l b b' -> ok b'.
Proof.
  intros O (S1 & S2 & S3 & S4 & S5 & S6).
  destruct S6 as [S6|[S6|[S6 _]]].
  - destruct O as [O1 O2]. split; [intros j; rewrite S6, S1; apply O1|rewrite S1, S3; exact O2].
  - eapply ok_land; eauto.
  - destruct O as [O1 O2]. split; [intros j Hj; congruence|rewrite S1, S3; exact O2].
Qed.

Section At.
Variables (id i : nat) (e : expr).
Hypothesis Hgood : good id i.
Hypothesis He : nth_error l i = Some e.

Definition here (k : nat) (v : vm) : Prop :=
  exists b, nth_error (v_branches v) k = Some b /\ b_line b = Some i /\ b_id b = id.

Definition Keep {A} (m : M A) : Prop :=
  forall k v v' r, here k v -> all_ok v -> m k v = (v', r) ->
  all_ok v' /\ here k v'.
Definition Move {A} (m : M A) : Prop :=
  forall k v v' r, here k v -> all_ok v -> m k v = (v', r) -> all_ok v'.

Lemma Keep_Move {A} (m : M A) : Keep m -> Move m.
Proof. intros H k v v' r B O E. eapply H; eauto. Qed.

Lemma Keep_pure {A} (m : M A) : (forall k v, fst (m k v) = v) -> Keep m.
Proof.
  intros H k v v' r B O E. specialize (H k v). rewrite E in H. cbn in H. subst v'. split; assumption.
Qed.
Lemma Keep_ret {A} (a : A) : Keep (ret a).
Proof. apply Keep_pure; reflexivity. Qed.
Lemma Keep_throw {A} : Keep (@throw A).
Proof. apply Keep_pure; reflexivity. Qed.
Lemma Keep_diverge {A} : Keep (@diverge A).
Proof. apply Keep_pure; reflexivity. Qed.
Lemma Keep_lift {A} (r : res A) : Keep (lift r).
Proof. apply Keep_pure; reflexivity. Qed.
Lemma Keep_scratch n : Keep (scratch n).
Proof. apply Keep_pure; reflexivity. Qed.
Lemma Keep_find_m t : Keep (find_m t).
Proof. apply Keep_pure; reflexivity. Qed.
Lemma Keep_get_b : Keep get_b.
Proof. apply Keep_pure. intros k v. unfold get_b. destruct (nth_error _ k); reflexivity. Qed.

Lemma Keep_bind {A B} (m : M A) (f : A -> M B) : Keep m -> (forall a, Keep (f a)) -> Keep (bind m f).
Proof.
  intros Hm Hf k v v' r B0 O E. unfold bind in E.
  destruct (m k v) as [v1 [a| |]] eqn:Em; destruct (Hm _ _ _ _ B0 O Em) as [O1 B1].
  - eapply Hf; eauto.
  - injection E as <- <-. auto.
  - injection E as <- <-. auto.
Qed.
Lemma Move_bind {A B} (m : M A) (f : A -> M B) : Keep m -> (forall a, Move (f a)) -> Move (bind m f).
Proof.
  intros Hm Hf k v v' r B0 O E. unfold bind in E.
  destruct (m k v) as [v1 [a| |]] eqn:Em; destruct (Hm _ _ _ _ B0 O Em) as [O1 B1].
  - eapply Hf; eauto.
  - injection E as <- <-. auto.
  - injection E as <- <-. auto.
Qed.

Lemma bind_get {A} (f : branch -> M A) k v b :
  nth_error (v_branches v) k = Some b -> bind get_b f k v = f b k v.
Proof. intros H. unfold bind, get_b. rewrite H. reflexivity. Qed.

Lemma Keep_get {A} (f : branch -> M A) :
  (forall b, ok b -> b_line b = Some i -> b_id b = id -> Keep (f b)) -> Keep (bind get_b f).
Proof.
  intros Hf k v v' r (b & Hb & Hl & Hi) O E. rewrite (bind_get f k v b Hb) in E.
  eapply Hf; eauto using all_ok_nth. exists b; auto.
Qed.
Lemma Move_get {A} (f : branch -> M A) :
  (forall b, ok b -> b_line b = Some i -> b_id b = id -> Move (f b)) -> Move (bind get_b f).
Proof.
  intros Hf k v v' r (b & Hb & Hl & Hi) O E. rewrite (bind_get f k v b Hb) in E.
  eapply Hf; eauto using all_ok_nth. exists b; auto.
Qed.

Lemma Keep_mod f :
  (forall b, ok b -> b_line b = Some i -> b_id b = id ->
     ok (f b) /\ b_line (f b) = Some i /\ b_id (f b) = id) -> Keep (mod_b f).
Proof.
  intros Hf k v v' r (b & Hb & Hl & Hi) O E. unfold mod_b in E. rewrite Hb in E. injection E as <- <-.
  destruct (Hf b (all_ok_nth _ _ _ O Hb) Hl Hi) as (F1 & F2 & F3).
  split; [apply ok_put; assumption|]. exists (f b). split; [|auto].
  apply (nth_put_same k b). exact Hb.
Qed.
Lemma Move_mod f :
  (forall b, ok b -> b_line b = Some i -> b_id b = id -> ok (f b)) -> Move (mod_b f).
Proof.
  intros Hf k v v' r (b & Hb & Hl & Hi) O E. unfold mod_b in E. rewrite Hb in E. injection E as <- <-.
  apply ok_put; auto. apply Hf; auto. eapply all_ok_nth; eauto.
Qed.

Lemma Keep_stack g : Keep (mod_b (fun b => set_stack (g b) b)).
Proof. apply Keep_mod. intros b H1 H2 H3. split; [exact H1|]. split; [exact H2|exact H3]. Qed.
Lemma Keep_push x : Keep (push x).
Proof. apply Keep_stack. Qed.
Lemma Keep_pop t : Keep (pop t).
Proof.
  apply Keep_bind; [apply Keep_get_b|]. intros b. destruct (b_stack b); [apply Keep_throw|].
  destruct (accepts t v); [|apply Keep_throw].
  apply Keep_bind; [apply (Keep_stack (fun _ => l0))|intros; apply Keep_ret].
Qed.
Lemma Keep_prepare a r : Keep (prepare a r).
Proof.
  apply Keep_get. intros b O Hl Hi. destruct (b_frames b) as [|f fs] eqn:Ef; [apply Keep_throw|].
  apply Keep_mod. intros b1 [O1 _] L1 I1. repeat split; auto; cbn.
  destruct O as [_ O]. rewrite Ef in O. inversion O as [|? ? P Q]; subst.
  rewrite I1. constructor; [exact P|exact Q].
Qed.
Lemma Keep_item n : Keep (item n).
Proof. apply Keep_bind; [apply Keep_get_b|]. intros b. apply Keep_lift. Qed.
Lemma Keep_replace n x : Keep (replace n x).
Proof.
  apply Keep_bind; [apply Keep_get_b|]. intros b. destruct (_ <? _); [|apply Keep_throw].
  apply (Keep_stack (fun _ => _)).
Qed.
Lemma Keep_store j x : Keep (store j x).
Proof.
  unfold store. destruct (v_src j) as [[m| | | |]|]; try apply Keep_ret.
  intros k v v' r B O E. destruct (_ <? _); injection E as <- <-; split; assumption.
Qed.
Lemma Keep_field_type s f : Keep (field_type s f).
Proof. unfold field_type. destruct (spec_by_field s f); [apply Keep_ret|apply Keep_throw]. Qed.
Lemma Keep_each {A} (f : A -> M unit) xs : (forall x, In x xs -> Keep (f x)) -> Keep (each f xs).
Proof.
  induction xs as [|x xs IH]; intros H; cbn; [apply Keep_ret|].
  apply Keep_bind; [apply H; left; reflexivity|]. intros _. apply IH. intros y Hy. apply H. right; exact Hy.
Qed.
Lemma Keep_pop_n n t : Keep (pop_n n t).
Proof.
  induction n as [|n IH]; cbn; [apply Keep_ret|].
  apply Keep_bind; [apply Keep_pop|]. intros x. apply Keep_bind; [exact IH|]. intros; apply Keep_ret.
Qed.

Lemma Keep_fork t : Flow.names e t -> Keep (fork t).
Proof.
  intros Hn. apply Keep_get. intros b O Hl Hi k v v' r (b0 & Hb & Hl0 & Hi0) A E.
  cbv zeta in E.
  destruct (skip_nops (v_listing v) (v_bps v)
              (Branch (v_id v) (find (v_listing v) t) (b_stack b) [] (b_budget b) t (b_trace b))
              (v_trig v)) as [[nb t1] okk] eqn:Es.
  injection E as <- <-. destruct A as (A1 & A2 & A3).
  apply skip_nops_spec in Es as (S1 & _ & S3 & _ & _ & S6 & _). cbn in S1, S3, S6.
  rewrite A1 in S6. split.
  - split; [exact A1|]. split; [cbn; lia|]. cbn. apply Forall_app. split; [exact A3|].
    constructor; [|constructor].
    eapply (ok_land (Branch (v_id v) (find l t) [] [] 0%Z t [])); eauto.
    split; [|constructor]. cbn. intros j Hj. pose proof (find_target l t) as T. rewrite Hj in T.
    eapply H_fork; eauto.
  - exists b0. split; [|auto]. cbn. rewrite nth_error_app1; [exact Hb|]. eapply nth_error_lt; eauto.
Qed.

Lemma ok_next b : falls e -> ok b -> b_line b = Some i -> b_id b = id ->
  ok (set_line (line_inc (b_line b)) b).
Proof.
  intros Hu [O1 O2] Hl Hi. split; [|exact O2]. cbn. rewrite Hl. cbn. intros j Hj.
  injection Hj as <-. rewrite Hi. eapply H_next; eauto.
Qed.
Lemma Move_next : falls e -> Move next_line.
Proof. intros Hu. apply Move_mod. intros b. apply ok_next. exact Hu. Qed.
Lemma Move_exit : Move exit_m.
Proof.
  apply Move_mod. intros b [O1 O2] Hl Hi. split; [cbn; intros j Hj; discriminate|]. exact O2.
Qed.

Lemma Move_find {B} t (f : option nat -> M B) : Move (f (find l t)) -> Move (bind (find_m t) f).
Proof.
  intros Hf k v v' r B0 O E. unfold bind, find_m in E.
  destruct O as (O1 & O2 & O3). rewrite O1 in E. eapply Hf; eauto. split; [|split]; auto.
Qed.

Lemma Move_set_line t : e = BExpr t \/ e = CallSubExpr t -> Move (mod_b (set_line (find l t))).
Proof.
  intros Hj. apply Move_mod. intros b [O1 O2] Hl Hi. split; [|exact O2]. cbn. intros j Ej.
  pose proof (find_target l t) as T. rewrite Ej in T. rewrite Hi. eapply H_jump; eauto.
Qed.

Lemma Move_call t : e = CallSubExpr t -> Move (call t).
Proof.
  intros Ee. apply Move_get. intros b O Hl Hi. apply Move_bind.
  - apply Keep_mod. intros b1 [O1 O2] L1 I1. repeat split; auto. cbn.
    destruct O as [_ O]. rewrite I1. constructor.
    + cbn. exists i. split; [exact Hl|]. eapply H_call; eauto. rewrite <- Ee. exact He.
    + rewrite <- Hi. exact O.
  - intros _. apply Move_find, Move_set_line. auto.
Qed.

Lemma Move_simple : falls e -> forall o,
  Move (match simple_effect o with
        | Some (ps, qs) => pops_pushes ps qs
        | None => next_line
        end).
Proof.
  intros Hu o. destruct (simple_effect o) as [[ps qs]|]; [|apply Move_next; exact Hu].
  apply Move_bind; [apply Keep_each; intros; apply Keep_bind; [apply Keep_pop|intros; apply Keep_ret]|].
  intros _. apply Move_bind; [apply Keep_each; intros; apply Keep_push|].
  intros _. apply Move_next. exact Hu.
Qed.

Ltac keep :=
  repeat first
    [ apply Keep_push | apply Keep_pop | apply Keep_ret | apply Keep_throw | apply Keep_diverge
    | apply Keep_get_b
    | apply Keep_prepare | apply Keep_item | apply Keep_replace | apply Keep_store
    | apply Keep_scratch | apply Keep_field_type | apply Keep_pop_n
    | apply Keep_find_m | apply Keep_each; intros | apply Keep_bind; [|intros] ].
Ltac cond := match goal with Q : _ = ?x |- falls ?x => rewrite <- Q; exact I end.
Ltac moves :=
  repeat first
    [ apply Move_simple; cond | apply Move_next; cond | apply Move_exit
    | apply Move_bind; [keep|intros] | apply Keep_Move, Keep_throw | apply Keep_Move, Keep_diverge ].

Lemma Move_retsub o : o = e -> o = RetSubExpr -> Move (execute o).
Proof.
  intros Eo ->. cbn [execute]. apply Move_get. intros b O Hl Hi.
  destruct (b_frames b) as [|f fs] eqn:Ef; [apply Move_next; cond|].
  do 3 (apply Move_bind; [keep|intros]). apply Move_mod. intros b1 O1 L1 I1.
  destruct O as [_ O]. rewrite Ef in O. inversion O as [|? ? (r & Pr & Pg) Q]; subst.
  split; cbn.
  - rewrite Pr. cbn. intros j Hj. injection Hj as <-. rewrite I1. eapply H_ret; eauto.
  - rewrite I1. exact Q.
Qed.

Theorem Move_execute o : o = e -> Move (execute o).
Proof.
  intros Eo. split_expr o;
    try (cbn [execute]; moves; fail).
  - destruct o; cbn [execute]; moves.
  - apply Move_retsub; [exact Eo|reflexivity].
  - cbn [execute]. apply Move_bind; [keep|intros]. apply Move_bind; [|intros; moves].
    apply Keep_fork. rewrite <- Eo. constructor.
  - cbn [execute]. apply Move_bind; [keep|intros]. apply Move_bind; [|intros; moves].
    apply Keep_fork. rewrite <- Eo. constructor.
  - cbn [execute]. unfold jump. apply Move_find, Move_set_line. left. symmetry; exact Eo.
  - cbn [execute]. apply Move_bind; [keep|intros]. apply Move_bind; [|intros; moves].
    apply Keep_each. intros t Ht. apply Keep_fork. rewrite <- Eo. constructor. exact Ht.
  - cbn [execute]. do 2 (apply Move_bind; [keep|intros]). apply Move_bind; [|intros; moves].
    apply Keep_each. intros t Ht. apply Keep_fork. rewrite <- Eo. constructor. exact Ht.
  - cbn [execute]. apply Move_call. symmetry; exact Eo.
  - cbn [execute]. apply Move_bind; [keep|intros]. destruct (255 <=? Count_)%N; moves.
  - cbn [execute]. moves. destruct (b_frames a); moves.
  - cbn [execute]. moves. destruct (b_frames a); moves.
Qed.
End At.

Lemma ok_forall2 xs ys : Forall ok xs -> Forall2 (settle l) xs ys -> Forall ok ys.
Proof.
  intros H F. induction F as [|x y xs ys S F IH]; [constructor|].
  inversion H; subst. constructor; [eapply ok_settle; eauto|auto].
Qed.

Lemma skip_ok v v' : all_ok v -> skip_post v v' -> all_ok v'.
Proof.
  intros (A1 & A2 & A3) (Q1 & _ & Q3 & _). unfold same_skip_env in Q1.
  split; [intuition congruence|]. split; [destruct Q1 as (R1 & _); lia|].
  eapply ok_forall2; eauto. rewrite <- A1. exact Q3.
Qed.

Lemma step_ok v v' :
  v_current v < length (v_branches v) -> all_ok v -> step v = Ret v' -> all_ok v'.
Proof.
  intros Hc A E. destruct (step_cases v Hc) as (v1 & E1 & P1 & S). rewrite E in S.
  assert (A1 : all_ok v1) by (eapply skip_ok; [|exact P1]; exact A).
  inversion S as [|k b i e r Hbr Hk Hb Hl He Hn St]; subst; [exact A1|].
  assert (Ob : ok b) by (eapply all_ok_nth; eauto).
  assert (Ll : v_listing v1 = l) by apply A1. rewrite Ll in He.
  assert (Og : good (b_id b) i) by (apply Ob; exact Hl).
  assert (Hex : forall c v3 r3, execute e (v_current v1) (put (v_current v1) (pay e c b) v1) = (v3, r3) -> all_ok v3).
  { intros c v3 r3 Ex.
    refine (Move_execute (b_id b) i e Og He e eq_refl _ _ _ _ _ (ok_put _ (pay e c b) _ A1 Ob) Ex).
    exists (pay e c b). split; [|split; [exact Hl|reflexivity]]. apply (nth_put_same _ b). exact Hb. }
  inversion St as [Hp|c Hc1 Hc2 Hc3|c v3 Hc1 Hc2 Ex|c v3 Hc1 Hc2 Ex
                  |c v3 b3 b4 t4 okk v5 b5 Hc1 Hc2 Ex Hb3 Es E5 P5 Hb5]; subst.
  - exact A1.
  - apply ok_put; [exact A1|]. split; [cbn; discriminate|apply Ob].
  - apply (Hex _ _ _ Ex).
  - pose proof (Hex _ _ _ Ex) as A3.
    assert (A5 : all_ok v5).
    { eapply skip_ok; [|eassumption].
      assert (O4 : ok b4).
      { pose proof (all_ok_nth _ _ _ A3 Hb3) as O3.
        apply skip_nops_spec in Es as (S1 & _ & S3 & _ & _ & S6 & _).
        eapply ok_land; eauto. replace l with (v_listing v3) by apply A3. exact S6. }
      exact (ok_put (v_current v1) b4 v3 A3 O4). }
    exact A5.
Qed.

Lemma command_ok ver v v' : wf l ver v -> all_ok v -> command v v' -> all_ok v'.
Proof.
  intros W A C. destruct C.
  - eapply step_ok; eauto. apply W.
  - eapply (run_inv (fun v => wf l ver v /\ all_ok v)); [|split; [exact W|exact A]|eassumption].
    intros x y [Wx Ax] Ex. split; [eapply step_wf; eauto|]. eapply step_ok; eauto. apply Wx.
  - unfold switch_vm. destruct (find_branch 0 (v_branches v) id); exact A.
  - unfold set_breakpoints in H. destruct (bind_lines (v_listing v) lns); try discriminate.
    cbn in H. injection H as <- <-. exact A.
Qed.

Lemma later_ok ver v v' : wf l ver v -> all_ok v -> later v v' -> all_ok v'.
Proof.
  intros W A H.
  assert (G : wf l ver v' /\ all_ok v') by
    (eapply (later_inv (fun v => wf l ver v /\ all_ok v)); [|split; [exact W|exact A]|exact H];
     intros x y [Wx Ax] C; split; [eapply command_wf; eauto|eapply command_ok; eauto]).
  apply G.
Qed.
End Closed.


(* ------------------------------------------------------------------------------------------ *)
Lemma names_target l i e t j : nth_error l i = Some e -> Flow.names e t -> target l t (Some j) ->
  Flow.names_at l i t /\ Flow.defines l j t.
Proof. intros He Hn [Hd _]. split; [exists e; auto|exact Hd]. Qed.

Lemma new_branch l ver v0 : new_vm l ver = Ret v0 ->
  exists b, v_branches v0 = [b] /\ settle l (Branch 0 (Some 0) [] [] 700 MainName []) b /\
    v_listing v0 = l.
Proof.
  intros E. unfold new_vm in E.
  match type of E with vm_skip_nops ?w = _ => set (w0 := w) in * end.
  destruct (vm_skip_nops_spec w0) as [v' [E' [Q1 [Q2 [Q3 _]]]]]; [cbn; lia|].
  rewrite E in E'. injection E' as <-. cbn in Q3.
  inversion Q3 as [|? b ? ys Hs Hr Hx Hy]; subst. inversion Hr; subst.
  exists b. split; [reflexivity|]. split; [exact Hs|]. unfold same_skip_env in Q1. apply Q1.
Qed.

(* closed sets of lines hold all branches of a session *)
Lemma reach_ok l (good gframe : nat -> Prop) :
  good 0 ->
  (forall i e, good i -> nth_error l i = Some e -> falls e -> good (S i)) ->
  (forall i e t j, good i -> nth_error l i = Some e -> Flow.names e t -> target l t (Some j) -> good j) ->
  (forall i t, good i -> nth_error l i = Some (CallSubExpr t) -> gframe i) ->
  (forall i r, good i -> nth_error l i = Some RetSubExpr -> gframe r -> good (S r)) ->
  forall ver v b, reach l ver v -> In b (v_branches v) -> ok (fun _ => good) (fun _ => gframe) b.
Proof.
  intros H0 Hn Hj Hc Hr ver v b (v0 & E & L) Hb.
  set (G := fun _ : nat => good). set (F := fun _ : nat => gframe).
  assert (K1 : forall id i e, G id i -> nth_error l i = Some e -> falls e -> G id (S i))
    by (intros ? x e; apply Hn).
  assert (K2 : forall id i e t j, G id i -> nth_error l i = Some e -> e = BExpr t \/ e = CallSubExpr t ->
                 target l t (Some j) -> G id j)
    by (intros ? x e t y Hg He [->| ->]; apply (Hj x _ t y Hg He); constructor).
  assert (K3 : forall id i e t j id', G id i -> nth_error l i = Some e -> Flow.names e t ->
                 target l t (Some j) -> 0 <= id' -> G id' j)
    by (intros ? x e t y ? Hg He Hm Ht _; exact (Hj x e t y Hg He Hm Ht)).
  assert (K4 : forall id i t, G id i -> nth_error l i = Some (CallSubExpr t) -> F id i)
    by (intros ?; apply Hc).
  assert (K5 : forall id i r, G id i -> nth_error l i = Some RetSubExpr -> F id r -> G id (S r))
    by (intros ?; apply Hr).
  assert (Hok : all_ok l 0 G F v).
  { apply (later_ok l 0 G F K1 K2 K3 K4 K5 ver v0 v (new_wf _ _ _ E)); [|exact L].
    destruct (new_branch _ _ _ E) as (b0 & Eb & S & El). split; [exact El|]. split; [lia|].
    rewrite Eb. constructor; [|constructor].
    apply (ok_settle l 0 G F K1 K2 K3 K4 K5 _ b0) with (2 := S).
    split; [|constructor]. cbn. intros x Hx. injection Hx as <-. exact H0. }
  destruct Hok as (_ & _ & Q). rewrite Forall_forall in Q. apply (Q b Hb).
Qed.

Lemma reach_closed l (good gframe : nat -> Prop) :
  good 0 ->
  (forall i e, good i -> nth_error l i = Some e -> falls e -> good (S i)) ->
  (forall i e t j, good i -> nth_error l i = Some e -> Flow.names e t -> target l t (Some j) -> good j) ->
  (forall i t, good i -> nth_error l i = Some (CallSubExpr t) -> gframe i) ->
  (forall i r, good i -> nth_error l i = Some RetSubExpr -> gframe r -> good (S r)) ->
  forall ver v b i, reach l ver v -> In b (v_branches v) -> on_line b i -> good i.
Proof.
  intros H0 Hn Hj Hc Hr ver v b i R Hb Hi.
  apply (reach_ok l good gframe H0 Hn Hj Hc Hr ver v b R Hb). exact Hi.
Qed.

Theorem unreachable_not_visited l ver v b i :
  reach l ver v -> In b (v_branches v) -> on_line b i -> ~ LintSpec.after_unconditional l i.
Proof.
  apply (reach_closed l (fun i => ~ LintSpec.after_unconditional l i)
                        (fun i => ~ LintSpec.after_unconditional l (S i))).
  - intros (j & e & Hj & _). lia.
  - intros x e Hg He Hf Ha. apply Hg. eapply FlowProofs.after_unconditional_S; eauto.
    intros U. inversion U; subst; exact Hf.
  - intros x e t y Hg He Hm Ht. destruct (names_target _ _ _ _ _ He Hm Ht) as [A B].
    eapply FlowProofs.used_label_live; eauto.
  - intros x t Hg He Ha. apply Hg. eapply FlowProofs.after_unconditional_S; eauto.
    intros U. inversion U.
  - auto.
Qed.

Theorem unreported_breakpoints l ver v v' id :
  reach l ver v -> step v = Ret v' -> reported v' id ->
  exists i, In i (v_bps v) /\ ~ LintSpec.after_unconditional l i.
Proof.
  intros R E H. apply (breakpoints_reported _ _ _ _ _ R E) in H as (b & i & [Hb _] & Hi & Hin & _).
  exists i. split; [exact Hin|].
  assert (R' : reach l ver v').
  { destruct R as (v0 & E0 & L). exists v0. split; [exact E0|].
    eapply later_command; [exact L|]. constructor. exact E. }
  eapply unreachable_not_visited; eauto.
Qed.

Lemma run_snoc l c tr c1 ev c2 : Flow.run l c tr c1 -> Flow.fstep l c1 ev c2 -> exists tr', Flow.run l c tr' c2.
Proof.
  intros H S. induction H as [c|c a c1 tr Hs H IH|c a c1 ev0 tr Hs H IH].
  - destruct ev as [x|]; eexists; [eapply Flow.run_event|eapply Flow.run_quiet]; eauto; apply Flow.run_refl.
  - destruct (IH S) as [tr' IH']. eexists. eapply Flow.run_quiet; eauto.
  - destruct (IH S) as [tr' IH']. eexists. eapply Flow.run_event; eauto.
Qed.

Lemma falls_step l pc ks e : nth_error l pc = Some e -> falls e -> (e = RetSubExpr -> ks = []) ->
  exists ev, Flow.fstep l (Flow.At pc ks) ev (Flow.At (S pc) ks).
Proof.
  intros He Hf Hr.
  destruct e; cbn in Hf; try contradiction;
    try (eexists; apply Flow.F_silent with (1 := He); constructor; fail);
    try (eexists; apply Flow.F_plain with (1 := He); exact I);
    try (eexists; apply Flow.F_cond_next with (1 := He); constructor; fail).
  rewrite (Hr eq_refl). eexists. apply Flow.F_retsub_next. exact He.
Qed.

Lemma names_step l pc ks e t j : nth_error l pc = Some e -> Flow.names e t -> Flow.defines l j t ->
  exists ev ks', Flow.fstep l (Flow.At pc ks) ev (Flow.At j ks') /\
    (ks' = ks \/ exists n, e = CallSubExpr n).
Proof.
  intros He Hn Hd. destruct Hn.
  - exists None, ks. split; [|auto]. eapply Flow.F_b; eauto. constructor; exact Hd.
  - eexists _, ks. split; [|auto]. eapply (Flow.F_cond_taken l pc ks _ 0); eauto; constructor; exact Hd.
  - eexists _, ks. split; [|auto]. eapply (Flow.F_cond_taken l pc ks _ 0); eauto; constructor; exact Hd.
  - eexists _, (S pc :: ks). split; [|eauto]. eapply Flow.F_callsub; eauto. constructor; exact Hd.
  - apply In_nth_error in H as [k Hk]. eexists _, ks. split; [|auto].
    eapply (Flow.F_cond_taken l pc ks _ k); eauto; constructor; [exact Hk|exact Hd].
  - apply In_nth_error in H as [k Hk]. eexists _, ks. split; [|auto].
    eapply (Flow.F_cond_taken l pc ks _ k); eauto; constructor; [exact Hk|exact Hd].
Qed.

Theorem visited_reachable l ver v b i : no_returns l ->
  reach l ver v -> In b (v_branches v) -> on_line b i -> Flow.reachable l i.
Proof.
  intros NR R Hb Hi.
  set (good := fun i => exists tr ks, Flow.run l Flow.start tr (Flow.At i ks) /\
                 ((forall n, ~ In (CallSubExpr n) l) -> ks = [])).
  assert (G : good i).
  { apply (reach_closed l good (fun _ => exists t, In (CallSubExpr t) l)) with (ver := ver) (v := v) (b := b);
      auto; unfold good.
    - exists [], []. split; [apply Flow.run_refl|auto].
    - intros x e (tr & ks & Hr & Hk) He Hf.
      destruct (falls_step l x ks e He Hf) as [ev Hs].
      { intros ->. destruct NR as [NR|NR]; [auto|]. destruct NR. eapply nth_error_In; eauto. }
      destruct (run_snoc _ _ _ _ _ _ Hr Hs) as [tr' H']. exists tr', ks. auto.
    - intros x e t y (tr & ks & Hr & Hk) He Hm Ht.
      destruct (names_target _ _ _ _ _ He Hm Ht) as [_ Hd].
      destruct (names_step l x ks e t y He Hm Hd) as (ev & ks' & Hs & K).
      destruct (run_snoc _ _ _ _ _ _ Hr Hs) as [tr' H']. exists tr', ks'. split; [exact H'|].
      intros NC. destruct K as [->|[n ->]]; [auto|]. destruct (NC n). eapply nth_error_In; eauto.
    - intros x t _ He. exists t. eapply nth_error_In; eauto.
    - intros x r _ He [t Ht]. destruct NR as [NR|NR]; [destruct (NR t Ht)|].
      destruct NR. eapply nth_error_In; eauto. }
  destruct G as (tr & ks & G & _). exists tr, ks. exact G.
Qed.

Theorem trapped_stays l from to ver v v' b b' : LintSpec.trap l from to ->
  reach l ver v -> later v v' -> In b (v_branches v) -> stands_in from to b ->
  In b' (v_branches v') -> b_id b' = b_id b -> exited b' \/ stands_in from to b'.
Proof.
  intros T R L Hb (i & Hi & Hin) Hb' Hid.
  set (good := fun id x => id = b_id b -> from <= x <= to).
  set (gframe := fun _ _ : nat => True).
  pose proof (reach_wf _ _ _ R) as W.
  assert (Hok : all_ok l (v_id v) good gframe v').
  { eapply (later_ok l (v_id v) good gframe); cycle 5.
    - exact W.
    - split; [apply W|]. split; [lia|]. apply Forall_forall. intros x Hx. split.
      + intros y Hy Hxid. assert (x = b); [|subst x; unfold on_line in Hi; congruence].
        destruct (In_nth_error _ _ Hx) as [p Hp]. destruct (In_nth_error _ _ Hb) as [q Hq].
        pose proof (ids_nth _ _ _ _ _ W Hp). pose proof (ids_nth _ _ _ _ _ W Hq). congruence.
      + assert (O : ok (fun _ _ => True) (fun _ _ => True) x)
          by (apply (reach_ok l (fun _ => True) (fun _ => True)) with (ver := ver) (v := v); auto).
        exact (proj2 O).
    - exact L.
    - intros id x e Hg He Hf Hx. specialize (Hg Hx).
      destruct (falls_step l x [] e He Hf) as [ev Hs]; [auto|].
      destruct (T _ _ _ _ Hg Hs) as [(pc' & ks' & E & H)|[E _]]; [|discriminate].
      injection E as E1 _; subst pc'; exact H.
    - intros id x e t y Hg He Ht Hd Hx. specialize (Hg Hx).
      destruct (names_step l x [] e t y He) as (ev & ks' & Hs & _); [destruct Ht as [->| ->]; constructor|apply Hd|].
      destruct (T _ _ _ _ Hg Hs) as [(pc' & ks'' & E & H)|[E _]]; [|discriminate].
      injection E as E1 _; subst pc'; exact H.
    - intros id x e t y id' _ _ _ _ Hle Hx. exfalso.
      destruct (In_nth_error _ _ Hb) as [q Hq]. pose proof (ids_nth _ _ _ _ _ W Hq).
      apply nth_error_lt in Hq. pose proof (wf_id _ _ _ W). lia.
    - intros; exact I.
    - intros id x r Hg He _ Hx. specialize (Hg Hx). exfalso.
      destruct (T _ _ _ _ Hg (Flow.F_retsub l x (S to) [] He)) as [(pc' & ks' & E & H)|[E _]]; [|discriminate].
      injection E as E1 _; lia. }
  destruct Hok as (_ & _ & F). rewrite Forall_forall in F. destruct (F b' Hb') as [F1 _].
  unfold exited, stands_in, on_line. destruct (b_line b') as [x|] eqn:Ex; [right|left; reflexivity].
  exists x. split; [reflexivity|]. apply F1; auto.
Qed.

(* ------------------------------------------------------------------------------------------ *)
(* the program of the counterexample: its runs never pass the retsub *)
Definition past_retsub : listing :=
  [CallSubExpr (bs "f"); IntExpr 1; ReturnExpr; LabelExpr (bs "f"); IntExpr 1; BzExpr (bs "x");
   LabelExpr (bs "x"); RetSubExpr; IntExpr 2].

Definition where_it_runs (c : Flow.cfg) : Prop :=
  match c with
  | Flow.At pc ks => (pc <= 2 /\ ks = []) \/ (3 <= pc <= 7 /\ ks = [1])
  | Flow.Halted => True
  end.

Lemma past_retsub_label k n : Flow.defines past_retsub k n -> 3 <= k <= 7.
Proof.
  intros H. unfold Flow.defines in H.
  do 9 (destruct k as [|k]; [cbn in H; first [discriminate H|lia]|]).
  destruct k; discriminate H.
Qed.

Lemma past_retsub_goto t ks c : ks = [1] -> Flow.goto past_retsub t ks c -> where_it_runs c.
Proof. intros -> [k H|_]; [|exact I]. apply past_retsub_label in H. right. auto. Qed.

Lemma past_retsub_runs c ev c' : Flow.fstep past_retsub c ev c' -> where_it_runs c -> where_it_runs c'.
Proof.
  intros S W. destruct c as [pc ks|]; [|inversion S].
  assert (P : pc <= 7) by (destruct W as [[W _]|[W _]]; lia).
  do 8 (destruct pc as [|pc]; [
    inversion S; subst;
    repeat match goal with
    | H : length past_retsub <= _ |- _ => cbn in H; lia
    | H : nth_error past_retsub _ = Some _ |- _ => cbn in H; first [discriminate H|injection H as H]; subst
    | H : Flow.silent _ |- _ => inversion H; clear H
    | H : Flow.conditional _ |- _ => inversion H; clear H
    | H : Flow.plain _ |- _ => solve [destruct H]
    | H : Flow.cond_target _ _ _ |- _ => inversion H; clear H; subst
    end;
    try exact I; destruct W as [[W W']|[W W']]; try lia; try discriminate W'; subst;
    try (eapply past_retsub_goto; [reflexivity|eassumption]); cbn; try (left; split; [lia|reflexivity]);
    try (right; split; [lia|reflexivity]);
    try (injection W' as -> ->; left; split; [lia|reflexivity])|]).
  lia.
Qed.

Lemma past_retsub_unreachable : ~ Flow.reachable past_retsub 8.
Proof.
  intros (tr & ks & R).
  assert (G : forall c tr c', Flow.run past_retsub c tr c' -> where_it_runs c -> where_it_runs c').
  { intros c t c' H. induction H; eauto using past_retsub_runs. }
  assert (W : where_it_runs (Flow.At 8 ks)) by (eapply G; [exact R|left; auto with arith]).
  destruct W as [[W _]|[W _]]; lia.
Qed.
