(* Proofs about single instructions: where branch instructions go and what the stack
   instructions do. *)
From Verif Require Import Base Expr Fields VmOps Vm VmProofs VmSkip VmStep VmExec VmSpec VmInv VmThms.
From Coq Require Import ZifyBool ZifyNat ZifyN.

(* ------------------------------------------------------------------------------------------ *)
(* one successful step: the Execute method runs on the paid branch, then branches settle *)
Lemma executes_inv l ver v k b i e v' :
  wf l ver v -> before l v k b i e -> executes ver v b e v' ->
  exists c v3 b3,
    execute e k (put k (pay e c b) (reset v)) = (v3, Ret tt) /\
    costs e ver b c /\ (1 <= c <= b_budget b)%Z /\
    nth_error (v_branches v3) k = Some b3 /\ v_listing v3 = l /\
    exists b4, b_line b4 = land l (b_line b3) /\ b_id b4 = b_id b3 /\
      b_stack b4 = b_stack b3 /\ b_frames b4 = b_frames b3 /\
      b_budget b4 = b_budget b3 /\ b_trace b4 = b_trace b3 /\
      Forall2 (settle l) (upd_nth k (fun _ => b4) (v_branches v3)) (v_branches v').
Proof.
  intros W B [E [Herr [c [Hc Hle]]]].
  pose proof (step_stepped _ _ _ _ _ _ _ W B) as S. rewrite E in S.
  assert (Hver : v_version (reset v) = ver) by (apply (wf_version _ _ _ W)).
  inversion S as [Hp|c' Hc' Hc1 Hb|c' v3 Hc' Hc1 He| |c' v3 b3 b4 t4 ok v5 b5 Hc' Hc1 He Hn Hs Hv Hpost Hn5 Heq];
    rewrite Hver in *; subst; cbn in Herr; try discriminate.
  - exfalso. unfold costs in Hc'. destruct Hc as [Hc|[Hc ->]], Hc' as [Hc'|[Hc' ->]];
      rewrite Hc in Hc'; try discriminate; [injection Hc' as ->|]; lia.
  - exists c', v3, b3.
    assert (L3 : v_listing v3 = v_listing v).
    { destruct (Ext_execute e _ _ _ _ He) as [[X _] _]. exact X. }
    rewrite (wf_listing _ _ _ W) in L3.
    split; [assumption|]. split; [assumption|]. split; [assumption|]. split; [assumption|].
    split; [assumption|].
    apply skip_nops_spec in Hs. destruct Hs as [S1 [S2 [S3 [S4 [S5 [S6 _]]]]]].
    rewrite L3 in S6.
    exists b4. repeat split; auto.
    destruct Hpost as [_ [_ [F _]]]. cbn in F. rewrite L3 in F. exact F.
Qed.

Lemma settled_own l k b4 bs bs' b' :
  Forall2 (settle l) (upd_nth k (fun _ => b4) bs) bs' ->
  k < length bs -> nth_error bs' k = Some b' -> settle l b4 b'.
Proof.
  intros F Hk Hb. destruct (nth_lt_some bs k Hk) as [x Hx].
  assert (N : nth_error (upd_nth k (fun _ => b4) bs) k = Some b4)
    by (rewrite nth_upd_nth_same, Hx; reflexivity).
  destruct (Forall2_nth _ _ _ _ _ F N) as [y [Hy S]]. congruence.
Qed.

Lemma land_arrives l x b b' :
  settle l b b' -> b_line b = land l x -> arrives l x b'.
Proof.
  intros S E. destruct x as [i|]; cbn [arrives].
  - cbn [land option_map] in E. destruct (first_op_spec l i) as [A1 [A2 [A3 A4]]].
    set (j := first_op (skipn i l) i) in *.
    exists j. split; [assumption|].
    assert (Hdone : forall m, i <= m < j -> exists e, nth_error l m = Some e /\ is_nop e = true).
    { intros m Hm. destruct (nth_error l m) as [e|] eqn:Em.
      - exists e. split; [reflexivity|]. exact (A4 m e Hm Em).
      - exfalso. apply nth_error_None in Em.
        destruct (le_lt_dec i (length l)) as [Hi|Hi].
        + specialize (A3 Hi). lia.
        + unfold j in Hm. rewrite skipn_ge in Hm by lia. cbn in Hm. lia. }
    split; [exact Hdone|].
    destruct (nth_error l j) as [e|] eqn:Ej.
    + split; [exact (A2 e eq_refl)|]. unfold on_line.
      assert (Ll : landed l (b_line b)).
      { rewrite E. intros m e' Hm He'. injection Hm as <-. rewrite Ej in He'. auto. }
      apply (settle_in l b b' j S Ll (nth_error_lt _ _ _ Ej)). exact E.
    + apply nth_error_None in Ej. destruct S as [_ [_ [_ [_ [_ [S|[S|[S _]]]]]]]].
      * right. exists j. split; [congruence|exact Ej].
      * right. rewrite E in S.
        assert (Ll : land l (Some j) = Some j).
        { apply land_of_landed. intros m e Hm He. injection Hm as <-.
          apply nth_error_lt in He. lia. }
        exists j. rewrite Ll in S. auto.
      * left. exact S.
  - cbn in E. exact (settle_none _ _ _ S E).
Qed.

(* ------------------------------------------------------------------------------------------ *)
(* code that runs on branch k: the state is written as put k b v *)
Section OnBranch.
Context (k : nat) (v : vm) (Hk : k < length (v_branches v)).

Lemma nth_put b : nth_error (v_branches (put k b v)) k = Some b.
Proof. destruct (nth_lt_some _ _ Hk) as [x Hx]. eapply nth_put_same; eauto. Qed.

Lemma bind_get_put {A} (f : branch -> M A) b : bind get_b f k (put k b v) = f b k (put k b v).
Proof. unfold bind, get_b. rewrite nth_put. reflexivity. Qed.

Lemma mod_put f b : mod_b f k (put k b v) = (put k (f b) v, Ret tt).
Proof. unfold mod_b. rewrite nth_put, put_put. reflexivity. Qed.

Lemma bind_mod_put {A} f (g : unit -> M A) b :
  bind (mod_b f) g k (put k b v) = g tt k (put k (f b) v).
Proof. unfold bind. rewrite mod_put. reflexivity. Qed.

Lemma pop_put t b :
  pop t k (put k b v) =
  match b_stack b with
  | [] => (put k b v, Panic)
  | x :: r => if accepts t x then (put k (set_stack r b) v, Ret x) else (put k b v, Panic)
  end.
Proof.
  unfold pop. rewrite bind_get_put. destruct (b_stack b) as [|x r]; [reflexivity|].
  destruct (accepts t x); [|reflexivity]. rewrite bind_mod_put. reflexivity.
Qed.

Lemma push_put x b : push x k (put k b v) = (put k (set_stack (x :: b_stack b) b) v, Ret tt).
Proof. exact (mod_put (fun b => set_stack (x :: b_stack b) b) b). Qed.

Lemma bind_push_put {A} x (g : unit -> M A) b :
  bind (push x) g k (put k b v) = g tt k (put k (set_stack (x :: b_stack b) b) v).
Proof. exact (bind_mod_put (fun b => set_stack (x :: b_stack b) b) g b). Qed.

Lemma next_put b : next_line k (put k b v) = (put k (set_line (line_inc (b_line b)) b) v, Ret tt).
Proof. exact (mod_put (fun b => set_line (line_inc (b_line b)) b) b). Qed.

Lemma jump_put t b : jump t k (put k b v) = (put k (set_line (find (v_listing v) t) b) v, Ret tt).
Proof. unfold jump, bind at 1, find_m. apply mod_put. Qed.

Lemma bind_pop_any {A} (f : value -> M A) b x r :
  b_stack b = x :: r -> bind (pop TAny) f k (put k b v) = f x k (put k (set_stack r b) v).
Proof. intros E. unfold bind. rewrite pop_put, E. reflexivity. Qed.

Lemma pop_any_empty {A} (f : value -> M A) b :
  b_stack b = [] -> bind (pop TAny) f k (put k b v) = (put k b v, Panic).
Proof. intros E. unfold bind. rewrite pop_put, E. reflexivity. Qed.

Lemma pop_n_put n : forall b, n <= length (b_stack b) ->
  pop_n n TAny k (put k b v) = (put k (set_stack (skipn n (b_stack b)) b) v, Ret (firstn n (b_stack b))).
Proof.
  induction n as [|n IH]; intros b H; cbn [pop_n].
  - unfold ret. destruct b; reflexivity.
  - destruct (b_stack b) as [|x r] eqn:E; cbn in H; [lia|].
    rewrite (bind_pop_any _ _ _ _ E). unfold bind. rewrite IH by (cbn; lia). cbn. reflexivity.
Qed.

Lemma pop_n_short n : forall b, length (b_stack b) < n ->
  exists v', pop_n n TAny k (put k b v) = (v', Panic).
Proof.
  induction n as [|n IH]; intros b H; [lia|]. cbn [pop_n].
  destruct (b_stack b) as [|x r] eqn:E.
  - rewrite (pop_any_empty _ _ E). eauto.
  - rewrite (bind_pop_any _ _ _ _ E). cbn in H.
    destruct (IH (set_stack r b)) as [v' H']; [cbn; lia|].
    exists v'. unfold bind. rewrite H'. reflexivity.
Qed.

Lemma each_push_put xs : forall b,
  each push xs k (put k b v) = (put k (set_stack (rev xs ++ b_stack b) b) v, Ret tt).
Proof.
  induction xs as [|x xs IH]; intros b; cbn [each].
  - unfold ret. destruct b; reflexivity.
  - rewrite bind_push_put, IH. cbn. rewrite <- app_assoc. reflexivity.
Qed.

Lemma call_put t b :
  exists f, fr_return f = b_line b /\
    call t k (put k b v) = (put k (set_line (find (v_listing v) t) (set_frames (f :: b_frames b) b)) v, Ret tt).
Proof.
  unfold call.
  exists (Frame (b_line b) 0 0 (N.of_nat (length (b_stack b)) mod 256) (b_name b)).
  split; [reflexivity|]. rewrite bind_get_put, bind_mod_put.
  unfold bind at 1, find_m. rewrite mod_put. reflexivity.
Qed.

End OnBranch.

(* a branch forked for target t *)
Definition forked (l : listing) (b : branch) (t : str) (nb : branch) : Prop :=
  b_line nb = land l (find l t) /\ b_stack nb = b_stack b /\ b_budget nb = b_budget b /\
  b_trace nb = b_trace b /\ b_frames nb = [].

Lemma fork_put k v b t : k < length (v_branches v) ->
  exists v2 nb, fork t k (put k b v) = (put k b v2, Ret tt) /\
    v_branches v2 = v_branches v ++ [nb] /\ v_listing v2 = v_listing v /\
    forked (v_listing v) b t nb.
Proof.
  intros Hk. unfold fork. rewrite bind_get_put by exact Hk. cbn [v_listing v_bps v_trig v_id put set_branches].
  destruct (skip_nops (v_listing v) (v_bps v)
    (Branch (v_id v) (find (v_listing v) t) (b_stack b) [] (b_budget b) t (b_trace b)) (v_trig v))
    as [[nb t'] ok] eqn:E.
  exists (set_branches (v_branches v ++ [nb]) (set_trig t' (set_id (S (v_id v)) v))), nb.
  split; [|split; [reflexivity|split; [reflexivity|]]].
  - f_equal. unfold put, set_branches; cbn. rewrite upd_nth_app_lt by exact Hk. reflexivity.
  - apply skip_nops_spec in E. cbn in E. unfold forked. tauto.
Qed.

Lemma forks_put k b ts : forall v, k < length (v_branches v) ->
  exists v2 nbs, each fork ts k (put k b v) = (put k b v2, Ret tt) /\
    v_branches v2 = v_branches v ++ nbs /\ v_listing v2 = v_listing v /\
    Forall2 (forked (v_listing v) b) ts nbs.
Proof.
  induction ts as [|t ts IH]; intros v Hk; cbn [each].
  - exists v, []. rewrite app_nil_r. repeat split; auto.
  - destruct (fork_put k v b t Hk) as [v1 [nb [E1 [B1 [L1 F1]]]]].
    destruct (IH v1) as [v2 [nbs [E2 [B2 [L2 F2]]]]]; [rewrite B1, app_length; cbn; lia|].
    exists v2, (nb :: nbs). unfold bind. rewrite E1, E2, B2, B1, L2, L1, <- app_assoc.
    rewrite L1 in F2. repeat split; auto.
Qed.

(* ------------------------------------------------------------------------------------------ *)
(* find is the specified jump target *)
Lemma find_target l t : target l t (find l t).
Proof.
  destruct (find l t) as [i|] eqn:E; cbn.
  - apply find_some; exact E.
  - apply find_none; exact E.
Qed.

Lemma target_unique l t x y : target l t x -> target l t y -> x = y.
Proof.
  destruct x as [i|], y as [j|]; cbn; intros A B.
  - f_equal. destruct A as [A1 A2], B as [B1 B2].
    destruct (Nat.lt_trichotomy i j) as [H|[H|H]]; [|assumption|].
    + exfalso. exact (A2 j H B1).
    + exfalso. exact (B2 i H A1).
  - exfalso. exact (B i (proj1 A)).
  - exfalso. exact (A j (proj1 B)).
  - reflexivity.
Qed.

Lemma target_find l t x : target l t x -> x = find l t.
Proof. intros H. eapply target_unique; eauto using find_target. Qed.

Lemma targets_find l ts xs : Forall2 (target l) ts xs -> xs = map (find l) ts.
Proof. induction 1; cbn; f_equal; auto using target_find. Qed.

Lemma successors_exist l i e : jumps e = true -> exists own others, successors l i e own others.
Proof.
  assert (F : forall ts, exists xs, Forall2 (target l) ts xs).
  { intros ts. exists (map (find l) ts). induction ts; cbn; constructor; auto using find_target. }
  destruct e; try discriminate; intros _.
  - eexists; eexists. apply succ_bnz, find_target.
  - eexists; eexists. apply succ_bz, find_target.
  - eexists; eexists. apply succ_b, find_target.
  - destruct (F Targets_) as [xs H]. eexists; eexists. apply succ_switch, H.
  - destruct (F Targets_) as [xs H]. eexists; eexists. apply succ_match, H.
  - eexists; eexists. apply succ_callsub, find_target.
Qed.

Lemma successors_unique l i e own others own' others' :
  successors l i e own others -> successors l i e own' others' -> own = own' /\ others = others'.
Proof.
  intros H H'. inversion H; subst; inversion H'; subst;
    repeat match goal with
           | T : target _ _ _ |- _ => apply target_find in T
           | T : Forall2 (target _) _ _ |- _ => apply targets_find in T
           end; subst; auto.
Qed.

(* the Execute methods of the jumping instructions *)
Lemma execute_jumps l i e own others k b v v3 :
  successors l i e own others -> k < length (v_branches v) -> v_listing v = l ->
  b_line b = Some i -> execute e k (put k b v) = (v3, Ret tt) ->
  exists b3 nbs, v_branches v3 = upd_nth k (fun _ => b3) (v_branches v) ++ nbs /\
    b_line b3 = own /\ Forall2 (fun x nb => b_line nb = land l x) others nbs /\
    b_budget b3 = b_budget b /\ b_trace b3 = b_trace b /\
    Forall (fun nb => b_stack nb = b_stack b3 /\ b_budget nb = b_budget b /\
                      b_trace nb = b_trace b /\ b_frames nb = []) nbs /\
    returns b3 = match e with CallSubExpr _ => Some i :: returns b | _ => returns b end.
Proof.
  intros Su Hk Hl Hi E.
  assert (J : forall ts xs vx bx, Forall2 (target l) ts xs ->
    k < length (v_branches vx) -> v_listing vx = l -> v_branches vx = v_branches v ->
    b_line bx = Some i -> b_budget bx = b_budget b -> b_trace bx = b_trace b ->
    b_frames bx = b_frames b ->
    (each fork ts ;; next_line) k (put k bx vx) = (v3, Ret tt) ->
    exists b3 nbs, v_branches v3 = upd_nth k (fun _ => b3) (v_branches v) ++ nbs /\
    b_line b3 = Some (S i) /\ Forall2 (fun x nb => b_line nb = land l x) xs nbs /\
    b_budget b3 = b_budget b /\ b_trace b3 = b_trace b /\
    Forall (fun nb => b_stack nb = b_stack b3 /\ b_budget nb = b_budget b /\
                      b_trace nb = b_trace b /\ b_frames nb = []) nbs /\
    returns b3 = returns b).
  { intros ts xs vx bx T Hkx Hlx Hbx Hix Hbu Htr Hfr Ex.
    destruct (forks_put k bx ts vx Hkx) as [v2 [nbs [E2 [B2 [L2 F2]]]]].
    unfold bind in Ex. rewrite E2 in Ex. rewrite next_put in Ex by (rewrite B2, app_length; lia).
    injection Ex as <-. exists (set_line (line_inc (b_line bx)) bx), nbs.
    cbn [v_branches put set_branches]. rewrite B2, Hbx, upd_nth_app_lt by (rewrite <- Hbx; exact Hkx).
    split; [reflexivity|]. cbn [b_line set_line]. rewrite Hix. split; [reflexivity|].
    split.
    { apply targets_find in T. subst xs. rewrite Hlx in F2. clear - F2.
      induction F2 as [|t nb ts nbs H F IH]; cbn; constructor; auto. apply H. }
    split; [exact Hbu|]. split; [exact Htr|]. split.
    { clear - F2 Hbu Htr. induction F2 as [|t nb ts nbs H F IH]; constructor; auto.
      destruct H as [_ [H1 [H2 [H3 H4]]]]. cbn. repeat split; congruence. }
    unfold returns. cbn. rewrite Hfr. reflexivity. }
  inversion Su; subst.
  - cbn [execute] in E. rewrite jump_put in E by exact Hk. injection E as <-.
    exists (set_line (find (v_listing v) t) b), [].
    rewrite app_nil_r. apply target_find in H. repeat split; auto.
  - cbn [execute] in E. unfold bind at 1 in E. rewrite pop_put in E by exact Hk.
    destruct (b_stack b) as [|y r]; [discriminate|]. destruct (accepts TUint64 y); [|discriminate].
    destruct (fork_put k v (set_stack r b) t Hk) as [v2 [nb [E2 [B2 [L2 F2]]]]].
    refine (J [t] [x] v (set_stack r b) _ Hk eq_refl eq_refl Hi eq_refl eq_refl eq_refl _); auto.
    unfold each. unfold bind in *. rewrite E2 in *. exact E.
  - cbn [execute] in E. unfold bind at 1 in E. rewrite pop_put in E by exact Hk.
    destruct (b_stack b) as [|y r]; [discriminate|]. destruct (accepts TUint64 y); [|discriminate].
    destruct (fork_put k v (set_stack r b) t Hk) as [v2 [nb [E2 [B2 [L2 F2]]]]].
    refine (J [t] [x] v (set_stack r b) _ Hk eq_refl eq_refl Hi eq_refl eq_refl eq_refl _); auto.
    unfold each. unfold bind in *. rewrite E2 in *. exact E.
  - cbn [execute] in E. destruct (call_put k v Hk t b) as [f [Hf Ec]]. rewrite Ec in E.
    injection E as <-. eexists; exists []. rewrite app_nil_r. split; [reflexivity|].
    apply target_find in H. unfold returns. cbn. rewrite Hf, Hi. repeat split; auto.
  - cbn [execute] in E. unfold bind at 1 in E. rewrite pop_put in E by exact Hk.
    destruct (b_stack b) as [|y r]; [discriminate|]. destruct (accepts TUint64 y); [|discriminate].
    exact (J ts others v (set_stack r b) H Hk eq_refl eq_refl Hi eq_refl eq_refl eq_refl E).
  - cbn [execute] in E. destruct (le_lt_dec (length ts) (length (b_stack b))) as [Hd|Hd].
    + unfold bind at 1 in E. rewrite pop_n_put in E by assumption.
      unfold bind at 1 in E. rewrite pop_put in E by exact Hk. cbn [b_stack set_stack] in E.
      destruct (skipn (length ts) (b_stack b)) as [|y r]; [discriminate|].
      exact (J ts others v (set_stack r (set_stack (y :: r) b)) H Hk eq_refl eq_refl Hi eq_refl eq_refl eq_refl E).
    + exfalso. destruct (pop_n_short k v Hk _ _ Hd) as [v' Hv]. unfold bind at 1 in E.
      rewrite Hv in E. discriminate.
Qed.

Lemma Forall2_app_l {A B} (R : A -> B -> Prop) xs ys zs :
  Forall2 R (xs ++ ys) zs ->
  Forall2 R xs (firstn (length xs) zs) /\ Forall2 R ys (skipn (length xs) zs).
Proof.
  revert zs; induction xs as [|x xs IH]; intros zs H; cbn.
  - split; [constructor|exact H].
  - destruct zs as [|z zs]; inversion H; subst. destruct (IH zs) as [A1 A2]; [assumption|].
    cbn. auto.
Qed.

(* the branches added by the step *)
Definition added (v v' : vm) : list branch := skipn (length (v_branches v)) (v_branches v').

(* C36 *)
Theorem jump_successors l ver v k b i e v' own others :
  reach l ver v -> before l v k b i e -> executes ver v b e v' ->
  successors l i e own others ->
  exists b', nth_error (v_branches v') k = Some b' /\ arrives l own b' /\
    Forall2 (arrives l) others (added v v') /\
    Forall (fun nb => b_stack nb = b_stack b' /\ b_budget nb = b_budget b' /\
                      b_trace nb = b_trace b') (added v v') /\
    returns b' = match e with CallSubExpr _ => Some i :: returns b | _ => returns b end.
Proof.
  intros R B X Su. apply reach_wf in R.
  destruct (executes_inv _ _ _ _ _ _ _ _ R B X) as
    [c [v3 [b3 [E [Hc [Hr [Hn [Hl [b4 [L4 [_ [S4 [F4 [U4 [T4 F]]]]]]]]]]]]]]].
  pose proof (nth_error_lt _ _ _ (before_branch _ _ _ _ _ _ B)) as Hk.
  destruct (execute_jumps l i e own others k (pay e c b) (reset v) v3 Su) as
    [b3' [nbs [V3 [A1 [A2 [A3 [A4 [A5 A6]]]]]]]]; auto.
  { apply (wf_listing _ _ _ R). }
  { apply (before_line _ _ _ _ _ _ B). }
  assert (Q : b3' = b3).
  { rewrite V3 in Hn. rewrite nth_error_app1 in Hn by (rewrite upd_nth_length; exact Hk).
    cbn [reset v_branches set_trig set_error] in Hn.
    rewrite nth_upd_nth_same, (before_branch _ _ _ _ _ _ B) in Hn. cbn in Hn. congruence. }
  subst b3'. rewrite V3 in F. cbn [reset v_branches set_trig set_error] in F.
  rewrite upd_nth_app_lt, upd_nth_twice in F by (rewrite upd_nth_length; exact Hk).
  destruct (Forall2_app_l _ _ _ _ F) as [Fo Fn]. rewrite upd_nth_length in Fo, Fn.
  fold (added v v') in Fn.
  assert (N4 : nth_error (upd_nth k (fun _ => b4) (v_branches v) ++ nbs) k = Some b4).
  { rewrite nth_error_app1 by (rewrite upd_nth_length; exact Hk).
    rewrite nth_upd_nth_same, (before_branch _ _ _ _ _ _ B). reflexivity. }
  destruct (Forall2_nth _ _ _ _ _ F N4) as [b' [Hb' S']].
  exists b'. split; [exact Hb'|]. rewrite A1 in L4. split; [eapply land_arrives; eauto|].
  destruct S' as [_ [Sst [Sfr [Sbu [Str _]]]]].
  split; [|split].
  - generalize dependent (added v v'). clear - A2. induction A2 as [|x nb others nbs Hx A2 IH]; intros zs Fn.
    + inversion Fn. constructor.
    + inversion Fn as [|? z ? zs' Hz Fz]; subst. constructor; [eapply land_arrives; eauto|auto].
  - cbn in A3, A4. generalize dependent (added v v'). clear - A5 A3 A4 S4 U4 T4 Sst Sbu Str.
    induction A5 as [|nb nbs Hx A5 IH]; intros zs Fn; inversion Fn as [|? z ? zs' Hz Fz]; subst; constructor; auto.
    destruct Hx as [H1 [H2 [H3 _]]]. destruct Hz as [_ [Z1 [_ [Z2 [Z3 _]]]]]. cbn in H2, H3.
    repeat split; congruence.
  - unfold returns in *. cbn in A6. rewrite Sfr, F4. exact A6.
Qed.

(* ------------------------------------------------------------------------------------------ *)
(* code that changes the depth of the stack by d, keeps the return lines and adds no branch *)
Definition Depth (d : Z) {A} (m : M A) : Prop :=
  forall k v v' a b, m k v = (v', Ret a) -> nth_error (v_branches v) k = Some b ->
  exists b', v_branches v' = upd_nth k (fun _ => b') (v_branches v) /\
             Z.of_nat (length (b_stack b')) = (Z.of_nat (length (b_stack b)) + d)%Z /\
             returns b' = returns b.

Lemma Depth_bind {A B} d1 d2 d (m : M A) (f : A -> M B) :
  d = (d1 + d2)%Z -> Depth d1 m -> (forall a, Depth d2 (f a)) -> Depth d (bind m f).
Proof.
  intros -> H1 H2 k v v' a b E Hb. unfold bind in E. destruct (m k v) as [v1 [x| |]] eqn:E1; try discriminate.
  destruct (H1 _ _ _ _ _ E1 Hb) as [b1 [V1 [D1 R1]]].
  assert (N1 : nth_error (v_branches v1) k = Some b1) by (rewrite V1, nth_upd_nth_same, Hb; reflexivity).
  destruct (H2 _ _ _ _ _ _ E N1) as [b2 [V2 [D2 R2]]].
  exists b2. rewrite V2, V1, upd_nth_twice. repeat split; [lia|congruence].
Qed.

Lemma Depth_pure {A} (m : M A) : (forall k v, fst (m k v) = v) -> Depth 0 m.
Proof.
  intros H k v v' a b E Hb. pose proof (H k v) as Q. rewrite E in Q. cbn in Q. subst v'.
  exists b. rewrite upd_nth_id by exact Hb. repeat split. lia.
Qed.

Lemma Depth_ret {A} (a : A) : Depth 0 (ret a).
Proof. apply Depth_pure; reflexivity. Qed.

Lemma Depth_throw {A} d : Depth d (@throw A).
Proof. intros k v v' a b E; discriminate. Qed.

Lemma Depth_diverge {A} d : Depth d (@diverge A).
Proof. intros k v v' a b E; discriminate. Qed.

Lemma Depth_get_b : Depth 0 get_b.
Proof. apply Depth_pure. intros k v. unfold get_b. destruct (nth_error _ _); reflexivity. Qed.

Lemma Depth_lift {A} (r : res A) : Depth 0 (lift r).
Proof. apply Depth_pure; reflexivity. Qed.

Lemma Depth_find_m t : Depth 0 (find_m t).
Proof. apply Depth_pure; reflexivity. Qed.

Lemma Depth_scratch n : Depth 0 (scratch n).
Proof. apply Depth_pure; reflexivity. Qed.

Lemma Depth_mod_b f d :
  (forall b, Z.of_nat (length (b_stack (f b))) = (Z.of_nat (length (b_stack b)) + d)%Z) ->
  (forall b, returns (f b) = returns b) -> Depth d (mod_b f).
Proof.
  intros H1 H2 k v v' a b E Hb. unfold mod_b in E. rewrite Hb in E. injection E as <- _.
  exists (f b). repeat split; auto.
Qed.

Lemma Depth_push x : Depth 1 (push x).
Proof. apply Depth_mod_b; [|reflexivity]. intros b. cbn. lia. Qed.

Lemma Depth_next_line : Depth 0 next_line.
Proof. apply Depth_mod_b; [|reflexivity]. intros b. cbn. lia. Qed.

Lemma Depth_exit : Depth 0 exit_m.
Proof. apply Depth_mod_b; [|reflexivity]. intros b. cbn. lia. Qed.

Lemma Depth_jump t : Depth 0 (jump t).
Proof.
  eapply (Depth_bind 0 0); [reflexivity|apply Depth_find_m|]. intros a.
  apply Depth_mod_b; [|reflexivity]. intros b. cbn. lia.
Qed.

Lemma Depth_pop t : Depth (-1) (pop t).
Proof.
  intros k v v' a b E Hb. unfold pop, bind, get_b in E. rewrite Hb in E.
  destruct (b_stack b) as [|x r] eqn:Es; [discriminate|].
  destruct (accepts t x); [|discriminate]. unfold mod_b in E. rewrite Hb in E. injection E as <- _.
  exists (set_stack r b). repeat split. cbn [b_stack set_stack length]. lia.
Qed.

Lemma Depth_prepare a r : Depth 0 (prepare a r).
Proof.
  intros k v v' x b E Hb. unfold prepare, bind, get_b in E. rewrite Hb in E.
  destruct (b_frames b) as [|f fs] eqn:Ef; [discriminate|].
  unfold mod_b in E. rewrite Hb in E. injection E as <- _.
  eexists. split; [reflexivity|]. split; [cbn; lia|]. unfold returns. cbn. rewrite Ef. reflexivity.
Qed.

Lemma Depth_item n : Depth 0 (item n).
Proof. apply (Depth_bind 0 0); [reflexivity|apply Depth_get_b|intros; apply Depth_lift]. Qed.

Lemma Depth_replace n x : Depth 0 (replace n x).
Proof.
  intros k v v' a b E Hb. unfold replace, bind, get_b in E. rewrite Hb in E.
  destruct (n <? length (b_stack b)); [|discriminate].
  unfold mod_b in E. rewrite Hb in E. injection E as <- _.
  eexists. split; [reflexivity|]. split; [|reflexivity]. cbn.
  rewrite rev_length, upd_nth_length, rev_length. lia.
Qed.

Lemma Depth_store i x : Depth 0 (store i x).
Proof.
  unfold store. destruct (v_src i) as [[n|s|s|name args|w]|]; try apply Depth_ret.
  intros k v v' a b E Hb. destruct (N.to_nat n <? length (v_scratch v)); [|discriminate].
  injection E as <- _. exists b. split; [symmetry; apply upd_nth_id; exact Hb|]. split; [lia|reflexivity].
Qed.

Lemma Depth_field_type s f : Depth 0 (field_type s f).
Proof. unfold field_type. destruct (spec_by_field s f); [apply Depth_ret|apply Depth_throw]. Qed.

Lemma Depth_each {A} (f : A -> M unit) d xs :
  (forall x, Depth d (f x)) -> Depth (d * Z.of_nat (length xs)) (each f xs).
Proof.
  intros H. induction xs as [|x xs IH]; cbn [each length].
  - rewrite Z.mul_0_r. apply Depth_ret.
  - eapply Depth_bind; [|apply H|intros; exact IH]. lia.
Qed.

Lemma Depth_pop_n n t : Depth (- Z.of_nat n) (pop_n n t).
Proof.
  induction n as [|n IH]; cbn [pop_n]; [apply Depth_ret|].
  eapply Depth_bind; [|apply Depth_pop|]. 2: intros; eapply Depth_bind; [|exact IH|intros; apply Depth_ret].
  - instantiate (1 := (- Z.of_nat n)%Z). lia.
  - lia.
Qed.

(* the results of pop_n *)
Lemma pop_n_length n t : forall k v v' xs, pop_n n t k v = (v', Ret xs) -> length xs = n.
Proof.
  induction n as [|n IH]; intros k v v' xs E; cbn [pop_n] in E.
  - injection E as _ <-. reflexivity.
  - unfold bind in E. destruct (pop t k v) as [v1 [x| |]]; try discriminate.
    destruct (pop_n n t k v1) as [v2 [ys| |]] eqn:E2; try discriminate.
    injection E as _ <-. cbn. f_equal. eapply IH; eauto.
Qed.

Lemma Depth_pop_n_bind {B} n t d (f : list value -> M B) :
  (forall xs, length xs = n -> Depth (d + Z.of_nat n) (f xs)) -> Depth d (bind (pop_n n t) f).
Proof.
  intros H k v v' a b E Hb. unfold bind in E. destruct (pop_n n t k v) as [v1 [xs| |]] eqn:E1; try discriminate.
  destruct (Depth_pop_n n t _ _ _ _ _ E1 Hb) as [b1 [V1 [D1 R1]]].
  assert (N1 : nth_error (v_branches v1) k = Some b1) by (rewrite V1, nth_upd_nth_same, Hb; reflexivity).
  destruct (H xs (pop_n_length _ _ _ _ _ _ E1) _ _ _ _ _ E N1) as [b2 [V2 [D2 R2]]].
  exists b2. rewrite V2, V1, upd_nth_twice. repeat split; [lia|congruence].
Qed.

Lemma Depth_pops_pushes ps qs : Depth (Z.of_nat (length qs) - Z.of_nat (length ps)) (pops_pushes ps qs).
Proof.
  unfold pops_pushes. eapply Depth_bind; [|apply (Depth_each _ (-1))|].
  2:{ intros t. eapply Depth_bind; [|apply Depth_pop|intros; apply Depth_ret]. reflexivity. }
  2:{ intros _. eapply Depth_bind; [|apply (Depth_each _ 1)|intros; apply Depth_next_line].
      2: intros; apply Depth_push. reflexivity. }
  lia.
Qed.
