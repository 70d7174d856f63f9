(* Proofs about single instructions: call frames, the stack instructions, and the sizes and
   types of stack effects. *)
From Verif Require Import Base Expr Fields VmOps Vm VmProofs VmSkip VmStep VmExec VmSpec VmInv VmThms VmFlow LangSpec.
From Coq Require Import ZifyBool ZifyNat ZifyN.

(* ------------------------------------------------------------------------------------------ *)
Ltac depth :=
  repeat first
    [ apply Depth_push | apply Depth_pop | apply Depth_ret | apply Depth_throw
    | apply Depth_diverge | apply Depth_get_b
    | apply Depth_prepare | apply Depth_item | apply Depth_replace | apply Depth_store
    | apply Depth_scratch | apply Depth_field_type | apply Depth_pop_n
    | apply Depth_find_m | apply Depth_next_line | apply Depth_exit | apply Depth_lift
    | apply Depth_each; intros
    | eapply Depth_bind; [reflexivity|depth|intros; depth] ].

(* the opcodes whose stack effect the machine does not perform *)
Definition unexecuted (e : expr) : bool :=
  match e with
  | Op0 Extract64BitsExpr | ItxnaExpr _ _ | AddrExpr _ | Op0 BminusExpr | Op0 BytesBitOrExpr => true
  | _ => false
  end.

Lemma Depth_eq {A} d d' (m : M A) : Depth d m -> d = d' -> Depth d' m.
Proof. intros H <-; exact H. Qed.

Lemma Depth_execute e a r :
  lang_spec e = Some (a, r) -> unexecuted e = false ->
  Depth (Z.of_nat (length r) - Z.of_nat (length a)) (execute e).
Proof.
  intros L U. split_expr e; try discriminate; try (injection L as <- <-);
    try (cbn [execute]; eapply Depth_eq; [apply Depth_pops_pushes|reflexivity]; fail);
    try (cbn [execute]; eapply Depth_eq; [depth|]; reflexivity).
  - destruct o; try discriminate; injection L as <- <-; cbn [execute];
      try (eapply Depth_eq; [apply Depth_pops_pushes|reflexivity]; fail);
      (eapply Depth_eq; [depth|]; reflexivity).
  - cbn [execute]. eapply Depth_eq; [depth|]. rewrite repeat_length. cbn [length]. lia.
  - cbn [execute].
    eapply (Depth_bind (-1) (Z.of_nat (N.to_nat Count_) + 1)); [|apply Depth_pop|intros x].
    { cbn [length]. rewrite repeat_length. lia. }
    destruct (255 <=? Count_)%N; [apply Depth_diverge|].
    eapply Depth_eq; [depth|]. rewrite repeat_length. lia.
  - cbn [execute]. eapply Depth_eq; [depth|]. rewrite map_length. cbn [length]. lia.
  - cbn [execute]. eapply Depth_eq; [depth|]. rewrite map_length. cbn [length]. lia.
  - cbn [execute]. eapply (Depth_bind 0 (-1)); [reflexivity|depth|intros b].
    destruct (b_frames b); [apply Depth_throw|]. eapply Depth_eq; [depth|reflexivity].
  - cbn [execute]. eapply (Depth_bind 0 1); [reflexivity|depth|intros b].
    destruct (b_frames b); [apply Depth_throw|]. eapply Depth_eq; [depth|reflexivity].
  - cbn [execute]. eapply (Depth_bind (-1) 1); [reflexivity|depth|intros x].
    apply Depth_pop_n_bind. intros xs Hx. eapply Depth_eq; [depth|]. rewrite rev_length. lia.
  - cbn [execute]. apply Depth_pop_n_bind. intros xs Hx. eapply Depth_eq; [depth|].
    rewrite rev_length. cbn [length]. lia.
Qed.

(* every other instruction that is not a jump keeps the call frames as well *)
Lemma Depth_other e :
  jumps e = false -> e <> RetSubExpr -> exists d, Depth d (execute e).
Proof.
  intros J R. destruct (lang_spec e) as [[a r]|] eqn:L.
  - destruct (unexecuted e) eqn:U.
    + exists 0%Z. split_expr e; try discriminate; try apply Depth_next_line.
      destruct o; try discriminate; apply Depth_next_line.
    + eexists. eapply Depth_execute; eauto.
  - split_expr e; try discriminate; try congruence; cbn [execute simple_effect];
      try (eexists; apply Depth_next_line; fail);
      try (eexists; apply Depth_pops_pushes; fail); try (eexists; depth; reflexivity).
    destruct o; try discriminate; cbn [execute simple_effect];
      try (eexists; apply Depth_next_line; fail);
      try (eexists; apply Depth_pops_pushes; fail).
Qed.

(* the step of a branch that creates no others *)
Lemma executes_depth l ver v k b i e v' d :
  wf l ver v -> before l v k b i e -> executes ver v b e v' -> Depth d (execute e) ->
  exists b', nth_error (v_branches v') k = Some b' /\ added v v' = [] /\
    Z.of_nat (length (b_stack b')) = (Z.of_nat (length (b_stack b)) + d)%Z /\
    returns b' = returns b.
Proof.
  intros W B X D.
  destruct (executes_inv _ _ _ _ _ _ _ _ W B X) as
    [c [v3 [b3 [E [Hc [Hr [Hn [Hl [b4 [L4 [_ [S4 [F4 [U4 [T4 F]]]]]]]]]]]]]]].
  pose proof (before_branch _ _ _ _ _ _ B) as Hb.
  destruct (D _ _ _ _ (pay e c b) E) as [b3' [V3 [D3 R3]]].
  { eapply nth_put_same. exact Hb. }
  assert (Q : b3' = b3).
  { rewrite V3 in Hn. cbn in Hn. rewrite upd_nth_twice, nth_upd_nth_same, Hb in Hn. cbn in Hn. congruence. }
  subst b3'. rewrite V3 in F. cbn in F. rewrite !upd_nth_twice in F.
  pose proof (nth_error_lt _ _ _ Hb) as Hk.
  pose proof (settle_length _ _ _ F) as Hlen. rewrite upd_nth_length in Hlen.
  destruct (nth_lt_some (v_branches v') k) as [b' Hb']; [lia|].
  pose proof (settled_own _ _ _ _ _ _ F Hk Hb') as [_ [Sst [Sfr _]]].
  exists b'. split; [exact Hb'|]. split.
  - unfold added. apply skipn_ge. lia.
  - unfold returns in *. cbn in D3, R3. rewrite Sst, Sfr, S4, F4. auto.
Qed.

(* C36: call frames *)
Theorem frames_kept l ver v k b i e v' :
  reach l ver v -> before l v k b i e -> executes ver v b e v' ->
  e <> RetSubExpr ->
  exists b', nth_error (v_branches v') k = Some b' /\
    returns b' = match e with CallSubExpr _ => Some i :: returns b | _ => returns b end.
Proof.
  intros R B X He. destruct (jumps e) eqn:J.
  - destruct (successors_exist l i e J) as [own [others S]].
    destruct (jump_successors _ _ _ _ _ _ _ _ _ _ R B X S) as [b' [H1 [_ [_ [_ H2]]]]]. eauto.
  - destruct (Depth_other e J He) as [d D]. apply reach_wf in R.
    destruct (executes_depth _ _ _ _ _ _ _ _ _ R B X D) as [b' [H1 [_ [_ H2]]]].
    exists b'. split; [exact H1|]. destruct e; try discriminate; exact H2.
Qed.

Theorem retsub_returns l ver v k b i v' r rest :
  reach l ver v -> before l v k b i RetSubExpr -> executes ver v b RetSubExpr v' ->
  returns b = Some r :: rest ->
  exists b', nth_error (v_branches v') k = Some b' /\ added v v' = [] /\
    arrives l (Some (S r)) b' /\ returns b' = rest.
Proof.
  intros R B X Hret. apply reach_wf in R.
  destruct (executes_inv _ _ _ _ _ _ _ _ R B X) as
    [c [v3 [b3 [E [Hc [Hr [Hn [Hl [b4 [L4 [_ [S4 [F4 [U4 [T4 F]]]]]]]]]]]]]]].
  pose proof (before_branch _ _ _ _ _ _ B) as Hb. pose proof (nth_error_lt _ _ _ Hb) as Hk.
  unfold returns in Hret. destruct (b_frames b) as [|f fs] eqn:Ef; [discriminate|].
  cbn in Hret. injection Hret as Hf Hfs.
  cbn [execute] in E. rewrite bind_get_put in E by exact Hk. cbn [b_frames pay set_trace set_budget] in E.
  rewrite Ef in E.
  assert (V3 : v_branches v3 = upd_nth k (fun _ => b3) (v_branches v) /\ b_line b3 = Some (S r) /\
               b_frames b3 = fs).
  { set (q := pay RetSubExpr c b) in *.
    destruct (le_lt_dec (N.to_nat (fr_returns f)) (length (b_stack q))) as [H1|H1].
    2:{ destruct (pop_n_short k (reset v) Hk _ _ H1) as [vx Hx]. unfold bind at 1 in E.
        rewrite Hx in E. discriminate. }
    unfold bind at 1 in E. rewrite pop_n_put in E by assumption.
    set (q1 := set_stack (skipn (N.to_nat (fr_returns f)) (b_stack q)) q) in *.
    destruct (le_lt_dec (N.to_nat (fr_args f)) (length (b_stack q1))) as [H2|H2].
    2:{ destruct (pop_n_short k (reset v) Hk _ _ H2) as [vx Hx]. unfold bind at 1 in E.
        rewrite Hx in E. discriminate. }
    unfold bind at 1 in E. rewrite pop_n_put in E by assumption.
    unfold bind at 1 in E. rewrite each_push_put in E by assumption.
    rewrite mod_put in E by assumption. injection E as <-.
    cbn in Hn. rewrite nth_upd_nth_same, Hb in Hn. cbn in Hn. injection Hn as <-.
    repeat split. cbn. rewrite Hf. reflexivity. }
  destruct V3 as [V3 [L3 F3]]. rewrite V3, upd_nth_twice in F.
  pose proof (settle_length _ _ _ F) as Hlen. rewrite upd_nth_length in Hlen.
  destruct (nth_lt_some (v_branches v') k) as [b' Hb']; [lia|].
  pose proof (settled_own _ _ _ _ _ _ F Hk Hb') as S.
  exists b'. split; [exact Hb'|]. split; [unfold added; apply skipn_ge; lia|].
  split; [eapply land_arrives; [exact S|]; rewrite L4, L3; reflexivity|].
  destruct S as [_ [_ [Sfr _]]]. unfold returns. rewrite Sfr, F4, F3. exact Hfs.
Qed.

(* C38: sizes *)
Theorem effect_sizes l ver v k b i e v' a r :
  reach l ver v -> before l v k b i e -> executes ver v b e v' ->
  lang_spec e = Some (a, r) -> unexecuted e = false ->
  exists b', nth_error (v_branches v') k = Some b' /\ added v v' = [] /\
    length (b_stack b') + length a = length (b_stack b) + length r.
Proof.
  intros R B X L U. apply reach_wf in R.
  destruct (executes_depth _ _ _ _ _ _ _ _ _ R B X (Depth_execute _ _ _ L U)) as [b' [H1 [H2 [H3 _]]]].
  exists b'. repeat split; auto. lia.
Qed.

(* ------------------------------------------------------------------------------------------ *)
(* when Execute succeeds, so does the step *)
Lemma executes_intro l ver v k b i e c :
  wf l ver v -> before l v k b i e -> costs e ver b c -> (1 <= c <= b_budget b)%Z ->
  (exists v3, execute e k (put k (pay e c b) (reset v)) = (v3, Ret tt)) ->
  exists v', executes ver v b e v'.
Proof.
  intros W B Hc Hle [v3 E].
  pose proof (step_stepped _ _ _ _ _ _ _ W B) as S.
  assert (Hver : v_version (reset v) = ver) by (apply (wf_version _ _ _ W)).
  assert (Hex : exists c, (cost_of e ver b = Ret [c] \/ (cost_of e ver b = Ret [] /\ c = 1%Z)) /\
            (c <= b_budget b)%Z) by (exists c; split; [exact Hc|lia]).
  assert (Hu : forall c', costs e ver b c' -> c' = c).
  { intros c' Hc'. unfold costs in *. destruct Hc as [Hc|[Hc ->]], Hc' as [Hc'|[Hc' ->]];
      rewrite Hc in Hc'; congruence. }
  inversion S as [Hp Hs|c' Hc' Hc1 Hbr Hs|c' v3' Hc' Hc1 He Hs|c' v3' Hc' Hc1 He Hs
                 |c' v3' b3 b4 t4 ok v5 b5 Hc' Hc1 He Hn Hsk Hv Hpost Hn5 Hs]; rewrite Hver in *.
  - exfalso. destruct Hc as [Hc|[Hc _]]; rewrite Hc in Hp; discriminate.
  - exfalso. rewrite (Hu _ Hc') in Hbr. lia.
  - rewrite (Hu _ Hc') in He. rewrite He in E. discriminate.
  - rewrite (Hu _ Hc') in He. rewrite He in E. discriminate.
  - eexists. split; [symmetry; exact Hs|]. split; [|exact Hex].
    destruct Hpost as [[_ [_ [_ [_ [_ Herr]]]]] _]. cbn in *. rewrite Herr.
    destruct (Ext_execute e _ _ _ _ He) as [[_ [_ [_ [_ [_ [X _]]]]]] _]. exact X.
Qed.

(* what the step of an instruction that only changes its own branch does to the stack *)
Lemma executes_stack l ver v k b i e v' :
  wf l ver v -> before l v k b i e -> executes ver v b e v' ->
  exists c v3 b3 b',
    execute e k (put k (pay e c b) (reset v)) = (v3, Ret tt) /\
    nth_error (v_branches v3) k = Some b3 /\
    nth_error (v_branches v') k = Some b' /\ b_stack b' = b_stack b3.
Proof.
  intros W B X.
  destruct (executes_inv _ _ _ _ _ _ _ _ W B X) as
    [c [v3 [b3 [E [Hc [Hr [Hn [Hl [b4 [L4 [_ [S4 [F4 [U4 [T4 F]]]]]]]]]]]]]]].
  pose proof (nth_error_lt _ _ _ Hn) as Hk.
  pose proof (settle_length _ _ _ F) as Hlen. rewrite upd_nth_length in Hlen.
  destruct (nth_lt_some (v_branches v') k) as [b' Hb']; [lia|].
  pose proof (settled_own _ _ _ _ _ _ F Hk Hb') as [_ [Sst _]].
  exists c, v3, b3, b'. repeat split; auto. congruence.
Qed.

(* ------------------------------------------------------------------------------------------ *)
(* C37: the stack instructions *)

(* the stack instructions that follow the specification, and how deep the stack may be *)
Definition right_stack_op (e : expr) (depth : nat) : Prop :=
  match e with
  | Op0 PopExpr | PopNExpr _ | Op0 DupExpr | Op0 SwapExpr | CoverExpr _ | UncoverExpr _ => True
  | DupNExpr n => (n < 255)%N
  | DigExpr n => (n < 256)%N /\ depth <= 256
  | _ => False
  end.

Lemma nth_error_skipn {A} n : forall (s : list A) x,
  nth_error s n = Some x -> skipn n s = x :: skipn (S n) s.
Proof.
  induction n as [|n IH]; intros [|y s] x H; try discriminate.
  - injection H as ->. reflexivity.
  - cbn in H. cbn [skipn]. rewrite (IH _ _ H). reflexivity.
Qed.

Lemma item_put k v b j : k < length (v_branches v) ->
  item j k (put k b v) = (put k b v, index (rev (b_stack b)) j).
Proof. intros Hk. unfold item. rewrite bind_get_put by exact Hk. reflexivity. Qed.

Lemma execute_stack_op k v b e :
  k < length (v_branches v) -> right_stack_op e (length (b_stack b)) ->
  match stack_spec e (b_stack b) with
  | Some s => execute e k (put k b v) =
              (put k (set_line (line_inc (b_line b)) (set_stack s b)) v, Ret tt)
  | None => exists v', execute e k (put k b v) = (v', Panic)
  end.
Proof.
  intros Hk R. destruct e; try contradiction.
  - destruct o; try contradiction; cbn [stack_spec execute simple_effect pops_pushes each].
    + destruct (b_stack b) as [|a s] eqn:E.
      * rewrite pop_any_empty by assumption. eauto.
      * rewrite (bind_pop_any k v Hk _ _ _ _ E). rewrite !bind_push_put by assumption.
        rewrite next_put by assumption. reflexivity.
    + unfold pops_pushes. cbn [each]. destruct (b_stack b) as [|a s] eqn:E.
      * unfold bind. rewrite pop_put by assumption. rewrite E. eauto.
      * unfold bind. rewrite pop_put by assumption. rewrite E.
        cbn [accepts v_T]. unfold ret. rewrite next_put by assumption. reflexivity.
    + destruct (b_stack b) as [|a s] eqn:E.
      { rewrite pop_any_empty by assumption. eauto. }
      rewrite (bind_pop_any k v Hk _ _ _ _ E).
      destruct s as [|c s].
      { rewrite pop_any_empty by (assumption || reflexivity). eauto. }
      rewrite (bind_pop_any k v Hk _ (set_stack (c :: s) b) c s eq_refl).
      rewrite !bind_push_put by assumption. rewrite next_put by assumption. reflexivity.
  - cbn [stack_spec execute]. destruct (Nat.leb_spec (N.to_nat Depth_) (length (b_stack b))) as [H|H].
    + unfold bind. rewrite pop_n_put by assumption. rewrite next_put by assumption. reflexivity.
    + destruct (pop_n_short k v Hk _ _ H) as [v' Hv]. unfold bind. rewrite Hv. eauto.
  - cbn [right_stack_op] in R. cbn [stack_spec execute].
    destruct (b_stack b) as [|a s] eqn:E.
    { rewrite pop_any_empty by assumption. eauto. }
    rewrite (bind_pop_any k v Hk _ _ _ _ E). destruct (N.leb_spec 255 Count_); [lia|].
    unfold bind. rewrite each_push_put by assumption. rewrite next_put by assumption.
    cbn [b_stack set_stack b_line].
    assert (Q : forall n, rev (repeat a (S n)) = repeat a n ++ [a]).
    { clear. induction n as [|n IH]; [reflexivity|].
      change (rev (repeat a (S (S n)))) with (rev (repeat a (S n)) ++ [a]).
      rewrite IH. change (repeat a (S n)) with (a :: repeat a n).
      assert (P : forall m, repeat a m ++ [a] = a :: repeat a m).
      { induction m as [|m IHm]; [reflexivity|]. cbn. rewrite IHm. reflexivity. }
      rewrite !P. reflexivity. }
    rewrite Q, <- app_assoc. reflexivity.
  - cbn [stack_spec execute]. destruct (b_stack b) as [|a s] eqn:E.
    { rewrite pop_any_empty by assumption. eauto. }
    rewrite (bind_pop_any k v Hk _ _ _ _ E).
    destruct (Nat.leb_spec (N.to_nat Depth_) (length s)) as [H|H].
    + unfold bind at 1. rewrite pop_n_put by assumption. cbn [b_stack set_stack].
      rewrite bind_push_put by assumption. unfold bind. rewrite each_push_put by assumption.
      rewrite next_put by assumption. rewrite rev_involutive. reflexivity.
    + destruct (pop_n_short k v Hk _ (set_stack s b) H) as [v' Hv]. unfold bind. rewrite Hv. eauto.
  - cbn [stack_spec execute].
    destruct (nth_error (b_stack b) (N.to_nat Depth_)) as [x|] eqn:E.
    + pose proof (nth_error_lt _ _ _ E) as H.
      unfold bind at 1. rewrite pop_n_put by (assumption || lia).
      rewrite (bind_pop_any k v Hk _ (set_stack (skipn (N.to_nat Depth_) (b_stack b)) b) x
                 (skipn (S (N.to_nat Depth_)) (b_stack b)) (nth_error_skipn _ _ _ E)).
      unfold bind at 1. rewrite each_push_put by assumption.
      rewrite bind_push_put by assumption. rewrite next_put by assumption.
      rewrite rev_involutive. reflexivity.
    + apply nth_error_None in E. destruct (Nat.eq_dec (N.to_nat Depth_) (length (b_stack b))) as [Q|Q].
      * unfold bind at 1. rewrite pop_n_put by (assumption || lia).
        rewrite pop_any_empty; [eauto|assumption|]. cbn. apply skipn_ge. lia.
      * destruct (pop_n_short k v Hk (N.to_nat Depth_) b) as [v' Hv]; [lia|].
        unfold bind. rewrite Hv. eauto.
  - cbn [right_stack_op] in R. destruct R as [R1 R2]. cbn [stack_spec execute].
    rewrite bind_get_put by assumption. unfold bind at 1. unfold bind at 2. rewrite item_put by assumption.
    unfold index.
    set (n := N.to_nat Index_). set (j := Z.to_nat _).
    destruct (nth_error (b_stack b) n) as [x|] eqn:E.
    + pose proof (nth_error_lt _ _ _ E) as H.
      assert (Hj : j = length (b_stack b) - S n).
      { unfold j. rewrite Z.mod_small by lia. lia. }
      assert (Ej : nth_error (rev (b_stack b)) j = Some x).
      { rewrite Hj. rewrite nth_error_nth' with (d := x) by (rewrite rev_length; lia).
        rewrite rev_nth by lia.
        replace (length (b_stack b) - S (length (b_stack b) - S n)) with n by lia.
        rewrite (nth_error_nth _ _ _ E). reflexivity. }
      rewrite Ej. cbn beta iota; rewrite bind_push_put by assumption. rewrite next_put by assumption. reflexivity.
    + apply nth_error_None in E.
      assert (Hj : length (b_stack b) <= j).
      { unfold j, n in *. pose proof (Z.mod_add (Z.of_nat (length (b_stack b)) - 1 - Z.of_N Index_) 1 256) as Q.
        rewrite <- Q by lia. rewrite Z.mod_small by lia. lia. }
      assert (Ej : nth_error (rev (b_stack b)) j = None)
        by (apply nth_error_None; rewrite rev_length; exact Hj).
      rewrite Ej. eauto.
Qed.

Lemma stack_op_cost e ver b : stack_op e = true -> costs e ver b 1.
Proof. destruct e; try discriminate; try (right; split; reflexivity). destruct o; try discriminate; right; split; reflexivity. Qed.

Lemma right_is_stack_op e d : right_stack_op e d -> stack_op e = true.
Proof. destruct e; cbn; try tauto. destruct o; cbn; tauto. Qed.

Lemma failed_step l ver v k b i e c v3 :
  wf l ver v -> before l v k b i e -> costs e ver b c -> (1 <= c <= b_budget b)%Z ->
  execute e k (put k (pay e c b) (reset v)) = (v3, Panic) ->
  exists v', step v = Ret v' /\ v_error v' = true.
Proof.
  intros W B Hc Hle E.
  pose proof (step_stepped _ _ _ _ _ _ _ W B) as S.
  assert (Hver : v_version (reset v) = ver) by (apply (wf_version _ _ _ W)).
  assert (Hu : forall c', costs e ver b c' -> c' = c).
  { intros c' Hc'. unfold costs in *. destruct Hc as [Hc|[Hc ->]], Hc' as [Hc'|[Hc' ->]];
      rewrite Hc in Hc'; congruence. }
  inversion S as [Hp Hs|c' Hc' Hc1 Hbr Hs|c' v3' Hc' Hc1 He Hs|c' v3' Hc' Hc1 He Hs
                 |c' v3' b3 b4 t4 ok v5 b5 Hc' Hc1 He Hn Hsk Hv Hpost Hn5 Hs]; rewrite Hver in *.
  - exfalso. destruct Hc as [Hc|[Hc _]]; rewrite Hc in Hp; discriminate.
  - exfalso. rewrite (Hu _ Hc') in Hbr. lia.
  - eexists. split; [reflexivity|reflexivity].
  - rewrite (Hu _ Hc') in He. rewrite He in E. discriminate.
  - rewrite (Hu _ Hc') in He. rewrite He in E. discriminate.
Qed.

Theorem stack_ops l ver v k b i e :
  reach l ver v -> before l v k b i e -> (1 <= b_budget b)%Z ->
  right_stack_op e (length (b_stack b)) ->
  exists v', step v = Ret v' /\
    match stack_spec e (b_stack b) with
    | Some s => v_error v' = false /\
                exists b', nth_error (v_branches v') k = Some b' /\ b_stack b' = s
    | None => v_error v' = true
    end.
Proof.
  intros R B Hb Ro. apply reach_wf in R.
  pose proof (nth_error_lt _ _ _ (before_branch _ _ _ _ _ _ B)) as Hk.
  pose proof (stack_op_cost e ver b (right_is_stack_op _ _ Ro)) as Hc.
  assert (E : forall c,
    match stack_spec e (b_stack b) with
    | Some s => execute e k (put k (pay e c b) (reset v)) =
                (put k (set_line (line_inc (b_line b)) (set_stack s (pay e c b))) (reset v), Ret tt)
    | None => exists v', execute e k (put k (pay e c b) (reset v)) = (v', Panic)
    end) by (intros c; exact (execute_stack_op k (reset v) (pay e c b) e Hk Ro)).
  destruct (stack_spec e (b_stack b)) as [s|].
  - destruct (executes_intro _ _ _ _ _ _ _ 1%Z R B Hc) as [v' X]; [lia|eauto|].
    exists v'. split; [apply X|]. split; [apply X|].
    destruct (executes_stack _ _ _ _ _ _ _ _ R B X) as [c [v3 [b3 [b' [E' [N3 [N' S']]]]]]].
    exists b'. split; [exact N'|]. rewrite S'.
    rewrite (E c) in E'. injection E' as <-. rewrite nth_put in N3 by exact Hk.
    injection N3 as <-. reflexivity.
  - destruct (E 1%Z) as [v3 E1]. destruct (failed_step _ _ _ _ _ _ _ 1%Z v3 R B Hc) as [v' [H1 H2]];
      [lia|exact E1|]. eauto.
Qed.
