(* Proofs about the names of branches and of the frames on their call stacks. *)
From Verif Require Import Base Expr Fields VmOps Vm VmProofs VmSkip VmStep VmExec VmSpec VmInv NameSpec.
From Coq Require Import ZifyBool ZifyNat ZifyN.

Definition okf (l : listing) (f : frame) : Prop :=
  exists j t, fr_return f = Some j /\ nth_error l j = Some (CallSubExpr t) /\ belongs l j (fr_name f).

Definition good (l : listing) (b : branch) : Prop :=
  match b_line b with
  | Some i => belongs l i (b_name b) \/ exists n, nth_error l i = Some (LabelExpr n)
  | None => all_defined l -> b_name b = ExitName
  end /\ Forall (okf l) (b_frames b).

Definition all_good (l : listing) (v : vm) : Prop :=
  v_listing v = l /\ forall b, In b (v_branches v) -> good l b.

(* ------------------------------------------------------------------------------------------ *)
Lemma belongs_next l i n : belongs l i n -> (forall n', nth_error l i <> Some (LabelExpr n')) -> belongs l (S i) n.
Proof.
  intros [[j [H1 [H2 H3]]]|[H1 H2]] H.
  - left. exists j. split; [lia|]. split; [exact H2|]. intros m n' Hm.
    destruct (Nat.eq_dec m i) as [->|]; [apply H|apply H3; lia].
  - right. split; [exact H1|]. intros m n' Hm.
    destruct (Nat.eq_dec m i) as [->|]; [apply H|apply H2; lia].
Qed.

Lemma belongs_label l i n : nth_error l i = Some (LabelExpr n) -> belongs l (S i) n.
Proof.
  intros H. left. exists i. split; [lia|]. split; [exact H|]. intros m n' Hm. lia.
Qed.

Lemma belongs_unique l i n n' : belongs l i n -> belongs l i n' -> n = n'.
Proof.
  intros [[j [H1 [H2 H3]]]|[H1 H2]] [[j' [K1 [K2 K3]]]|[K1 K2]].
  - destruct (Nat.lt_trichotomy j j') as [H|[<-|H]].
    + exfalso. exact (H3 j' n' (conj H K1) K2).
    + congruence.
    + exfalso. exact (K3 j n (conj H H1) H2).
  - exfalso. exact (K2 j n H1 H2).
  - exfalso. exact (H2 j' n' K1 K2).
  - congruence.
Qed.

Lemma good_skip_from l bps : forall ops i b t b' t' ok,
  ops = skipn i l -> b_line b = Some i -> good l b ->
  skip_from ops i bps b t = (b', t', ok) -> good l b'.
Proof.
  induction ops as [|op ops IH]; intros i b t b' t' ok Ho Hi G E; cbn in E.
  - injection E as <- _ _. exact G.
  - assert (Hop : nth_error l i = Some op).
    { clear - Ho. revert l Ho. induction i as [|i IH]; intros [|x l] Ho; cbn in *; try discriminate.
      - congruence.
      - apply IH; exact Ho. }
    assert (Hrest : ops = skipn (S i) l).
    { clear - Ho. revert l Ho. induction i as [|i IH]; intros [|x l] Ho; cbn in *; try discriminate.
      - congruence.
      - apply IH; exact Ho. }
    destruct G as [G1 G2]. rewrite Hi in G1.
    destruct (is_nop op) eqn:En.
    + eapply IH in E; [exact E|exact Hrest|reflexivity|].
      destruct op; try discriminate; (split; [|exact G2]); cbn [b_line b_name set_line set_name]; left;
        try (apply belongs_label; exact Hop);
        (apply belongs_next; [destruct G1 as [G1|[n G1]]; [exact G1|congruence]|congruence]).
    + destruct op; try discriminate; injection E as <- _ _; split; try exact G2; rewrite Hi; exact G1.
Qed.

Lemma good_skip l bps b t b' t' ok :
  good l b -> skip_nops l bps b t = (b', t', ok) -> good l b'.
Proof.
  intros G E. unfold skip_nops in E. destruct (b_line b) as [i|] eqn:Ei.
  - eapply good_skip_from; eauto.
  - injection E as <- _ _. exact G.
Qed.

Lemma good_exit l b : Forall (okf l) (b_frames b) -> good l (exit_branch b).
Proof. intros H. split; [intros _; reflexivity|exact H]. Qed.

Lemma all_good_put l k b v : all_good l v -> good l b -> all_good l (put k b v).
Proof.
  intros [A1 A2] G. split; [exact A1|]. intros x Hx. cbn in Hx. apply In_upd_nth in Hx.
  destruct Hx as [->|Hx]; auto.
Qed.

Lemma all_good_trig l t v : all_good l v -> all_good l (set_trig t v).
Proof. auto. Qed.

Lemma all_good_loop l : forall fuel begin v v',
  all_good l v -> skip_loop fuel begin v = Ret v' -> all_good l v'.
Proof.
  induction fuel as [|fuel IH]; intros begin v v' G E; cbn [skip_loop] in E; [discriminate|].
  destruct (nth_error (v_branches v) (v_current v)) as [b|] eqn:Eb.
  - assert (Gb : good l b) by (apply G; eapply nth_error_In; eauto).
    destruct (b_line b) as [i|] eqn:El.
    + destruct (skip_nops (v_listing v) (v_bps v) b (v_trig v)) as [[b' t'] ok] eqn:Es.
      assert (Gb' : good l b').
      { destruct G as [G1 _]. rewrite G1 in Es. eapply good_skip; eauto. }
      destruct ok.
      * injection E as <-. apply (all_good_put l (v_current v) b' v G Gb').
      * apply IH in E; [exact E|]. apply all_good_put.
        -- apply (all_good_put l (v_current v) b' v G Gb').
        -- apply good_exit, Gb'.
    + cbv zeta in E.
      destruct (_ =? begin); [injection E as <-; exact G|]. apply IH in E; [exact E|exact G].
  - injection E as <-. exact G.
Qed.

Lemma all_good_skip l v v' : all_good l v -> vm_skip_nops v = Ret v' -> all_good l v'.
Proof. apply all_good_loop. Qed.

(* ------------------------------------------------------------------------------------------ *)
(* the Execute methods *)
Section Exec.
Context (l : listing) (i k : nat) (e : expr) (He : nth_error l i = Some e) (Hn : is_nop e = false).

(* while the instruction on line i is at work: the branch stays on its line *)
Definition busy (v : vm) : Prop :=
  v_listing v = l /\
  (forall j b, j <> k -> nth_error (v_branches v) j = Some b -> good l b) /\
  exists b, nth_error (v_branches v) k = Some b /\ b_line b = Some i /\
    belongs l i (b_name b) /\ Forall (okf l) (b_frames b).

Definition Pre {A} (m : M A) : Prop := forall v, busy v -> busy (fst (m k v)).
Definition Fin {A} (m : M A) : Prop := forall v, busy v -> all_good l (fst (m k v)).

Lemma busy_good v : busy v -> all_good l v.
Proof.
  intros [B1 [B2 [b [B3 [B4 [B5 B6]]]]]]. split; [exact B1|]. intros x Hx.
  apply In_nth_error in Hx. destruct Hx as [j Hj].
  destruct (Nat.eq_dec j k) as [->|Hne]; [|eauto].
  assert (x = b) by congruence. subst x. split; [rewrite B4; left; exact B5|exact B6].
Qed.

Lemma Pre_Fin {A} (m : M A) : Pre m -> Fin m.
Proof. intros H v B. apply busy_good, H, B. Qed.

Lemma Pre_bind {A B} (m : M A) (f : A -> M B) : Pre m -> (forall a, Pre (f a)) -> Pre (bind m f).
Proof.
  intros Hm Hf v B0. unfold bind. specialize (Hm v B0). destruct (m k v) as [v1 [a| |]]; cbn in *; auto.
  apply Hf, Hm.
Qed.

Lemma Fin_bind {A B} (m : M A) (f : A -> M B) : Pre m -> (forall a, Fin (f a)) -> Fin (bind m f).
Proof.
  intros Hm Hf v B0. unfold bind. specialize (Hm v B0). destruct (m k v) as [v1 [a| |]]; cbn in *.
  - apply Hf, Hm.
  - apply busy_good, Hm.
  - apply busy_good, Hm.
Qed.

Lemma Pre_pure {A} (m : M A) : (forall v, fst (m k v) = v) -> Pre m.
Proof. intros H v B. rewrite H. exact B. Qed.

Lemma Pre_ret {A} (a : A) : Pre (ret a).
Proof. apply Pre_pure; reflexivity. Qed.
Lemma Pre_throw {A} : Pre (@throw A).
Proof. apply Pre_pure; reflexivity. Qed.
Lemma Pre_diverge {A} : Pre (@diverge A).
Proof. apply Pre_pure; reflexivity. Qed.
Lemma Pre_lift {A} (r : res A) : Pre (lift r).
Proof. apply Pre_pure; reflexivity. Qed.
Lemma Pre_scratch n : Pre (scratch n).
Proof. apply Pre_pure; reflexivity. Qed.
Lemma Pre_get_b : Pre get_b.
Proof. apply Pre_pure. intros v. unfold get_b. destruct (nth_error (v_branches v) k); reflexivity. Qed.

Lemma busy_put v b : busy v -> b_line b = Some i -> belongs l i (b_name b) -> Forall (okf l) (b_frames b) ->
  busy (put k b v).
Proof.
  intros [B1 [B2 [b0 [B3 _]]]] H1 H2 H3. split; [exact B1|]. split.
  - intros j x Hj Hx. cbn in Hx. rewrite nth_upd_nth_other in Hx by congruence. eauto.
  - exists b. split; [eapply nth_put_same; eauto|]. auto.
Qed.

Lemma good_put v b : busy v -> good l b -> all_good l (put k b v).
Proof. intros B G. apply all_good_put; [apply busy_good; exact B|exact G]. Qed.

Lemma Pre_mod f :
  (forall b, b_line (f b) = b_line b) -> (forall b, b_name (f b) = b_name b) ->
  (forall b, Forall (okf l) (b_frames b) -> Forall (okf l) (b_frames (f b))) -> Pre (mod_b f).
Proof.
  intros H1 H2 H3 v B. unfold mod_b. destruct B as [B1 [B2 [b [B3 [B4 [B5 B6]]]]]]. rewrite B3. cbn [fst].
  apply busy_put; [split; [exact B1|split; [exact B2|exists b; auto]]|rewrite H1; exact B4|rewrite H2; exact B5|apply H3; exact B6].
Qed.

Lemma Fin_mod f :
  (forall b, b_line b = Some i -> belongs l i (b_name b) -> Forall (okf l) (b_frames b) -> good l (f b)) -> Fin (mod_b f).
Proof.
  intros H v B. unfold mod_b. pose proof B as [B1 [B2 [b [B3 [B4 [B5 B6]]]]]]. rewrite B3. cbn [fst].
  apply good_put; [exact B|]. apply H; auto.
Qed.

Lemma not_label n : nth_error l i <> Some (LabelExpr n).
Proof. rewrite He. intros Q. injection Q as ->. discriminate. Qed.

Lemma Fin_next : Fin next_line.
Proof.
  apply Fin_mod. intros b H1 H2 H3. split; [|exact H3]. cbn. rewrite H1. cbn.
  left. apply belongs_next; [exact H2|exact not_label].
Qed.

Lemma Fin_exit : Fin exit_m.
Proof. apply Fin_mod. intros b H1 H2 H3. apply good_exit; exact H3. Qed.

Lemma Pre_push x : Pre (push x).
Proof. apply Pre_mod; auto. Qed.

Lemma Pre_pop t : Pre (pop t).
Proof.
  apply Pre_bind; [apply Pre_get_b|]. intros b. destruct (b_stack b) as [|x r]; [apply Pre_throw|].
  destruct (accepts t x); [|apply Pre_throw].
  apply Pre_bind; [apply Pre_mod; auto|intros; apply Pre_ret].
Qed.

Lemma Pre_prepare a r : Pre (prepare a r).
Proof.
  intros v B. pose proof B as [B1 [B2 [b [B3 [B4 [B5 B6]]]]]].
  unfold prepare, bind, get_b. rewrite B3. destruct (b_frames b) as [|f fs] eqn:Ef; [exact B|].
  unfold mod_b. rewrite B3. cbn [fst]. apply busy_put; auto.
  cbn. apply Forall_cons_iff in B6. destruct B6 as [[j [t [F1 [F2 F3]]]] B6]. constructor; [|exact B6].
  exists j, t. auto.
Qed.

Lemma Pre_item n : Pre (item n).
Proof. apply Pre_bind; [apply Pre_get_b|]. intros; apply Pre_lift. Qed.

Lemma Pre_replace n x : Pre (replace n x).
Proof.
  apply Pre_bind; [apply Pre_get_b|]. intros b. destruct (_ <? _); [|apply Pre_throw]. apply Pre_mod; auto.
Qed.

Lemma Pre_store a x : Pre (store a x).
Proof.
  unfold store. destruct (v_src a) as [[m| | | |]|]; try apply Pre_ret.
  intros v B. cbv beta. destruct (_ <? _); exact B.
Qed.

Lemma Pre_field_type s f : Pre (field_type s f).
Proof. unfold field_type. destruct (spec_by_field s f); [apply Pre_ret|apply Pre_throw]. Qed.

Lemma Pre_each {A} (f : A -> M unit) xs : (forall x, In x xs -> Pre (f x)) -> Pre (each f xs).
Proof.
  induction xs as [|x xs IH]; intros H; cbn; [apply Pre_ret|].
  apply Pre_bind; [apply H; left; reflexivity|intros; apply IH; intros; apply H; right; assumption].
Qed.

Lemma Pre_pop_n n t : Pre (pop_n n t).
Proof.
  induction n as [|n IH]; cbn; [apply Pre_ret|].
  apply Pre_bind; [apply Pre_pop|]. intros. apply Pre_bind; [exact IH|intros; apply Pre_ret].
Qed.

(* where jumps go *)
Lemma target_line t : (all_defined l -> exists j, nth_error l j = Some (LabelExpr t)) ->
  match find l t with
  | Some j => exists n, nth_error l j = Some (LabelExpr n)
  | None => ~ all_defined l
  end.
Proof.
  intros H. destruct (find l t) as [j|] eqn:E.
  - apply find_some in E. exists t. apply E.
  - intros D. destruct (H D) as [j Hj]. exact (find_none _ _ E j Hj).
Qed.

Lemma Pre_fork t : (all_defined l -> exists j, nth_error l j = Some (LabelExpr t)) -> Pre (fork t).
Proof.
  intros Ht v B. pose proof B as [B1 [B2 [b [B3 [B4 [B5 B6]]]]]].
  unfold fork, bind, get_b. rewrite B3. rewrite B1.
  destruct (skip_nops l (v_bps v)
    (Branch (v_id v) (find l t) (b_stack b) [] (b_budget b) t (b_trace b)) (v_trig v)) as [[nb t'] ok] eqn:E.
  apply good_skip in E.
  2:{ split; [|constructor]. cbn. pose proof (target_line t Ht) as T. destruct (find l t); [right; exact T|].
      intros D. contradiction. }
  cbn [fst]. split; [exact B1|]. split.
  - intros j x Hj Hx. cbn in Hx.
    destruct (le_lt_dec (length (v_branches v)) j) as [Hl|Hl].
    + rewrite nth_error_app2 in Hx by exact Hl. destruct (j - length (v_branches v)) as [|d]; cbn in Hx.
      * injection Hx as <-. exact E.
      * destruct d; discriminate.
    + rewrite nth_error_app1 in Hx by exact Hl. eauto.
  - exists b. cbn. rewrite nth_error_app1 by (eapply nth_error_lt; eauto). auto.
Qed.

Lemma Fin_jump t : (all_defined l -> exists j, nth_error l j = Some (LabelExpr t)) -> Fin (jump t).
Proof.
  intros Ht v B. unfold jump, bind, find_m.
  pose proof B as [B1 [B2 [b [B3 [B4 [B5 B6]]]]]]. unfold mod_b. rewrite B3, B1. cbn [fst].
  apply good_put; [exact B|]. split; [|exact B6]. cbn.
  pose proof (target_line t Ht) as T. destruct (find l t); [right; exact T|]. intros D. contradiction.
Qed.

Lemma Fin_call t : (all_defined l -> exists j, nth_error l j = Some (LabelExpr t)) ->
  nth_error l i = Some (CallSubExpr t) -> Fin (call t).
Proof.
  intros Ht Hc v B. pose proof B as [B1 [B2 [b [B3 [B4 [B5 B6]]]]]].
  unfold call, bind, get_b, find_m. rewrite B3. unfold mod_b at 1. rewrite B3.
  set (b1 := set_frames _ b).
  assert (B' : busy (put k b1 v)).
  { apply busy_put; auto. cbn. constructor; [|exact B6]. exists i, t. auto. }
  pose proof (nth_put_same k b b1 v B3) as N. unfold mod_b. rewrite N. cbn [fst].
  apply good_put; [exact B'|]. split.
  - cbn [b_line set_line v_listing put set_branches]. rewrite B1. pose proof (target_line t Ht) as T. destruct (find l t); [right; exact T|]. intros D. contradiction.
  - cbn. constructor; [|exact B6]. exists i, t. auto.
Qed.

Lemma Fin_simple :
  Fin (match simple_effect e with Some (ps, qs) => pops_pushes ps qs | None => next_line end).
Proof.
  destruct (simple_effect e) as [[ps qs]|]; [|apply Fin_next].
  apply Fin_bind; [apply Pre_each; intros; apply Pre_bind; [apply Pre_pop|intros; apply Pre_ret]|].
  intros _. apply Fin_bind; [apply Pre_each; intros; apply Pre_push|]. intros _. apply Fin_next.
Qed.

Lemma Fin_retsub : Fin (execute RetSubExpr).
Proof.
  intros v B. pose proof B as [B1 [B2 [b [B3 [B4 [B5 B6]]]]]].
  cbn [execute]. unfold bind at 1, get_b. rewrite B3. destruct (b_frames b) as [|f fs] eqn:Ef.
  - apply Fin_next; exact B.
  - apply Forall_cons_iff in B6. destruct B6 as [[j [t [F1 [F2 F3]]]] B6].
    clear B1 B2 B3. revert v B. apply Fin_bind; [apply Pre_pop_n|]. intros rs.
    apply Fin_bind; [apply Pre_pop_n|]. intros _.
    apply Fin_bind; [apply Pre_each; intros; apply Pre_push|]. intros _.
    apply Fin_mod. intros c C1 C2 C3. split; [|exact B6]. cbn. rewrite F1. cbn. left.
    apply belongs_next; [exact F3|]. congruence.
Qed.
End Exec.

Lemma defined_target l i e t : nth_error l i = Some e -> In t (uses e) ->
  all_defined l -> exists j, nth_error l j = Some (LabelExpr t).
Proof.
  intros He Ht D. apply (D i t). rewrite He. destruct e; cbn in Ht; try contradiction.
  all: try (destruct Ht as [<-|[]]; auto 6).
  - right; right; right; right. exists Targets_. auto.
  - right; right; right; right. exists Targets_. auto.
Qed.

Theorem Fin_execute l i k e : nth_error l i = Some e -> is_nop e = false -> Fin l i k (execute e).
Proof.
  intros He Hn.
  assert (Ht : forall t, In t (uses e) -> all_defined l -> exists j, nth_error l j = Some (LabelExpr t)).
  { intros t Ht. eapply defined_target; eauto. }
  assert (Nx : Fin l i k next_line) by (eapply Fin_next; eauto).
  assert (Sm : Fin l i k (match simple_effect e with Some (ps, qs) => pops_pushes ps qs | None => next_line end))
    by (eapply Fin_simple; eauto).
  Ltac pre :=
    repeat first
      [ apply Pre_push | apply Pre_pop | apply Pre_ret | apply Pre_throw | apply Pre_get_b
      | apply Pre_prepare | apply Pre_item | apply Pre_replace | apply Pre_store
      | apply Pre_scratch | apply Pre_field_type | apply Pre_pop_n
      | match goal with
        | H : forall t, In t (uses _) -> _ |- Pre _ _ _ (fork _) =>
            apply Pre_fork, H; first [assumption|left; reflexivity]
        end
      | apply Pre_each; intros | apply Pre_bind; [|intros] ].
  Ltac fin :=
    repeat first
      [ assumption | apply Fin_exit | apply Fin_bind; [pre|intros] | apply Pre_Fin, Pre_throw | apply Pre_Fin, Pre_diverge ].
  split_expr e; try discriminate Hn; try (cbn [execute]; fin; fail).
  - destruct o; cbn [execute] in *; fin.
  - eapply Fin_retsub; eauto.
  - apply Fin_jump, Ht; left; reflexivity.
  - apply Fin_call; [apply Ht; left; reflexivity|exact He].
  - cbn [execute]; fin. destruct (255 <=? Count_)%N; fin.
  - cbn [execute]; fin. destruct (b_frames a); fin.
  - cbn [execute]; fin. destruct (b_frames a); fin.
Qed.

(* ------------------------------------------------------------------------------------------ *)
(* steps and sessions *)
Lemma step_good l ver v v' : wf l ver v -> all_good l v -> step v = Ret v' -> all_good l v'.
Proof.
  intros W G E. destruct (step_cases v (wf_cur _ _ _ W)) as [v1 [E1 [P1 S]]]. rewrite E in S. clear E.
  assert (G1 : all_good l v1) by (eapply all_good_skip; [|exact E1]; exact G).
  inversion S as [Hn Hv|k b i e r Hk Hkc Hb Hl He Hnop St Hr]; clear S; subst; [exact G1|].
  assert (L1 : v_listing v1 = l) by apply G1. rewrite L1 in He.
  assert (Gb : good l b) by (apply G1; eapply nth_error_In; eauto).
  assert (B : forall c, busy l i (v_current v1) (put (v_current v1) (pay e c b) v1)).
  { intros c. split; [exact L1|]. split.
    - intros j x Hj Hx. cbn in Hx. rewrite nth_upd_nth_other in Hx by congruence.
      apply G1. eapply nth_error_In; eauto.
    - exists (pay e c b). split; [eapply nth_put_same; eauto|]. split; [exact Hl|].
      destruct Gb as [Gb1 Gb2]. rewrite Hl in Gb1. split; [|exact Gb2]. cbn.
      destruct Gb1 as [Gb1|[n Gb1]]; [exact Gb1|]. rewrite He in Gb1. injection Gb1 as ->. discriminate. }
  clear L1.
  inversion St as [Hp Hr|c Hcost Hc1 Hc2 Hr|c v3 Hcost Hc Hex Hr|c v3 Hcost Hc Hex Hr
                  |c v3 b3 b4 t4 ok v5 b5 Hcost Hc Hex Hb3 Hsk Hvs P5 Hb5 Hr]; clear St; subst.
  - exact G1.
  - apply all_good_put; [exact G1|]. apply good_exit, Gb.
  - pose proof (Fin_execute l i (v_current v1) e He Hnop _ (B c)) as F. rewrite Hex in F. exact F.
  - pose proof (Fin_execute l i (v_current v1) e He Hnop _ (B c)) as F. rewrite Hex in F. cbn [fst] in F.
    assert (G5 : all_good l v5).
    { eapply all_good_skip; [|exact Hvs]. apply all_good_trig, all_good_put; [exact F|].
      destruct F as [F1 F2]. rewrite F1 in Hsk. eapply good_skip; [|exact Hsk]. apply F2. eapply nth_error_In; eauto. }
    exact G5.
Qed.

Lemma new_good l ver v : new_vm l ver = Ret v -> all_good l v.
Proof.
  intros E. unfold new_vm in E. eapply all_good_skip; [|exact E]. split; [reflexivity|].
  intros b [<-|[]]. split; [|constructor]. cbn. left. right. split; [reflexivity|]. intros m n' Hm. lia.
Qed.

Lemma reach_good l ver v : reach l ver v -> all_good l v.
Proof.
  intros [v0 [E H]].
  assert (G : wf l ver v /\ all_good l v).
  { eapply (later_inv (fun v => wf l ver v /\ all_good l v)); [|split; [eapply new_wf; eauto|eapply new_good; eauto]|exact H].
    clear. intros v v' [W G] C. split; [eapply command_wf; eauto|].
    destruct C as [v' E|v' fuel E|id|lns v' ns E].
    - eapply step_good; eauto.
    - assert (Q : wf l ver v' /\ all_good l v').
      { eapply (run_inv (fun v => wf l ver v /\ all_good l v)); [|split; eauto|exact E].
        intros a b [Wa Ga] Es. split; [eapply step_wf; eauto|eapply step_good; eauto]. }
      apply Q.
    - unfold switch_vm. destruct (find_branch 0 (v_branches v) id); exact G.
    - unfold set_breakpoints in E. destruct (bind_lines (v_listing v) lns); try discriminate.
      cbn in E. injection E as <- _. exact G. }
  apply G.
Qed.

Theorem names_right l ver v b :
  reach l ver v -> In b (v_branches v) ->
  (forall i, on_line b i -> belongs l i (b_name b)) /\
  (exited b -> all_defined l -> b_name b = "(exited)"%string) /\
  forall f, In f (b_frames b) -> exists j t, fr_return f = Some j /\ nth_error l j = Some (CallSubExpr t) /\
    belongs l j (fr_name f).
Proof.
  intros R Hb. destruct (reach_good _ _ _ R) as [G1 G2]. destruct (G2 b Hb) as [G3 G4].
  pose proof (reach_wf _ _ _ R) as W. split; [|split].
  - intros i Hi. unfold on_line in Hi. rewrite Hi in G3. destruct G3 as [G3|[n G3]]; [exact G3|].
    pose proof (wf_landed _ _ _ W b Hb i (LabelExpr n) Hi) as Q. rewrite G1 in Q. discriminate (Q G3).
  - intros He D. unfold exited in He. rewrite He in G3. exact (G3 D).
  - rewrite Forall_forall in G4. exact G4.
Qed.
