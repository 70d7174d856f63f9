(* Where the values on the stacks of the debugger come from. *)
From Verif Require Import Base Expr Fields VmOps Vm VmProofs VmSkip VmStep VmExec VmSpec VmInv VmThms ValueSpec.
From Coq Require Import ZifyBool ZifyNat ZifyN.

Inductive made3 (S : expr -> Prop) : value -> Prop :=
| m3_plain T : made3 S (Val T None)
| m3_int n : S (IntExpr n) -> made3 S (Val TUint64 (Some (SUint64 n)))
| m3_bytes e x : S e -> bytes_of e x -> made3 S (Val TBytes (Some (SBytes x)))
| m3_method s : S (MethodExpr s) -> made3 S (Val TBytes (Some (SSignature s)))
| m3_load i x : S (LoadExpr i) -> made3 S x -> made3 S (Val TAny (Some (SValue x)))
| m3_sha256 x : S (Op0 Sha256Expr) -> made3 S x ->
    made3 S (Val TBytes (Some (SOp "sha256" [x])))
| m3_ed25519 x1 x2 x3 : S (Op0 ED25519VerifyExpr) -> made3 S x1 -> made3 S x2 -> made3 S x3 ->
    made3 S (Val TUint64 (Some (SOp "ed25519verify" [x1; x2; x3])))
| m3_ecdsa i x1 x2 x3 x4 x5 : S (EcdsaVerifyExpr i) ->
    made3 S x1 -> made3 S x2 -> made3 S x3 -> made3 S x4 -> made3 S x5 ->
    made3 S (Val TUint64 (Some (SOp "ecdsa_verify" [x1; x2; x3; x4; x5]))).

Lemma made_mono (S S' : expr -> Prop) x : (forall e, S e -> S' e) -> made S x -> made S' x.
Proof. intros H M. induction M; econstructor; eauto. Qed.
Lemma made3_mono (S S' : expr -> Prop) x : (forall e, S e -> S' e) -> made3 S x -> made3 S' x.
Proof. intros H M. induction M; econstructor; eauto. Qed.
Lemma made3_made (S : expr -> Prop) x :
  ~ S (Op0 ED25519VerifyExpr) -> (forall i, ~ S (EcdsaVerifyExpr i)) -> made3 S x -> made S x.
Proof. intros H H' M. induction M; try (econstructor; eauto; fail); [contradiction|destruct (H' i); assumption]. Qed.

Section Keep.
Context (P : value -> Prop).

Definition good_vm (v : vm) : Prop :=
  (forall b, In b (v_branches v) -> Forall P (b_stack b)) /\ Forall P (v_scratch v).

Definition Keep {A} (m : M A) (R : A -> Prop) : Prop :=
  forall k v, good_vm v -> good_vm (fst (m k v)) /\ (forall a, snd (m k v) = Ret a -> R a).

Definition any {A} (_ : A) : Prop := True.

Lemma Keep_bind {A B} (m : M A) (f : A -> M B) (R : A -> Prop) (Q : B -> Prop) :
  Keep m R -> (forall a, R a -> Keep (f a) Q) -> Keep (bind m f) Q.
Proof.
  intros Hm Hf k v G. unfold bind. destruct (Hm k v G) as [G1 R1].
  destruct (m k v) as [v1 [a| |]]; cbn in *; try (split; [exact G1|discriminate]).
  exact (Hf a (R1 a eq_refl) k v1 G1).
Qed.
Lemma Keep_ret {A} (a : A) (R : A -> Prop) : R a -> Keep (ret a) R.
Proof. intros H k v G. split; [exact G|]. cbn. intros b E. injection E as <-. exact H. Qed.
Lemma Keep_throw {A} (R : A -> Prop) : Keep (@throw A) R.
Proof. intros k v G. split; [exact G|discriminate]. Qed.
Lemma Keep_diverge {A} (R : A -> Prop) : Keep (@diverge A) R.
Proof. intros k v G. split; [exact G|discriminate]. Qed.
Lemma Keep_any {A} (m : M A) R : Keep m R -> Keep m any.
Proof. intros H k v G. destruct (H k v G). split; [assumption|]. intros; exact I. Qed.

Definition good_branch (b : branch) : Prop := Forall P (b_stack b).

Lemma Keep_get_b : Keep get_b good_branch.
Proof.
  intros k v G. unfold get_b. destruct (nth_error (v_branches v) k) as [b|] eqn:E; cbn.
  - split; [exact G|]. intros a Ea. injection Ea as <-. apply G. eapply nth_error_In; eauto.
  - split; [exact G|discriminate].
Qed.
Lemma Keep_mod_b f : (forall b, good_branch b -> good_branch (f b)) -> Keep (mod_b f) any.
Proof.
  intros H k v G. unfold mod_b. destruct (nth_error (v_branches v) k) as [b|] eqn:E; cbn.
  - split; [|intros; exact I]. destruct G as [G1 G2]. split; [|exact G2]. cbn. intros x Hx.
    apply In_upd_nth in Hx. destruct Hx as [->|Hx]; [|auto]. apply H, G1. eapply nth_error_In; eauto.
  - split; [exact G|discriminate].
Qed.
Lemma Keep_field_type s f : Keep (field_type s f) any.
Proof. unfold field_type. destruct (spec_by_field s f); [apply Keep_ret; exact I|apply Keep_throw]. Qed.
Lemma Keep_find_m t : Keep (find_m t) any.
Proof. intros k v G. split; [exact G|intros; exact I]. Qed.
Lemma Keep_scratch n : Keep (scratch n) P.
Proof.
  intros k v G. split; [exact G|]. cbn. unfold index. destruct (nth_error (v_scratch v) _) eqn:E; [|discriminate].
  intros a Ea. injection Ea as <-. destruct G as [_ G]. rewrite Forall_forall in G. apply G.
  eapply nth_error_In; eauto.
Qed.
Lemma Keep_store i x : P x -> Keep (store i x) any.
Proof.
  intros H. unfold store. destruct (v_src i) as [[n|s|s|o a|y]|]; try (apply Keep_ret; exact I).
  intros k v G. destruct (_ <? _); cbn; (split; [|intros; exact I || discriminate]); [|exact G].
  destruct G as [G1 G2]. split; [exact G1|]. cbn. rewrite Forall_forall in *. intros y Hy.
  apply In_upd_nth in Hy. destruct Hy as [->|Hy]; auto.
Qed.
Lemma Keep_fork t : Keep (fork t) any.
Proof.
  eapply Keep_bind; [apply Keep_get_b|]. intros b Hb k v G.
  cbn zeta beta.
  match goal with |- context [skip_nops ?a ?b ?c ?d] => destruct (skip_nops a b c d) as [[nb t'] ok] eqn:E end.
  cbn [fst snd]. split; [|intros; exact I]. destruct G as [G1 G2]. split; [|exact G2]. cbn. intros x Hx.
  apply in_app_or in Hx. destruct Hx as [Hx|[<-|[]]]; [auto|].
  destruct (skip_nops_spec _ _ _ _ _ _ _ E) as [_ [S2 _]].
  rewrite S2. exact Hb.
Qed.
Lemma Keep_push x : P x -> Keep (push x) any.
Proof. intros H. apply Keep_mod_b. intros b Hb. constructor; assumption. Qed.
Lemma Keep_pop t : Keep (pop t) P.
Proof.
  eapply Keep_bind; [apply Keep_get_b|]. intros b Hb. unfold good_branch in Hb.
  destruct (b_stack b) as [|x r] eqn:E; [apply Keep_throw|]. inversion Hb; subst.
  destruct (accepts t x); [|apply Keep_throw].
  eapply Keep_bind; [apply Keep_mod_b; intros; assumption|]. intros; apply Keep_ret; assumption.
Qed.
Lemma Keep_pop_n n t : Keep (pop_n n t) (Forall P).
Proof.
  induction n as [|n IH]; cbn; [apply Keep_ret; constructor|].
  eapply Keep_bind; [apply Keep_pop|]. intros x Hx. eapply Keep_bind; [exact IH|].
  intros r Hr. apply Keep_ret. constructor; assumption.
Qed.
Lemma Keep_each {A} (f : A -> M unit) xs : (forall x, In x xs -> Keep (f x) any) -> Keep (each f xs) any.
Proof.
  induction xs as [|x xs IH]; intros H; cbn; [apply Keep_ret; exact I|].
  eapply Keep_bind; [apply H; left; reflexivity|]. intros _ _. apply IH. intros y Hy. apply H. right; exact Hy.
Qed.
Lemma Keep_each_push xs : Forall P xs -> Keep (each push xs) any.
Proof. intros H. apply Keep_each. rewrite Forall_forall in H. intros x Hx. apply Keep_push. auto. Qed.
Lemma Keep_item n : Keep (item n) P.
Proof.
  eapply Keep_bind; [apply Keep_get_b|]. intros b Hb k v G. split; [exact G|]. cbn.
  unfold index. destruct (nth_error (rev (b_stack b)) n) eqn:E; [|discriminate].
  intros a Ea. injection Ea as <-. unfold good_branch in Hb. rewrite Forall_forall in Hb.
  apply Hb. apply in_rev. eapply nth_error_In; eauto.
Qed.
Lemma Keep_replace n x : P x -> Keep (replace n x) any.
Proof.
  intros H. eapply Keep_bind; [apply Keep_get_b|]. intros b Hb. destruct (_ <? _); [|apply Keep_throw].
  apply Keep_mod_b. intros b' Hb'. unfold good_branch in *. cbn. apply Forall_rev.
  rewrite Forall_forall in *. intros y Hy. apply In_upd_nth in Hy. destruct Hy as [->|Hy]; auto.
  apply Hb. apply in_rev. exact Hy.
Qed.

Context (PV : forall T, P (Val T None)).

Lemma Keep_next_line : Keep next_line any.
Proof. apply Keep_mod_b. intros b H. exact H. Qed.
Lemma Keep_exit : Keep exit_m any.
Proof. apply Keep_mod_b. intros b H. exact H. Qed.

Lemma Keep_pops_pushes ps qs : Keep (pops_pushes ps qs) any.
Proof.
  unfold pops_pushes. eapply Keep_bind.
  { apply Keep_each. intros t _. eapply Keep_bind; [apply Keep_pop|]. intros; apply Keep_ret; exact I. }
  intros _ _. eapply Keep_bind; [|intros; apply Keep_next_line].
  apply Keep_each. intros t _. apply Keep_push, PV.
Qed.

Ltac keep :=
  repeat first
    [ apply Keep_pops_pushes | apply Keep_pop | apply Keep_throw | apply Keep_diverge | apply Keep_get_b | apply Keep_scratch
    | apply Keep_find_m | apply Keep_fork | apply Keep_pop_n | apply Keep_field_type | apply Keep_item
    | apply Keep_next_line | apply Keep_exit
    | apply Keep_store; assumption | apply Keep_replace; assumption
    | apply Keep_push; solve [apply PV | assumption]
    | apply Keep_each_push; solve [apply Forall_rev; assumption | assumption]
    | apply Keep_ret; solve [exact I | assumption]
    | apply Keep_mod_b; solve [intros ? Hgood; exact Hgood]
    | apply Keep_each; intros
    | eapply Keep_bind; [solve [keep0]|intros]
    | match goal with |- Keep (match ?x with _ => _ end) _ => destruct x end
    | match goal with |- Keep (if ?x then _ else _) _ => destruct x end
    | progress unfold prepare, jump, call ]
with keep0 := first
    [ apply Keep_pop | apply Keep_throw | apply Keep_diverge | apply Keep_get_b | apply Keep_scratch
    | apply Keep_find_m | apply Keep_fork | apply Keep_pop_n | apply Keep_field_type | apply Keep_item
    | apply Keep_next_line
    | apply Keep_store; assumption | apply Keep_replace; assumption
    | apply Keep_push; solve [apply PV | assumption]
    | apply Keep_each_push; solve [apply Forall_rev; assumption | assumption]
    | apply Keep_mod_b; solve [intros ? Hgood; exact Hgood]
    | apply Keep_each; intros; keep
    | unfold prepare; keep ].

Context (S : expr -> Prop).
(* what the instructions of S push *)
Context (PS : forall x, (exists e, S e /\ match e with
    | IntExpr n => x = Val TUint64 (Some (SUint64 n))
    | MethodExpr s => x = Val TBytes (Some (SSignature s))
    | PushBytesExpr b _ | ByteExpr b _ => x = Val TBytes (Some (SBytes b))
    | PushBytessExpr bs => exists b, In b bs /\ x = Val TBytes (Some (SBytes b))
    | LoadExpr _ => exists y, P y /\ x = Val TAny (Some (SValue y))
    | Op0 Sha256Expr => exists y, P y /\ x = Val TBytes (Some (SOp "sha256" [y]))
    | Op0 ED25519VerifyExpr => exists y1 y2 y3, P y1 /\ P y2 /\ P y3 /\
        x = Val TUint64 (Some (SOp "ed25519verify" [y1; y2; y3]))
    | EcdsaVerifyExpr _ => exists y1 y2 y3 y4 y5, P y1 /\ P y2 /\ P y3 /\ P y4 /\ P y5 /\
        x = Val TUint64 (Some (SOp "ecdsa_verify" [y1; y2; y3; y4; y5]))
    | _ => False
    end) -> P x).

Lemma Keep_execute e : S e -> Keep (execute e) any.
Proof.
  intros H.
  split_expr e; try (cbn [execute]; keep; fail).
  - destruct o; try (cbn [execute simple_effect]; keep; fail).
    + cbn [execute]. eapply Keep_bind; [apply Keep_pop|]. intros x Hx.
      eapply Keep_bind; [apply Keep_push, PS; eexists; split; [exact H|cbn; eauto]|]. intros; keep.
    + cbn [execute]. eapply Keep_bind; [apply Keep_pop|]. intros x1 H1.
      eapply Keep_bind; [apply Keep_pop|]. intros x2 H2.
      eapply Keep_bind; [apply Keep_pop|]. intros x3 H3.
      eapply Keep_bind; [apply Keep_push, PS; eexists; split; [exact H|cbn; eauto 10]|]. intros; keep.
  - cbn [execute]. eapply Keep_bind; [apply Keep_pop|]. intros x1 H1.
    eapply Keep_bind; [apply Keep_pop|]. intros x2 H2.
    eapply Keep_bind; [apply Keep_pop|]. intros x3 H3.
    eapply Keep_bind; [apply Keep_pop|]. intros x4 H4.
    eapply Keep_bind; [apply Keep_pop|]. intros x5 H5.
    eapply Keep_bind; [apply Keep_push, PS; eexists; split; [exact H|]|intros; keep].
    cbn. exists x1, x2, x3, x4, x5. auto 10.
  - cbn [execute]. eapply Keep_bind; [apply Keep_scratch|]. intros x Hx.
    eapply Keep_bind; [apply Keep_push, PS; eexists; split; [exact H|cbn; eauto]|intros; keep].
  - cbn [execute].
    eapply Keep_bind; [apply Keep_push, PS; eexists; split; [exact H|reflexivity]|intros; keep].
  - cbn [execute].
    eapply Keep_bind; [apply Keep_push, PS; eexists; split; [exact H|reflexivity]|intros; keep].
  - cbn [execute].
    eapply Keep_bind; [apply Keep_push, PS; eexists; split; [exact H|reflexivity]|intros; keep].
  - cbn [execute]. eapply Keep_bind; [apply Keep_pop|]. intros x Hx.
    destruct (255 <=? _)%N; [apply Keep_diverge|].
    eapply Keep_bind; [apply Keep_each_push|intros; keep].
    apply Forall_forall. intros y Hy. apply repeat_spec in Hy. subst y. exact Hx.
  - cbn [execute].
    eapply Keep_bind; [apply Keep_push, PS; eexists; split; [exact H|reflexivity]|intros; keep].
  - cbn [execute]. eapply Keep_bind; [|intros; keep]. apply Keep_each. intros x Hx.
    apply Keep_push, PS. eexists. split; [exact H|]. cbn. eauto.
Qed.
End Keep.

Lemma made_pushed (S : expr -> Prop) e : S e -> Keep (made3 S) (execute e) any.
Proof.
  apply Keep_execute; [apply m3_plain|]. intros x [e' [H Hx]].
  split_expr e'; try contradiction.
  all: try (subst x; econstructor; eauto; cbn; auto; fail).
  - destruct o; try contradiction.
    + destruct Hx as [y [Hy ->]]. apply m3_sha256; assumption.
    + destruct Hx as [y1 [y2 [y3 [H1 [H2 [H3 ->]]]]]]. apply m3_ed25519; assumption.
  - destruct Hx as [y1 [y2 [y3 [y4 [y5 [H1 [H2 [H3 [H4 [H5 ->]]]]]]]]]]. eapply m3_ecdsa; eassumption.
  - destruct Hx as [y [Hy ->]]. eapply m3_load; eassumption.
  - destruct Hx as [y [Hy ->]]. eapply m3_bytes; eauto.
Qed.

(* ------------------------------------------------------------------------------------------ *)
Definition sourced (v : vm) : Prop := good_vm (made3 (executed v)) v.

Lemma good_mono (P Q : value -> Prop) v : (forall x, P x -> Q x) -> good_vm P v -> good_vm Q v.
Proof.
  intros H [G1 G2]. split.
  - intros b Hb. eapply Forall_impl; [exact H|auto].
  - eapply Forall_impl; [exact H|exact G2].
Qed.

Lemma settled_good P l v v' :
  Forall2 (settle l) (v_branches v) (v_branches v') -> v_scratch v' = v_scratch v ->
  good_vm P v -> good_vm P v'.
Proof.
  intros F E [G1 G2]. split; [|rewrite E; exact G2]. intros b Hb.
  destruct (Forall2_In_r _ _ _ _ F Hb) as [a [Ha [_ [St _]]]]. rewrite St. auto.
Qed.

Lemma settled_executed l v v' e :
  Forall2 (settle l) (v_branches v) (v_branches v') -> executed v e -> executed v' e.
Proof.
  intros F [b [Hb He]]. destruct (In_nth_error _ _ Hb) as [k Hk].
  destruct (Forall2_nth _ _ _ _ _ F Hk) as [b' [Hk' [_ [_ [_ [_ [Tr _]]]]]]].
  exists b'. split; [eapply nth_error_In; eauto|]. rewrite Tr. exact He.
Qed.

Lemma settled_sourced l v v' :
  Forall2 (settle l) (v_branches v) (v_branches v') -> v_scratch v' = v_scratch v ->
  sourced v -> sourced v'.
Proof.
  intros F E G. unfold sourced. eapply settled_good; [exact F|exact E|].
  eapply good_mono; [|exact G]. intros x. apply made3_mono. intros e. eapply settled_executed; eauto.
Qed.

Lemma put_executed k b b' v e :
  nth_error (v_branches v) k = Some b -> (forall x, In x (b_trace b) -> In x (b_trace b')) ->
  executed v e -> executed (put k b' v) e.
Proof.
  intros Hk H [a [Ha He]]. destruct (In_nth_error _ _ Ha) as [j Hj].
  destruct (Nat.eq_dec k j) as [<-|N].
  - assert (a = b) by congruence. subst a. exists b'. split; [|auto].
    eapply nth_error_In. apply nth_put_same with (b := b). exact Hk.
  - exists a. split; [|exact He]. eapply nth_error_In. rewrite nth_put_other by exact N. exact Hj.
Qed.

Lemma put_good P k b b' v :
  nth_error (v_branches v) k = Some b -> b_stack b' = b_stack b -> good_vm P v -> good_vm P (put k b' v).
Proof.
  intros Hk E [G1 G2]. split; [|exact G2]. cbn. intros x Hx. apply In_upd_nth in Hx.
  destruct Hx as [->|Hx]; [|auto]. rewrite E. apply G1. eapply nth_error_In; eauto.
Qed.

Lemma execute_executed e k v v' r b x :
  execute e k v = (v', r) -> nth_error (v_branches v) k = Some b -> executed v x -> executed v' x.
Proof.
  intros E Hb [a [Ha Hx]]. destruct (Ext_execute e k _ _ _ E) as [_ X].
  destruct (X _ Hb) as [b' [new [A1 [_ [_ [A4 _]]]]]].
  destruct (In_nth_error _ _ Ha) as [j Hj].
  destruct (Nat.eq_dec k j) as [<-|N].
  - assert (a = b) by congruence. subst a. exists b'. split.
    + rewrite A1. apply in_or_app. left. eapply nth_error_In. rewrite nth_upd_nth_same, Hb. reflexivity.
    + rewrite A4. exact Hx.
  - exists a. split; [|exact Hx]. rewrite A1. apply in_or_app. left. eapply nth_error_In.
    rewrite nth_upd_nth_other by exact N. exact Hj.
Qed.

Lemma step_sourced l ver v v' : wf l ver v -> sourced v -> step v = Ret v' -> sourced v'.
Proof.
  intros W G E. destruct W as [Wl Wv Wi Wn Wc Ws Wb Wa Wbr Wp].
  destruct (step_cases v Wc) as [v1 [E1 [P1 S]]]. rewrite E in S. clear E E1.
  destruct P1 as [Q1 [Q2 [Q3 _]]]. destruct Q1 as [_ [_ [_ [R4 _]]]].
  assert (G1 : sourced v1) by (eapply (settled_sourced _ (reset v) v1); eauto).
  inversion S as [Hn Hv|k b1 i e r Hk Hkc Hb1 Hl He Hnop St Hr]; clear S; subst; [exact G1|].
  assert (X : forall c v3 r, execute e (v_current v1) (put (v_current v1) (pay e c b1) v1) = (v3, r) -> sourced v3).
  { intros c v3 r Ex. set (k := v_current v1) in *.
    assert (T : forall x, executed v1 x \/ x = e -> executed v3 x).
    { intros x Hx. eapply execute_executed; [exact Ex|eapply nth_put_same; exact Hb1|].
      destruct Hx as [Hx| ->].
      - eapply put_executed; [exact Hb1| |exact Hx]. intros y Hy. cbn. apply in_or_app. auto.
      - exists (pay e c b1). split; [eapply nth_error_In; eapply nth_put_same; exact Hb1|].
        cbn. apply in_or_app. right. left. reflexivity. }
    assert (K := made_pushed (fun x => executed v1 x \/ x = e) e (or_intror eq_refl) k (put k (pay e c b1) v1)).
    rewrite Ex in K. destruct K as [K _].
    - eapply put_good; [exact Hb1|reflexivity|]. eapply good_mono; [|exact G1].
      intros x. apply made3_mono. auto.
    - cbn in K. eapply good_mono; [|exact K]. intros x. apply made3_mono. exact T. }
  inversion St as [Hp Hr|c Hcost Hc1 Hc2 Hr|c v3 Hcost Hc Hex Hr|c v3 Hcost Hc Hex Hr
                    |c v3 b3 b4 t4 ok v5 b5 Hcost Hc Hex Hb3 Hsk Hvs P5 Hb5 Hr]; clear St; subst; try discriminate.
  - exact G1.
  - unfold sourced. eapply put_good; [exact Hb1|reflexivity|]. eapply good_mono; [|exact G1].
    intros x. apply made3_mono. intros y. eapply put_executed; [exact Hb1|]. auto.
  - exact (X _ _ _ Hex).
  - pose proof (X _ _ _ Hex) as G3. destruct P5 as [[_ [_ [_ [T4 _]]]] [_ [T3 _]]].
    destruct (skip_nops_spec _ _ _ _ _ _ _ Hsk) as [S1 [S2 [S3 [S4 [S5 [S6 [S7 S8]]]]]]].
    change (sourced v5). eapply (settled_sourced _ (set_trig t4 (put (v_current v1) b4 v3))); eauto.
    unfold sourced. change (good_vm (made3 (executed (put (v_current v1) b4 v3))) (put (v_current v1) b4 v3)).
    eapply put_good; [exact Hb3|congruence|]. eapply good_mono; [|exact G3].
    intros x. apply made3_mono. intros y. eapply put_executed; [exact Hb3|]. intros z. congruence.
Qed.

Lemma new_sourced l ver v : new_vm l ver = Ret v -> sourced v.
Proof.
  unfold new_vm. set (v0 := Vm _ _ _ _ _ _ _ _ _ _). intros E.
  assert (C : v_current v0 < length (v_branches v0)) by (cbn; lia).
  destruct (vm_skip_nops_spec v0 C) as [v' [E' [[_ [_ [_ [Q _]]]] [_ [F _]]]]].
  assert (v' = v) by congruence. subst v'. eapply settled_sourced; [exact F|exact Q|].
  split.
  - intros b [<-|[]]. constructor.
  - cbn [v_scratch v0]. apply Forall_forall. intros x Hx. apply repeat_spec in Hx. subst x. apply m3_plain.
Qed.

Theorem all_sourced l ver v : reach l ver v -> sourced v.
Proof.
  intros [v0 [E H]].
  enough (wf l ver v /\ sourced v) by tauto.
  eapply (later_inv (fun v => wf l ver v /\ sourced v)); [| |exact H].
  - intros a b [Wa Ga] C. split; [eapply command_wf; eauto|]. destruct C as [v' E'|v' fuel E'|id|lns v' ns E'].
    + eapply step_sourced; eauto.
    + enough (wf l ver v' /\ sourced v') by tauto.
      eapply (run_inv (fun v => wf l ver v /\ sourced v)); [|split; eassumption|exact E'].
      intros x y [Wx Gx] Ey. split; [eapply step_wf; eauto|eapply step_sourced; eauto].
    + unfold switch_vm. destruct (find_branch _ _ _); exact Ga.
    + unfold set_breakpoints in E'. destruct (bind_lines _ _); try discriminate.
      cbn in E'. injection E' as <- <-. exact Ga.
  - split; [eapply new_wf; eauto|eapply new_sourced; eauto].
Qed.

(* executed instructions are lines of the program *)
Lemma step_listed l ver v v' :
  wf l ver v -> (forall e, executed v e -> In e l) -> step v = Ret v' -> forall e, executed v' e -> In e l.
Proof.
  intros W H E e [x [Hx He]].
  destruct (step_spec_facts _ _ _ _ W E) as [k [b [b' [new [Hb [F [_ [_ [_ [_ [_ [_ [_ [_ [_ [_ A]]]]]]]]]]]]]]]].
  destruct (Forall2_In_r _ _ _ _ F Hx) as [y [Hy [_ [_ [_ [_ [T _]]]]]]]. rewrite T in He. clear T F Hx.
  assert (Hbb : forall e, In e (b_trace b) -> In e l).
  { intros z Hz. apply H. exists b. split; [eapply nth_error_In; eauto|exact Hz]. }
  assert (B : forall e, In e (b_trace b') -> In e l).
  { destruct A as [-> _ _ _ _ _|c e0 i _ _ _ _ _ _ T _ _ _ _|c e0 i _ Hi _ _ _ _ T _ _ _ _ _ _]; intros z Hz.
    - auto.
    - rewrite T in Hz. auto.
    - rewrite T in Hz. apply in_app_or in Hz. destruct Hz as [Hz|[<-|[]]]; [auto|].
      eapply nth_error_In; eauto. }
  apply in_app_or in Hy. destruct Hy as [Hy|Hy].
  - apply In_upd_nth in Hy. destruct Hy as [->|Hy]; [auto|]. apply H. exists y. auto.
  - destruct A as [_ -> _ _ _ _|c e0 i _ _ _ _ _ _ T -> _ _ _|c e0 i _ Hi _ _ _ _ T _ Bn _ _ _ _]; try contradiction.
    rewrite Forall_forall in Bn. destruct (Bn y Hy) as [_ [Ty _]]. rewrite Ty in He. auto.
Qed.

Theorem executed_listed l ver v e : reach l ver v -> executed v e -> In e l.
Proof.
  intros [v0 [E H]] X. revert e X.
  enough (wf l ver v /\ forall e, executed v e -> In e l) by tauto.
  eapply (later_inv (fun v => wf l ver v /\ forall e, executed v e -> In e l)); [| |exact H].
  - intros a b [Wa Ga] C. split; [eapply command_wf; eauto|]. destruct C as [v' E'|v' fuel E'|id|lns v' ns E'].
    + eapply step_listed; eauto.
    + enough (wf l ver v' /\ forall e, executed v' e -> In e l) by tauto.
      eapply (run_inv (fun v => wf l ver v /\ forall e, executed v e -> In e l)); [|split; eassumption|exact E'].
      intros x y [Wx Gx] Ey. split; [eapply step_wf; eauto|eapply step_listed; eauto].
    + unfold switch_vm. destruct (find_branch _ _ _); exact Ga.
    + unfold set_breakpoints in E'. destruct (bind_lines _ _); try discriminate.
      cbn in E'. injection E' as <- <-. exact Ga.
  - split; [eapply new_wf; eauto|]. unfold new_vm in E.
    set (w := Vm _ _ _ _ _ _ _ _ _ _) in E.
    assert (C : v_current w < length (v_branches w)) by (cbn; lia).
    destruct (vm_skip_nops_spec w C) as [v' [E' [_ [_ [F _]]]]].
    assert (v' = v0) by congruence. subst v'. intros e [x [Hx He]].
    destruct (Forall2_In_r _ _ _ _ F Hx) as [y [Hy [_ [_ [_ [_ [T _]]]]]]]. rewrite T in He.
    destruct Hy as [<-|[]]. contradiction.
Qed.

(* ------------------------------------------------------------------------------------------ *)
(* nothing dear is executed *)
Lemma price_total ver : forall es cs e, Forall2 (price ver) es cs -> In e es -> exists c, price ver e c /\ (c <= total cs)%Z.
Proof.
  intros es cs e F. assert (P : (0 <= total cs)%Z).
  { induction F as [|x c es cs [H _] F IH]; [cbn; lia|]. change (total (c :: cs)) with (c + total cs)%Z. lia. }
  induction F as [|x c es cs Hp F IH]; intros H; [contradiction|].
  assert (Q : (0 <= total cs)%Z).
  { clear - F. induction F as [|x c es cs [H _] F IH]; [cbn; lia|]. change (total (c :: cs)) with (c + total cs)%Z. lia. }
  change (total (c :: cs)) with (c + total cs)%Z. destruct H as [->|H].
  - exists c. split; [exact Hp|lia].
  - destruct (IH Q H) as [c' [H1 H2]]. exists c'. split; [exact H1|]. destruct Hp as [Hp _]. fold (total cs). lia.
Qed.

Theorem executed_affordable l ver v e : reach l ver v -> executed v e -> exists c, price ver e c /\ (c <= 700)%Z.
Proof.
  intros R [b [Hb He]]. pose proof (wf_paid _ _ _ (reach_wf _ _ _ R)) as F. rewrite Forall_forall in F.
  destruct (F b Hb) as [N [cs [P E]]]. destruct (price_total _ _ _ _ P He) as [c [H1 H2]]. exists c.
  split; [exact H1|]. lia.
Qed.

Theorem dear_not_executed l ver v e : reach l ver v -> unaffordable e -> ~ executed v e.
Proof.
  intros R U X. destruct (executed_affordable _ _ _ _ R X) as [c [H1 H2]]. specialize (U ver c H1). lia.
Qed.

Lemma ed25519_dear : unaffordable (Op0 ED25519VerifyExpr).
Proof.
  intros ver c [_ [b [H|[H _]]]]; cbn in H; [|discriminate]. injection H as <-. lia.
Qed.
Lemma ecdsa_dear i : unaffordable (EcdsaVerifyExpr i).
Proof.
  intros ver c [_ [b [H|[H _]]]]; cbn [cost_of] in H; unfold index, ecdsaVerifyCosts in H;
    destruct (N.to_nat i) as [|[|[]]]; cbn in H; try discriminate; injection H as <-; lia.
Qed.

Theorem held_made l ver v x : reach l ver v -> holds v x -> made (executed v) x.
Proof.
  intros R H. destruct (all_sourced _ _ _ R) as [G1 G2]. apply made3_made.
  - eapply dear_not_executed; eauto using ed25519_dear.
  - intros i. eapply dear_not_executed; eauto using ecdsa_dear.
  - destruct H as [[b [Hb Hx]]|Hx].
    + specialize (G1 b Hb). rewrite Forall_forall in G1. auto.
    + rewrite Forall_forall in G2. auto.
Qed.
