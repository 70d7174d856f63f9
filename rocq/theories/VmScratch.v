(* What a step does to the scratch space, and what retsub does to the stack. *)
From Verif Require Import Base Expr Fields VmOps Vm VmProofs VmSkip VmStep VmExec VmSpec VmInv VmThms VmFlow VmStack.
From Coq Require Import ZifyBool ZifyNat ZifyN.

(* the instructions that write the scratch space *)
Definition stores (e : expr) : bool :=
  match e with StoreExpr _ | Op0 StoresExpr => true | _ => false end.

Definition Dry {A} (m : M A) : Prop := forall k v, v_scratch (fst (m k v)) = v_scratch v.

Lemma Dry_bind {A B} (m : M A) (f : A -> M B) : Dry m -> (forall a, Dry (f a)) -> Dry (bind m f).
Proof.
  intros Hm Hf k v. unfold bind. specialize (Hm k v). destruct (m k v) as [v1 [a| |]]; cbn in *; auto.
  rewrite Hf. exact Hm.
Qed.
Lemma Dry_ret {A} (a : A) : Dry (ret a). Proof. intros k v; reflexivity. Qed.
Lemma Dry_throw {A} : Dry (@throw A). Proof. intros k v; reflexivity. Qed.
Lemma Dry_diverge {A} : Dry (@diverge A). Proof. intros k v; reflexivity. Qed.
Lemma Dry_get_b : Dry get_b.
Proof. intros k v. unfold get_b. destruct (nth_error _ _); reflexivity. Qed.
Lemma Dry_mod_b f : Dry (mod_b f).
Proof. intros k v. unfold mod_b. destruct (nth_error _ _); reflexivity. Qed.
Lemma Dry_lift {A} (r : res A) : Dry (lift r). Proof. intros k v; reflexivity. Qed.
Lemma Dry_find_m t : Dry (find_m t). Proof. intros k v; reflexivity. Qed.
Lemma Dry_scratch n : Dry (scratch n). Proof. intros k v; reflexivity. Qed.
Lemma Dry_fork t : Dry (fork t).
Proof.
  apply Dry_bind; [apply Dry_get_b|]. intros b k v.
  cbn zeta beta. match goal with |- context [skip_nops ?a ?b ?c ?d] => destruct (skip_nops a b c d) as [[nb t'] ok] end.
  reflexivity.
Qed.
Lemma Dry_pop t : Dry (pop t).
Proof.
  apply Dry_bind; [apply Dry_get_b|]. intros b. destruct (b_stack b); [apply Dry_throw|].
  destruct (accepts t v); [|apply Dry_throw]. apply Dry_bind; [apply Dry_mod_b|intros; apply Dry_ret].
Qed.
Lemma Dry_each {A} (f : A -> M unit) xs : (forall x, Dry (f x)) -> Dry (each f xs).
Proof.
  intros H. induction xs as [|x xs IH]; cbn; [apply Dry_ret|].
  apply Dry_bind; [apply H|intros; exact IH].
Qed.
Lemma Dry_pop_n n t : Dry (pop_n n t).
Proof.
  induction n as [|n IH]; cbn; [apply Dry_ret|].
  apply Dry_bind; [apply Dry_pop|]. intros x. apply Dry_bind; [exact IH|]. intros; apply Dry_ret.
Qed.
Lemma Dry_field_type s f : Dry (field_type s f).
Proof. unfold field_type. destruct (spec_by_field s f); [apply Dry_ret|apply Dry_throw]. Qed.

Ltac dry :=
  repeat first
    [ apply Dry_pop | apply Dry_ret | apply Dry_throw | apply Dry_diverge | apply Dry_get_b
    | apply Dry_lift | apply Dry_find_m | apply Dry_scratch | apply Dry_fork | apply Dry_pop_n
    | apply Dry_field_type | apply Dry_mod_b | apply Dry_each; intros | apply Dry_bind; [|intros]
    | match goal with |- Dry (match ?x with _ => _ end) => destruct x end
    | match goal with |- Dry (if ?x then _ else _) => destruct x end
    | progress unfold push, next_line, prepare, item, replace, jump, call, exit_m, pops_pushes ].

Lemma Dry_execute e : stores e = false -> Dry (execute e).
Proof.
  intros H. split_expr e; try discriminate; try (cbn [execute]; dry; fail).
  destruct o; try discriminate; cbn [execute]; dry.
Qed.

(* C58: only store and stores change the scratch space *)
Theorem scratch_kept l ver v k b i e v' :
  reach l ver v -> before l v k b i e -> step v = Ret v' ->
  stores e = false -> v_scratch v' = v_scratch v.
Proof.
  intros R B E H. apply reach_wf in R. pose proof (step_stepped _ _ _ _ _ _ _ R B) as S.
  rewrite E in S.
  inversion S as [Hp Hr|c Hcost Hc1 Hc2 Hr|c v3 Hcost Hc Hex Hr|c v3 Hcost Hc Hex Hr
                 |c v3 b3 b4 t4 ok v5 b5 Hcost Hc Hex Hb3 Hsk Hvs P5 Hb5 Hr]; try reflexivity.
  - pose proof (Dry_execute e H k (put k (pay e c b) (reset v))) as D. rewrite Hex in D. exact D.
  - pose proof (Dry_execute e H k (put k (pay e c b) (reset v))) as D. rewrite Hex in D.
    destruct P5 as [[_ [_ [_ [P _]]]] _]. cbn in *. rewrite P. exact D.
Qed.

(* store i writes the value on top of the stack to position i *)
Theorem scratch_stored l ver v k b i n v' x s :
  reach l ver v -> before l v k b i (StoreExpr n) -> executes ver v b (StoreExpr n) v' ->
  b_stack b = x :: s ->
  v_scratch v' = upd_nth (N.to_nat n) (fun _ => x) (v_scratch v).
Proof.
  intros R B [E [Herr [c0 [Hc0 Hle]]]] Hst. apply reach_wf in R.
  pose proof (step_stepped _ _ _ _ _ _ _ R B) as S. rewrite E in S.
  pose proof (nth_error_lt _ _ _ (before_branch _ _ _ _ _ _ B)) as Hk.
  assert (X : forall c v3 r, execute (StoreExpr n) k (put k (pay (StoreExpr n) c b) (reset v)) = (v3, Ret r) ->
     v_scratch v3 = upd_nth (N.to_nat n) (fun _ => x) (v_scratch v)).
  { intros c v3 r Hex. cbn [execute] in Hex.
    rewrite (bind_pop_any k (reset v) Hk _ (pay (StoreExpr n) c b) x s) in Hex by exact Hst.
    unfold bind, store in Hex. cbn [v_src] in Hex. cbn [v_scratch put set_branches] in Hex.
    destruct (N.to_nat n <? length (v_scratch (reset v))); [|discriminate].
    set (v2 := set_scratch (upd_nth (N.to_nat n) (fun _ => x) (v_scratch (reset v))) (reset v)) in *.
    change (set_scratch _ (put k _ (reset v))) with (put k (set_stack s (pay (StoreExpr n) c b)) v2) in Hex.
    rewrite next_put in Hex by exact Hk. injection Hex as <- _. reflexivity. }
  inversion S as [Hp Hr|c Hcost Hc1 Hc2 Hr|c v3 Hcost Hc Hex Hr|c v3 Hcost Hc Hex Hr
                 |c v3 b3 b4 t4 ok v5 b5 Hcost Hc Hex Hb3 Hsk Hvs P5 Hb5 Hr];
    try (subst v'; cbn in Herr; discriminate).
  - exfalso. assert (c = 1%Z /\ c0 = 1%Z) as [-> ->].
    { unfold costs in Hcost. cbn in Hcost, Hc0. split; [destruct Hcost as [Q|[_ Q]]|destruct Hc0 as [Q|[_ Q]]];
      congruence. }
    lia.
  - pose proof (X _ _ _ Hex) as D.
    destruct P5 as [[_ [_ [_ [P _]]]] _]. cbn in *. rewrite P. exact D.
Qed.

(* C59: retsub of a prepared frame when the results stand directly on the arguments *)
Theorem retsub_stack l ver v k b i v' f fs rs args s :
  reach l ver v -> before l v k b i RetSubExpr -> executes ver v b RetSubExpr v' ->
  b_frames b = f :: fs -> b_stack b = rs ++ args ++ s ->
  length rs = N.to_nat (fr_returns f) -> length args = N.to_nat (fr_args f) ->
  exists b', nth_error (v_branches v') k = Some b' /\ b_stack b' = rs ++ s.
Proof.
  intros R B X Ef Es Hrs Ha. apply reach_wf in R.
  pose proof (nth_error_lt _ _ _ (before_branch _ _ _ _ _ _ B)) as Hk.
  destruct (executes_stack _ _ _ _ _ _ _ _ R B X) as [c [v3 [b3 [b' [E [N3 [N' S']]]]]]].
  exists b'. split; [exact N'|]. rewrite S'. clear S' N' X.
  cbn [execute] in E. rewrite bind_get_put in E by exact Hk.
  cbn [b_frames pay set_trace set_budget] in E. rewrite Ef in E.
  set (q := pay RetSubExpr c b) in *.
  assert (Hq : b_stack q = rs ++ args ++ s) by exact Es.
  unfold bind at 1 in E. rewrite pop_n_put in E by (rewrite ?Hq, ?app_length; lia || exact Hk).
  rewrite Hq, <- Hrs, firstn_app, firstn_all, skipn_app, skipn_all, Nat.sub_diag in E.
  cbn [firstn skipn app] in E. rewrite app_nil_r in E.
  unfold bind at 1 in E. rewrite pop_n_put in E by (cbn [b_stack set_stack]; rewrite ?app_length; lia || exact Hk).
  cbn [b_stack set_stack] in E.
  rewrite <- Ha, skipn_app, skipn_all, Nat.sub_diag in E. cbn [skipn app] in E.
  unfold bind at 1 in E. rewrite each_push_put in E by exact Hk. rewrite rev_involutive in E.
  rewrite mod_put in E by exact Hk. injection E as <-.
  rewrite nth_put in N3 by exact Hk. injection N3 as <-. reflexivity.
Qed.
