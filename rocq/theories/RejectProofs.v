(* What an instruction must have found on the stack when it executed without an error. *)
From Verif Require Import Base Expr Fields VmOps Vm VmProofs VmSkip VmStep VmExec VmSpec VmInv VmThms VmFlow VmStack LangSpec VmTypes RejectSpec.
From Coq Require Import ZifyBool ZifyNat ZifyN.

(* m succeeds only if it finds values that pop would accept for ps, top first *)
Definition takes {A} (ps : list vtype) (m : M A) : Prop :=
  forall k v b v' x, k < length (v_branches v) -> m k (put k b v) = (v', Ret x) ->
  exists xs s, b_stack b = xs ++ s /\ Forall2 (fun p x => accepts p x = true) ps xs.

Lemma takes_nil {A} (m : M A) : takes [] m.
Proof. intros k v b v' x _ _. exists [], (b_stack b). split; constructor. Qed.

Lemma takes_pop {A} p ps (f : value -> M A) :
  (forall x, takes ps (f x)) -> takes (p :: ps) (bind (pop p) f).
Proof.
  intros H k v b v' y Hk E. unfold bind in E. rewrite pop_put in E by exact Hk.
  destruct (b_stack b) as [|x r] eqn:S; [discriminate|].
  destruct (accepts p x) eqn:P; [|discriminate].
  destruct (H x _ _ _ _ _ Hk E) as [xs [s [S' F]]]. cbn in S'.
  exists (x :: xs), s. rewrite S'. split; [reflexivity|]. constructor; auto.
Qed.

Lemma takes_field {A} specs n ps (f : vtype -> M A) :
  (forall x, takes ps (f x)) -> takes ps (bind (field_type specs n) f).
Proof.
  intros H k v b v' y Hk E. unfold bind, field_type in E.
  destruct (spec_by_field specs n) as [t|]; cbn in E; try discriminate. exact (H _ _ _ _ _ _ Hk E).
Qed.

Lemma takes_get {A} ps (f : branch -> M A) :
  (forall b, takes ps (f b)) -> takes ps (bind get_b f).
Proof.
  intros H k v b v' y Hk E. rewrite bind_get_put in E by exact Hk. exact (H _ _ _ _ _ _ Hk E).
Qed.

Lemma takes_throw {A} ps : takes ps (@throw A).
Proof. intros k v b v' y _ E. discriminate. Qed.

Lemma takes_pops {A} ps qs (f : unit -> M A) :
  (forall x, takes qs (f x)) -> takes (ps ++ qs) (bind (each (fun t => pop t ;; ret tt) ps) f).
Proof.
  intros H. induction ps as [|p ps IH]; cbn [each app].
  - intros k v b v' y Hk E. exact (H tt _ _ _ _ _ Hk E).
  - intros k v b v' y Hk E. rewrite !bind_assoc in E.
    refine (takes_pop p (ps ++ qs) _ _ k v b v' y Hk E). clear k v b v' y Hk E.
    intros x k v b v' y Hk E. rewrite bind_ret in E. exact (IH _ _ _ _ _ Hk E).
Qed.

Lemma takes_simple ps qs : takes ps (pops_pushes ps qs).
Proof.
  unfold pops_pushes. rewrite <- (app_nil_r ps) at 1. apply takes_pops. intros. apply takes_nil.
Qed.

Lemma takes_pop_n {A} n t ps (f : list value -> M A) :
  (forall x, takes ps (f x)) -> takes (repeat t n ++ ps) (bind (pop_n n t) f).
Proof.
  revert f. induction n as [|n IH]; intros f H; cbn [pop_n repeat app].
  - intros k v b v' y Hk E. exact (H _ _ _ _ _ _ Hk E).
  - intros k v b v' y Hk E. rewrite bind_assoc in E.
    refine (takes_pop t (repeat t n ++ ps) _ _ k v b v' y Hk E). clear k v b v' y Hk E.
    intros x k v b v' y Hk E. rewrite bind_assoc in E.
    refine (IH _ _ k v b v' y Hk E). clear k v b v' y Hk E.
    intros xs k v b v' y Hk E. rewrite bind_ret in E. exact (H _ _ _ _ _ _ Hk E).
Qed.

(* a value that pop t accepts may be used where u is asked for *)
Definition enforces (p t : vtype) : Prop := t = TAny \/ p = t /\ (t = TUint64 \/ t = TBytes).

Lemma accepts_fits p t x : accepts p x = true -> enforces p t -> fits t x.
Proof.
  unfold fits. intros H [->|[-> T]]; [auto|]. destruct x as [T' s]. cbn in *.
  destruct T; subst t; destruct T'; try discriminate; auto.
Qed.

Lemma takes_asks ps a (m : M unit) : Forall2 enforces ps (rev a) -> takes ps m ->
  forall k v b v', k < length (v_branches v) -> m k (put k b v) = (v', Ret tt) ->
  exists xs s, b_stack b = rev xs ++ s /\ Forall2 fits a xs.
Proof.
  intros F T k v b v' Hk E. destruct (T _ _ _ _ _ Hk E) as [xs [s [S X]]].
  exists (rev xs), s. rewrite rev_involutive. split; [exact S|].
  rewrite <- (rev_involutive a). apply Forall2_rev'. clear - F X.
  revert xs X. induction F as [|p t ps ts H F IH]; intros xs X; inversion X; subst; constructor; auto.
  eapply accepts_fits; eauto.
Qed.

Ltac takes_tac :=
  repeat first
    [ apply takes_simple | apply takes_pop; intros ? | apply takes_field; intros ?
    | apply takes_get; intros ? | apply takes_nil ].

Ltac enforce := repeat (constructor; [first [left; reflexivity|right; split; [reflexivity|auto; fail]]|]); constructor.

Lemma any_enforced ps n : length ps = n -> Forall2 enforces ps (rev (repeat TAny n)).
Proof.
  intros <-. assert (A : Forall (eq TAny) (rev (repeat TAny (length ps)))).
  { apply Forall_rev. clear. induction (length ps); cbn; constructor; auto. }
  assert (L : length ps = length (rev (repeat TAny (length ps)))) by now rewrite rev_length, repeat_length.
  revert A L. generalize (rev (repeat TAny (length ps))). clear.
  induction ps as [|p ps IH]; intros [|t ts] A L; try discriminate; constructor.
  - left. now inversion A.
  - apply IH; [now inversion A|]. now injection L.
Qed.

Lemma execute_asks e a : demanded e = Some a -> ignores_operands e = false ->
  forall k v b v', k < length (v_branches v) -> execute e k (put k b v) = (v', Ret tt) ->
  exists xs s, b_stack b = rev xs ++ s /\ Forall2 fits a xs.
Proof.
  intros L U. unfold demanded in L.
  split_expr e; try discriminate; cbn [lang_spec option_map fst] in L; try discriminate;
    try (injection L as <-);
    try (eapply takes_asks; [|cbn [execute simple_effect]; takes_tac; fail]; cbn [rev app]; enforce; fail).
  { destruct o; try discriminate; cbn [lang_spec option_map fst] in L; injection L as <-;
    try (eapply takes_asks; [|cbn [execute simple_effect]; takes_tac; fail]; cbn [rev app]; enforce; fail). }
  - eapply takes_asks; [|cbn [execute]; apply takes_pop_n; intros ?; apply takes_pop; intros ?; apply takes_nil].
    apply (any_enforced _ (S (length Targets_))). rewrite app_length, repeat_length. cbn. lia.
  - eapply takes_asks; [|cbn [execute]; apply takes_pop_n; intros ?; apply takes_nil].
    apply any_enforced. rewrite app_nil_r. apply repeat_length.
  - eapply (takes_asks [TAny]); [enforce|]. cbn [execute]. apply takes_get. intros b.
    destruct (b_frames b); [apply takes_throw|]. takes_tac.
  - intros k v b v' Hk E.
    destruct (takes_pop_n (N.to_nat Depth_) TAny [TAny] _
      (fun is => takes_pop TAny [] (fun x => each push (rev is) ;; push x ;; next_line) (fun x => takes_nil _))
      k v b v' tt Hk E) as [xs [s [S F]]].
    destruct xs as [|x xs].
    { apply Forall2_len in F. rewrite app_length in F. cbn in F. lia. }
    exists [x], (xs ++ s). split; [exact S|]. enforce.
  - intros k v b v' Hk E. cbn [execute] in E. rewrite bind_get_put in E by exact Hk.
    destruct (b_stack b) as [|x s] eqn:S.
    + unfold bind at 1, item in E. rewrite bind_get_put in E by exact Hk. rewrite S in E.
      unfold lift, index in E. cbn [rev] in E.
      destruct (Z.to_nat _) in E; discriminate.
    + exists [x], s. split; [reflexivity|]. enforce.
Qed.

Theorem executes_asks l ver v k b i e v' a :
  reach l ver v -> before l v k b i e -> executes ver v b e v' ->
  demanded e = Some a -> ignores_operands e = false -> served a (b_stack b).
Proof.
  intros R B X D U. apply reach_wf in R.
  pose proof (nth_error_lt _ _ _ (before_branch _ _ _ _ _ _ B)) as Hk.
  destruct (executes_stack _ _ _ _ _ _ _ _ R B X) as [c [v3 [b3 [b' [E _]]]]].
  exact (execute_asks e a D U k (reset v) (pay e c b) v3 Hk E).
Qed.

(* without them the step ends in an error *)
Theorem unserved_fails l ver v k b i e a :
  reach l ver v -> before l v k b i e -> demanded e = Some a -> ignores_operands e = false ->
  (forall c, cost_of e ver b = Ret [c] \/ (cost_of e ver b = Ret [] /\ c = 1%Z) -> (c <= b_budget b)%Z) ->
  ~ served a (b_stack b) -> exists v', step v = Ret v' /\ v_error v' = true.
Proof.
  intros R B D U Hc N. pose proof (reach_wf _ _ _ R) as W.
  pose proof (nth_error_lt _ _ _ (before_branch _ _ _ _ _ _ B)) as Hk.
  pose proof (step_stepped _ _ _ _ _ _ _ W B) as S.
  assert (Hver : v_version (reset v) = ver) by (apply (wf_version _ _ _ W)).
  inversion S as [P Q|c' P1 P2 P3 Q|c' v3 P1 P2 P3 Q|c' v3 P1 P2 P3 Q|c' v3 b3 b4 t4 ok v5 b5 P1 P2 P3 P4 P5 P6 P7 P8 Q].
  - eexists. split; [reflexivity|]. reflexivity.
  - exfalso. rewrite Hver in P1. specialize (Hc c' P1). lia.
  - eexists. split; [reflexivity|]. reflexivity.
  - exfalso. apply N.
    assert (En : endless e \/ ~ endless e).
    { destruct e; cbn; try (right; tauto). lia. }
    destruct En as [En|En].
    + destruct e; try contradiction. cbn in D. injection D as <-.
      cbn [execute] in P3. unfold bind in P3. rewrite pop_put in P3 by exact Hk.
      cbn [b_stack pay set_trace set_budget] in P3.
      destruct (b_stack b) as [|x s]; [discriminate|].
      exists [x], s. split; [reflexivity|]. repeat constructor.
    + exfalso. destruct (Tail_execute e En _ _ _ _ _ (nth_put k (reset v) Hk (pay e c' b)) P3) as [F _].
      now apply F.
  - exfalso. apply N. exact (execute_asks e a D U k (reset v) (pay e c' b) v3 Hk P3).
Qed.
