(* More about Execute: a failing instruction does not move its branch, only dupn 255 never
   returns, and breakpoints have no influence. *)
From Verif Require Import Base Expr Fields VmOps Vm VmProofs.
From Coq Require Import ZifyBool ZifyNat ZifyN.

Ltac split_expr e :=
  destruct e as [o| | | | | | | | | | | | | | | | | | | | | | | | | | | | | | | | | | | | | | | | |
                 | | | | | | | | | | | | | | | | | | | | | | | | | | | | | | | | | | | |].

(* ------------------------------------------------------------------------------------------ *)
(* code that does not move the branch, and code that moves it at the very end only *)
Definition Still {A} (m : M A) : Prop :=
  forall k v v' r b, nth_error (v_branches v) k = Some b -> m k v = (v', r) ->
  r <> OutOfFuel /\ exists b', nth_error (v_branches v') k = Some b' /\ b_line b' = b_line b.

Definition Tail {A} (m : M A) : Prop :=
  forall k v v' r b, nth_error (v_branches v) k = Some b -> m k v = (v', r) ->
  r <> OutOfFuel /\ exists b', nth_error (v_branches v') k = Some b' /\
                               (r = Panic -> b_line b' = b_line b).

Lemma Still_Tail {A} (m : M A) : Still m -> Tail m.
Proof.
  intros H k v v' r b Hb E. destruct (H k v v' r b Hb E) as [H1 [b' [H2 H3]]]. eauto.
Qed.

Lemma Still_bind {A B} (m : M A) (f : A -> M B) :
  Still m -> (forall a, Still (f a)) -> Still (bind m f).
Proof.
  intros Hm Hf k v v' r b Hb E. unfold bind in E. destruct (m k v) as [v1 [a| |]] eqn:Em.
  - destruct (Hm _ _ _ _ _ Hb Em) as [_ [b1 [Hb1 L1]]].
    destruct (Hf a _ _ _ _ _ Hb1 E) as [N [b2 [Hb2 L2]]].
    split; [exact N|]. exists b2. split; [exact Hb2|congruence].
  - injection E as <- <-. destruct (Hm _ _ _ _ _ Hb Em) as [_ [b1 [Hb1 L1]]].
    split; [discriminate|eauto].
  - destruct (Hm _ _ _ _ _ Hb Em) as [N _]. congruence.
Qed.

Lemma Tail_bind {A B} (m : M A) (f : A -> M B) :
  Still m -> (forall a, Tail (f a)) -> Tail (bind m f).
Proof.
  intros Hm Hf k v v' r b Hb E. unfold bind in E. destruct (m k v) as [v1 [a| |]] eqn:Em.
  - destruct (Hm _ _ _ _ _ Hb Em) as [_ [b1 [Hb1 L1]]].
    destruct (Hf a _ _ _ _ _ Hb1 E) as [N [b2 [Hb2 L2]]].
    split; [exact N|]. exists b2. split; [exact Hb2|]. intros P. rewrite (L2 P). exact L1.
  - injection E as <- <-. destruct (Hm _ _ _ _ _ Hb Em) as [_ [b1 [Hb1 L1]]].
    split; [discriminate|eauto].
  - destruct (Hm _ _ _ _ _ Hb Em) as [N _]. congruence.
Qed.

Lemma Still_pure {A} (m : M A) :
  (forall k v, fst (m k v) = v) -> (forall k v, snd (m k v) <> OutOfFuel) -> Still m.
Proof.
  intros H1 H2 k v v' r b Hb E. specialize (H1 k v). specialize (H2 k v).
  rewrite E in H1, H2. cbn in *. subst v'. eauto.
Qed.

Lemma Still_ret {A} (a : A) : Still (ret a).
Proof. apply Still_pure; cbn; congruence. Qed.
Lemma Still_throw {A} : Still (@throw A).
Proof. apply Still_pure; cbn; congruence. Qed.
Lemma Still_get_b : Still get_b.
Proof. apply Still_pure; intros; unfold get_b; destruct (nth_error _ _); cbn; congruence. Qed.
Lemma Still_find_m t : Still (find_m t).
Proof. apply Still_pure; cbn; congruence. Qed.
Lemma Still_index {A} (s : list A) i : Still (lift (index s i)).
Proof.
  apply Still_pure; intros; unfold lift, index; cbn; [reflexivity|].
  destruct (nth_error s i); discriminate.
Qed.
Lemma Still_scratch i : Still (scratch i).
Proof.
  apply Still_pure; intros; unfold scratch, index; cbn; [reflexivity|].
  destruct (nth_error (v_scratch v) _); discriminate.
Qed.

Lemma Still_mod_b f : (forall b, b_line (f b) = b_line b) -> Still (mod_b f).
Proof.
  intros Hf k v v' r b Hb E. unfold mod_b in E. rewrite Hb in E. injection E as <- <-.
  split; [discriminate|]. exists (f b). cbn. rewrite nth_upd_nth_same, Hb. auto.
Qed.

Lemma Tail_mod_b f : Tail (mod_b f).
Proof.
  intros k v v' r b Hb E. unfold mod_b in E. rewrite Hb in E. injection E as <- <-.
  split; [discriminate|]. exists (f b). cbn. rewrite nth_upd_nth_same, Hb.
  split; [reflexivity|discriminate].
Qed.

Lemma Still_push x : Still (push x).
Proof. apply Still_mod_b. reflexivity. Qed.
Lemma Tail_next_line : Tail next_line.
Proof. apply Tail_mod_b. Qed.
Lemma Tail_exit : Tail exit_m.
Proof. apply Tail_mod_b. Qed.

Lemma Still_pop t : Still (pop t).
Proof.
  apply Still_bind; [apply Still_get_b|]. intros b. destruct (b_stack b) as [|x r].
  - apply Still_throw.
  - destruct (accepts t x); [|apply Still_throw].
    apply Still_bind; [apply Still_mod_b; reflexivity|intros; apply Still_ret].
Qed.

Lemma Still_prepare a r : Still (prepare a r).
Proof.
  apply Still_bind; [apply Still_get_b|]. intros b. destruct (b_frames b).
  - apply Still_throw.
  - apply Still_mod_b; reflexivity.
Qed.

Lemma Still_item i : Still (item i).
Proof. apply Still_bind; [apply Still_get_b|]. intros b. apply Still_index. Qed.

Lemma Still_replace i x : Still (replace i x).
Proof.
  apply Still_bind; [apply Still_get_b|]. intros b. destruct (_ <? _).
  - apply Still_mod_b; reflexivity.
  - apply Still_throw.
Qed.

Lemma Still_store i x : Still (store i x).
Proof.
  unfold store. destruct (v_src i) as [[m| | | |]|]; try apply Still_ret.
  intros k v v' r b Hb E. destruct (_ <? _); injection E as <- <-; (split; [discriminate|]); eauto.
Qed.

Lemma Still_fork t : Still (fork t).
Proof.
  intros k v v' r b Hb E. unfold fork, bind, get_b in E. rewrite Hb in E.
  destruct (skip_nops _ _ _ _) as [[nb t'] ok]. injection E as <- <-.
  split; [discriminate|]. exists b. cbn. rewrite nth_error_app1; [auto|].
  eapply nth_error_lt; eauto.
Qed.

Lemma Still_each {A} (f : A -> M unit) xs : (forall x, Still (f x)) -> Still (each f xs).
Proof.
  intros H. induction xs as [|x xs IH]; cbn; [apply Still_ret|].
  apply Still_bind; [apply H|intros; exact IH].
Qed.

Lemma Still_pop_n n t : Still (pop_n n t).
Proof.
  induction n as [|n IH]; cbn; [apply Still_ret|].
  apply Still_bind; [apply Still_pop|]. intros x.
  apply Still_bind; [exact IH|]. intros; apply Still_ret.
Qed.

Lemma Still_field_type s f : Still (field_type s f).
Proof. unfold field_type. destruct (spec_by_field s f); [apply Still_ret|apply Still_throw]. Qed.

Lemma Tail_simple e :
  Tail (match simple_effect e with
        | Some (ps, qs) => pops_pushes ps qs
        | None => next_line
        end).
Proof.
  destruct (simple_effect e) as [[ps qs]|]; [|apply Tail_next_line].
  apply Tail_bind; [apply Still_each; intros; apply Still_bind; [apply Still_pop|intros; apply Still_ret]|].
  intros _. apply Tail_bind; [apply Still_each; intros; apply Still_push|].
  intros _. apply Tail_next_line.
Qed.

Ltac still :=
  repeat first
    [ apply Still_push | apply Still_pop | apply Still_ret | apply Still_throw | apply Still_get_b
    | apply Still_prepare | apply Still_item | apply Still_replace | apply Still_store
    | apply Still_scratch | apply Still_field_type | apply Still_pop_n | apply Still_fork
    | apply Still_find_m | apply Still_each; intros | apply Still_bind; [|intros] ].
Ltac tail :=
  repeat first
    [ apply Tail_simple | apply Tail_next_line | apply Tail_exit | apply Tail_mod_b
    | apply Tail_bind; [still|intros] | apply Still_Tail, Still_throw ].

(* the only instruction whose Execute method does not return *)
Definition endless (e : expr) : Prop :=
  match e with DupNExpr n => (255 <= n)%N | _ => False end.

Theorem Tail_execute e : ~ endless e -> Tail (execute e).
Proof.
  intros Hd. split_expr e; try (cbn [execute]; tail; fail).
  - destruct o; cbn [execute]; tail.
  - cbn [execute]. tail. destruct (b_frames a); tail.
  - cbn [execute]. unfold call. tail. apply Still_mod_b; reflexivity.
  - cbn [execute endless] in *. tail. destruct (N.leb_spec 255 Count_); [contradiction|]. tail.
  - cbn [execute]. tail. destruct (b_frames a); tail.
  - cbn [execute]. tail. destruct (b_frames a); tail.
Qed.

(* a panicking instruction leaves its branch on its line *)
Lemma execute_panic_line e k v v' b :
  nth_error (v_branches v) k = Some b -> execute e k v = (v', Panic) ->
  exists b', nth_error (v_branches v') k = Some b' /\ b_line b' = b_line b.
Proof.
  intros Hb E.
  assert (D : endless e \/ ~ endless e).
  { destruct e; cbn; try (right; tauto). lia. }
  destruct D as [D|D].
  - destruct e; try contradiction. cbn [execute endless] in *.
    unfold bind in E. destruct (pop TAny k v) as [v1 [x| |]] eqn:Ep.
    + destruct (N.leb_spec 255 Count_); [discriminate|lia].
    + injection E as <-. destruct (Still_pop TAny k v v1 _ b Hb Ep) as [_ H]. exact H.
    + discriminate.
  - destruct (Tail_execute e D _ _ _ _ _ Hb E) as [_ [b' [H1 H2]]]. eauto.
Qed.

(* dupn 255 does not return *)
Lemma execute_endless e k v b x r :
  endless e -> nth_error (v_branches v) k = Some b -> b_stack b = x :: r ->
  snd (execute e k v) = OutOfFuel.
Proof.
  intros Hd Hb Hs. destruct e; try contradiction. cbn [endless] in Hd. cbn [execute].
  unfold pop, bind, get_b, mod_b. rewrite Hb, Hs. cbn [accepts]. rewrite Hb.
  unfold ret. destruct (N.leb_spec 255 Count_); [reflexivity|lia].
Qed.

(* ------------------------------------------------------------------------------------------ *)
(* two machines that differ in breakpoints only *)
Definition sim (v w : vm) : Prop :=
  v_id v = v_id w /\ v_listing v = v_listing w /\ v_version v = v_version w /\
  v_scratch v = v_scratch w /\ v_branches v = v_branches w /\ v_branch v = v_branch w /\
  v_current v = v_current w /\ v_error v = v_error w.

Lemma sim_refl v : sim v v.
Proof. repeat split. Qed.
Lemma sim_sym v w : sim v w -> sim w v.
Proof. intros [A1 [A2 [A3 [A4 [A5 [A6 [A7 A8]]]]]]]. repeat split; congruence. Qed.
Lemma sim_trans u v w : sim u v -> sim v w -> sim u w.
Proof.
  intros [A1 [A2 [A3 [A4 [A5 [A6 [A7 A8]]]]]]] [B1 [B2 [B3 [B4 [B5 [B6 [B7 B8]]]]]]].
  repeat split; congruence.
Qed.

Definition Sim {A} (m : M A) : Prop :=
  forall k v w v' r, sim v w -> m k v = (v', r) -> exists w', m k w = (w', r) /\ sim v' w'.

Lemma skip_from_indep bps bps' : forall ops i b t t' b1 t1 ok,
  skip_from ops i bps b t = (b1, t1, ok) -> exists t1', skip_from ops i bps' b t' = (b1, t1', ok).
Proof.
  induction ops as [|op ops IH]; intros i b t t' b1 t1 ok H; cbn in H |- *.
  - injection H as <- <- <-. eauto.
  - destruct (is_nop op).
    + eapply IH; eauto.
    + injection H as <- <- <-. eauto.
Qed.

Lemma skip_nops_indep l bps bps' b t t' b1 t1 ok :
  skip_nops l bps b t = (b1, t1, ok) -> exists t1', skip_nops l bps' b t' = (b1, t1', ok).
Proof.
  unfold skip_nops. destruct (b_line b).
  - apply skip_from_indep.
  - intros H. injection H as <- <- <-. eauto.
Qed.

Lemma Sim_bind {A B} (m : M A) (f : A -> M B) :
  Sim m -> (forall a, Sim (f a)) -> Sim (bind m f).
Proof.
  intros Hm Hf k v w v' r S E. unfold bind in E |- *.
  destruct (m k v) as [v1 [a| |]] eqn:Em;
    destruct (Hm _ _ _ _ _ S Em) as [w1 [Ew S1]]; rewrite Ew.
  - eapply Hf; eauto.
  - injection E as <- <-. eauto.
  - injection E as <- <-. eauto.
Qed.

Lemma Sim_ret {A} (a : A) : Sim (ret a).
Proof. intros k v w v' r S E. injection E as <- <-. eexists; split; [reflexivity|exact S]. Qed.
Lemma Sim_lift {A} (a : res A) : Sim (lift a).
Proof. intros k v w v' r S E. injection E as <- <-. eexists; split; [reflexivity|exact S]. Qed.
Lemma Sim_throw {A} : Sim (@throw A).
Proof. intros k v w v' r S E. injection E as <- <-. eexists; split; [reflexivity|exact S]. Qed.
Lemma Sim_diverge {A} : Sim (@diverge A).
Proof. intros k v w v' r S E. injection E as <- <-. eexists; split; [reflexivity|exact S]. Qed.

Lemma sim_put k b v w : sim v w -> sim (put k b v) (put k b w).
Proof. intros [A1 [A2 [A3 [A4 [A5 [A6 [A7 A8]]]]]]]. repeat split; cbn; congruence. Qed.

Lemma sim_trig t t' v w : sim v w -> sim (set_trig t v) (set_trig t' w).
Proof. intros [A1 [A2 [A3 [A4 [A5 [A6 [A7 A8]]]]]]]. repeat split; cbn; congruence. Qed.

Lemma Sim_get_b : Sim get_b.
Proof.
  intros k v w v' r S E. unfold get_b in *. assert (B : v_branches v = v_branches w) by apply S.
  rewrite <- B. destruct (nth_error _ k); injection E as <- <-; eauto.
Qed.

Lemma Sim_mod_b f : Sim (mod_b f).
Proof.
  intros k v w v' r S E. unfold mod_b in *. assert (B : v_branches v = v_branches w) by apply S.
  rewrite <- B. destruct (nth_error _ k); injection E as <- <-; eauto using sim_put.
Qed.

Lemma Sim_find_m t : Sim (find_m t).
Proof.
  intros k v w v' r S E. unfold find_m in *. assert (B : v_listing v = v_listing w) by apply S.
  rewrite <- B. injection E as <- <-; eauto.
Qed.

Lemma Sim_scratch i : Sim (scratch i).
Proof.
  intros k v w v' r S E. unfold scratch in *. assert (B : v_scratch v = v_scratch w) by apply S.
  rewrite <- B. injection E as <- <-; eauto.
Qed.

Lemma Sim_store i x : Sim (store i x).
Proof.
  unfold store. destruct (v_src i) as [[m| | | |]|]; try apply Sim_ret.
  intros k v w v' r S E. assert (B : v_scratch v = v_scratch w) by apply S.
  rewrite <- B. destruct (_ <? _); injection E as <- <-; eauto.
  eexists; split; [reflexivity|]. destruct S as [A1 [A2 [A3 [A4 [A5 [A6 [A7 A8]]]]]]].
  repeat split; cbn; congruence.
Qed.

Lemma Sim_pop t : Sim (pop t).
Proof.
  apply Sim_bind; [apply Sim_get_b|]. intros b. destruct (b_stack b); [apply Sim_throw|].
  destruct (accepts t v); [|apply Sim_throw].
  apply Sim_bind; [apply Sim_mod_b|intros; apply Sim_ret].
Qed.

Lemma Sim_prepare a r : Sim (prepare a r).
Proof.
  apply Sim_bind; [apply Sim_get_b|]. intros b. destruct (b_frames b);
    [apply Sim_throw|apply Sim_mod_b].
Qed.

Lemma Sim_item i : Sim (item i).
Proof. apply Sim_bind; [apply Sim_get_b|]. intros b. apply Sim_lift. Qed.

Lemma Sim_replace i x : Sim (replace i x).
Proof.
  apply Sim_bind; [apply Sim_get_b|]. intros b. destruct (_ <? _);
    [apply Sim_mod_b|apply Sim_throw].
Qed.

Lemma Sim_fork t : Sim (fork t).
Proof.
  apply Sim_bind; [apply Sim_get_b|]. intros b k v w v' r S E.
  destruct S as [A1 [A2 [A3 [A4 [A5 [A6 [A7 A8]]]]]]].
  cbv zeta in E |- *. rewrite <- A1, <- A2.
  destruct (skip_nops (v_listing v) (v_bps v)
              (Branch (v_id v) (find (v_listing v) t) (b_stack b) [] (b_budget b) t (b_trace b))
              (v_trig v)) as [[nb t1] ok] eqn:Es.
  destruct (skip_nops_indep _ _ (v_bps w) _ _ (v_trig w) _ _ _ Es) as [t2 Es2].
  rewrite Es2. injection E as <- <-. eexists; split; [reflexivity|].
  repeat split; cbn; congruence.
Qed.

Lemma Sim_each {A} (f : A -> M unit) xs : (forall x, Sim (f x)) -> Sim (each f xs).
Proof.
  intros H. induction xs as [|x xs IH]; cbn; [apply Sim_ret|].
  apply Sim_bind; [apply H|intros; exact IH].
Qed.

Lemma Sim_pop_n n t : Sim (pop_n n t).
Proof.
  induction n as [|n IH]; cbn; [apply Sim_ret|].
  apply Sim_bind; [apply Sim_pop|]. intros x.
  apply Sim_bind; [exact IH|]. intros; apply Sim_ret.
Qed.

Lemma Sim_field_type s f : Sim (field_type s f).
Proof. unfold field_type. destruct (spec_by_field s f); [apply Sim_ret|apply Sim_throw]. Qed.

Lemma Sim_simple e :
  Sim (match simple_effect e with
       | Some (ps, qs) => pops_pushes ps qs
       | None => next_line
       end).
Proof.
  destruct (simple_effect e) as [[ps qs]|]; [|apply Sim_mod_b].
  apply Sim_bind; [apply Sim_each; intros; apply Sim_bind; [apply Sim_pop|intros; apply Sim_ret]|].
  intros _. apply Sim_bind; [apply Sim_each; intros; apply Sim_mod_b|].
  intros _. apply Sim_mod_b.
Qed.

Ltac simm :=
  repeat first
    [ apply Sim_simple | apply Sim_mod_b | apply Sim_pop | apply Sim_ret | apply Sim_throw
    | apply Sim_diverge
    | apply Sim_get_b | apply Sim_prepare | apply Sim_item | apply Sim_replace | apply Sim_store
    | apply Sim_scratch | apply Sim_field_type | apply Sim_pop_n | apply Sim_fork
    | apply Sim_find_m | apply Sim_each; intros | apply Sim_bind; [|intros] ].

Theorem Sim_execute e : Sim (execute e).
Proof.
  split_expr e;
    try (cbn [execute]; unfold push, next_line, exit_m, jump, call; simm; fail).
  - destruct o; cbn [execute]; unfold push, next_line, exit_m; simm.
  - cbn [execute]. simm. destruct (b_frames a); unfold push, next_line; simm.
  - cbn [execute]. simm. destruct (255 <=? Count_)%N; unfold push, next_line; simm.
  - cbn [execute]. simm. destruct (b_frames a); unfold push, next_line; simm.
  - cbn [execute]. simm. destruct (b_frames a); unfold push, next_line; simm.
Qed.
