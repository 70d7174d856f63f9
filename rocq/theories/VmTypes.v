(* The machine accepts every stack whose values have the types langspec.json asks for. *)
From Verif Require Import Base Expr Fields VmOps Vm VmProofs VmSkip VmStep VmExec VmSpec VmInv VmThms VmFlow VmStack LangSpec.
From Coq Require Import ZifyBool ZifyNat ZifyN.

(* ------------------------------------------------------------------------------------------ *)
(* statement vocabulary *)

(* a value that may be used where langspec.json asks for type t *)
Definition fits (t : vtype) (x : value) : Prop := t = TAny \/ v_T x = TAny \/ v_T x = t.
(* a value that is a result of type t *)
Definition typed (t : vtype) (x : value) : Prop := t = TAny \/ v_T x = t.

(* instructions that use more of the branch than their operands: values below them, the call
   frame, or the number itself (stores) *)
Definition looks_elsewhere (e : expr) : bool :=
  match e with
  | DigExpr _ | BuryExpr _ | CoverExpr _ | UncoverExpr _ | FrameDigExpr _ | FrameBuryExpr _
  | ProtoExpr _ _ | Op0 StoresExpr => true
  | _ => false
  end.

(* instructions that reject operands langspec.json allows, or push the wrong type *)
Definition mistyped (e : expr) : bool :=
  match e with
  | Op0 BitLenExpr | Op0 GetBitExpr | Op0 SetBitExpr | Op0 AppOptedInExpr | PushIntsExpr _ => true
  | _ => false
  end.

Definition is_field (specs : list field_spec) (f : N) : Prop := (N.to_nat f < length specs)%nat.

(* the field exists and the scratch position is a uint8; dupn is not the endless one *)
Definition valid_immediate (e : expr) : Prop :=
  match e with
  | TxnExpr f | TxnaExpr f _ | GtxnExpr _ f | ItxnExpr f | GtxnaExpr _ f _ | GitxnExpr _ f
  | GitxnaExpr _ f _ | GtxnsExpr f | GtxnsaExpr f _ | GtxnasExpr f _ | ItxnasExpr f
  | GitxnasExpr _ f | TxnasExpr f | GtxnsasExpr f => is_field txnFieldSpecs f
  | GlobalExpr f => is_field globalFieldSpecs f
  | AssetParamsGetExpr f => is_field assetParamsFieldSpecs f
  | AppParamsGetExpr f => is_field appParamsFieldSpecs f
  | AcctParamsGetExpr f => is_field acctParamsFieldSpecs f
  | AssetHoldingGetExpr f => is_field assetHoldingFieldSpecs f
  | BlockExpr f => is_field blockFieldSpecs f
  | LoadExpr i | StoreExpr i => (i < 256)%N
  | DupNExpr n => (n < 255)%N
  | _ => True
  end.

(* ------------------------------------------------------------------------------------------ *)
Lemma bind_assoc {A B C} (m : M A) (f : A -> M B) (g : B -> M C) k v :
  bind (bind m f) g k v = bind m (fun x => bind (f x) g) k v.
Proof. unfold bind. destruct (m k v) as [v' [a| |]]; reflexivity. Qed.

Lemma bind_ret {A B} (a : A) (f : A -> M B) k v : bind (ret a) f k v = f a k v.
Proof. reflexivity. Qed.

Definition pops_for (p t : vtype) : Prop := p = TAny \/ p = t.

Lemma fits_accepts p t x : fits t x -> pops_for p t -> accepts p x = true.
Proof.
  unfold fits, pops_for. destruct x as [T src]. cbn.
  intros F [-> | ->]; [reflexivity|].
  destruct F as [F | [F | F]]; subst; try destruct t; try destruct T; reflexivity.
Qed.

(* stacks after the operands are popped and results pushed; operands and results top first *)
Section Run.
Context (k : nat) (v : vm) (Hk : k < length (v_branches v)).

Lemma bind_pop_fits {A} p (f : value -> M A) b x r :
  b_stack b = x :: r -> accepts p x = true ->
  bind (pop p) f k (put k b v) = f x k (put k (set_stack r b) v).
Proof. intros E F. unfold bind. rewrite pop_put by exact Hk. rewrite E, F. reflexivity. Qed.

Lemma pops_put ps : forall xs b s,
  b_stack b = xs ++ s -> Forall2 (fun p x => accepts p x = true) ps xs ->
  each (fun t => pop t ;; ret tt) ps k (put k b v) = (put k (set_stack s b) v, Ret tt).
Proof.
  induction ps as [|p ps IH]; intros xs b s E F; inversion F as [|? x ? xs' Hx Fx]; subst; cbn [each].
  - cbn in E. unfold ret. rewrite <- E. destruct b; reflexivity.
  - rewrite bind_assoc, (bind_pop_fits p _ b x (xs' ++ s) E Hx), bind_ret.
    rewrite (IH xs' (set_stack (xs' ++ s) b) s eq_refl Fx). reflexivity.
Qed.

Lemma pushes_put {A} (g : A -> value) qs : forall b,
  each (fun t => push (g t)) qs k (put k b v) =
  (put k (set_stack (rev (map g qs) ++ b_stack b) b) v, Ret tt).
Proof.
  induction qs as [|q qs IH]; intros b; cbn [each].
  - unfold ret. destruct b; reflexivity.
  - rewrite bind_push_put by exact Hk. rewrite IH. cbn. rewrite <- app_assoc. reflexivity.
Qed.

Lemma pops_pushes_put ps qs xs b s :
  b_stack b = xs ++ s -> Forall2 (fun p x => accepts p x = true) ps xs ->
  pops_pushes ps qs k (put k b v) =
  (put k (set_line (line_inc (b_line b)) (set_stack (rev (map plain_val qs) ++ s) b)) v, Ret tt).
Proof.
  intros E F. unfold pops_pushes. unfold bind at 1. rewrite (pops_put _ _ _ _ E F).
  unfold bind at 1. rewrite pushes_put.
  rewrite next_put by exact Hk. reflexivity.
Qed.

End Run.

Lemma field_put {A} k specs f (g : vtype -> M A) w :
  is_field specs f -> exists t, bind (field_type specs f) g k w = g t k w.
Proof.
  unfold is_field, field_type, spec_by_field, bind. intros H.
  destruct (nth_error specs (N.to_nat f)) as [s|] eqn:E; [eexists; reflexivity|].
  apply nth_error_None in E. lia.
Qed.


(* what the theorem says about Execute *)
Definition runs (a r : list vtype) (m : M unit) : Prop :=
  forall k v b xs s, k < length (v_branches v) -> length (v_scratch v) = 256 ->
    b_stack b = rev xs ++ s -> Forall2 fits a xs ->
    exists v' b' ys, m k (put k b v) = (put k b' v', Ret tt) /\ v_branches v' = v_branches v /\
      b_stack b' = rev ys ++ s /\ Forall2 typed r ys.

Lemma Forall2_rev' {A B} (R : A -> B -> Prop) xs ys : Forall2 R xs ys -> Forall2 R (rev xs) (rev ys).
Proof.
  induction 1 as [|x y xs ys H F IH]; cbn; [constructor|]. apply Forall2_app; auto.
Qed.

Lemma Forall2_len {A B} (R : A -> B -> Prop) xs ys : Forall2 R xs ys -> length xs = length ys.
Proof. induction 1; cbn; congruence. Qed.

Lemma accepts_all ts xs : forall ps,
  Forall2 pops_for ps ts -> Forall2 fits ts xs -> Forall2 (fun p x => accepts p x = true) ps xs.
Proof.
  intros ps Hp F. revert ps Hp. induction F as [|t x ts xs H F IH]; intros ps Hp.
  - inversion Hp. constructor.
  - inversion Hp; subst. constructor; [eapply fits_accepts; eauto|auto].
Qed.

Lemma runs_simple a r ps qs :
  Forall2 pops_for ps (rev a) -> Forall2 (fun t q => t = TAny \/ q = t) r qs ->
  runs a r (pops_pushes ps qs).
Proof.
  intros Hp Hq k v b xs s Hk _ E F.
  assert (Fa : Forall2 (fun p x => accepts p x = true) ps (rev xs)).
  { exact (accepts_all _ _ _ Hp (Forall2_rev' _ _ _ F)). }
  do 3 eexists. split; [apply (pops_pushes_put k v Hk _ _ _ _ _ E Fa)|]. split; [reflexivity|].
  split; [reflexivity|].
  clear - Hq. induction Hq as [|t q r qs H Hq IH]; cbn; constructor; auto.
Qed.

Ltac fields :=
  match goal with
  | H : is_field _ _ |- context [bind (field_type ?s ?f) ?g ?k ?w] =>
      let t := fresh "t" in let E := fresh "E" in
      destruct (field_put k s f g w H) as [t E]; rewrite E; clear E
  end.

Ltac operands F :=
  repeat match type of F with
         | Forall2 fits (_ :: _) _ => let H := fresh "Hf" in inversion F as [|? ? ? ? H F']; subst; clear F; rename F' into F
         | Forall2 fits [] _ => inversion F; subst; clear F
         end.

Ltac done_case :=
  split; [reflexivity|split; [reflexivity|split; [cbn; try match goal with H : b_stack _ = _ |- _ => rewrite H end; reflexivity|]]];
  repeat constructor; fail.

Ltac runs_case :=
  let k := fresh "k" in let v := fresh "v" in let b := fresh "b" in let xs := fresh "xs" in
  let s := fresh "s" in let Hk := fresh "Hk" in let Hs := fresh "Hs" in let E := fresh "E" in
  let F := fresh "F" in
  intros k v b xs s Hk Hs E F; cbn [execute]; operands F; cbn [rev app] in E;
  repeat first
    [ fields
    | rewrite bind_push_put by exact Hk
    | erewrite (bind_pop_fits k v Hk); [|first [exact E|reflexivity]|eapply fits_accepts; [eassumption|first [left; reflexivity|right; reflexivity]]] ];
  rewrite ?next_put by exact Hk;
  match goal with
  | |- exists v' b' ys, (put k ?b1 ?v1, Ret tt) = _ /\ _ =>
      exists v1, b1;
      first [ exists (@nil value); done_case | eexists [_]; done_case | eexists [_; _]; done_case
            | eexists [_; _; _; _]; done_case ]
  end.

Lemma runs_execute e a r :
  lang_spec e = Some (a, r) -> unexecuted e = false -> looks_elsewhere e = false ->
  mistyped e = false -> valid_immediate e -> runs a r (execute e).
Proof.
  intros L U K T V. split_expr e; try discriminate; try (injection L as <- <-); cbn [valid_immediate] in V;
    try (apply runs_simple; repeat constructor; fail).
  { destruct o; try discriminate; injection L as <- <-;
    try (cbn [execute simple_effect]; apply runs_simple; repeat constructor; fail).
    all: runs_case. }
  all: try (runs_case; fail).
  - intros k v b xs s Hk Hs E F. operands F. cbn [rev app] in E. cbn [execute].
    destruct (nth_lt_some (v_scratch v) (N.to_nat Index_)) as [x Hx]; [lia|].
    unfold bind at 1. unfold scratch, index. cbn [v_scratch put set_branches]. rewrite Hx.
    rewrite bind_push_put, next_put by exact Hk.
    do 2 eexists. eexists [_]. split; [reflexivity|]. split; [reflexivity|].
    split; [cbn; rewrite E; reflexivity|]. repeat constructor.
  - intros k v b xs s Hk Hs E F. operands F. cbn [rev app] in E. cbn [execute].
    rewrite (bind_pop_any k v Hk _ _ _ _ E). unfold bind, store. cbn [v_src].
    cbn [v_scratch put set_branches].
    assert (Q : (N.to_nat Index_ <? length (v_scratch v)) = true) by lia. rewrite Q.
    set (v2 := set_scratch (upd_nth (N.to_nat Index_) (fun _ => y) (v_scratch v)) v).
    change (set_scratch _ (put k (set_stack s b) v)) with (put k (set_stack s b) v2).
    rewrite next_put by exact Hk. exists v2. eexists. exists []. repeat split. constructor.
  - intros k v b xs s Hk Hs E F. cbn [execute].
    pose proof (Forall2_len _ _ _ F) as Hl. rewrite repeat_length in Hl.
    assert (Hr : length (rev xs) = N.to_nat Depth_) by (rewrite rev_length; lia).
    unfold bind. rewrite pop_n_put by (rewrite ?E, ?app_length; lia || exact Hk).
    rewrite next_put by exact Hk. do 2 eexists. exists []. split; [reflexivity|]. split; [reflexivity|].
    split; [|constructor]. cbn. rewrite E, <- Hr, skipn_app, skipn_all, Nat.sub_diag. reflexivity.
  - pose proof (execute_stack_op) as X. intros k v b xs s Hk Hs E F. operands F. cbn [rev app] in E.
    specialize (X k v b (DupNExpr Count_) Hk V). rewrite E in X. cbn [stack_spec] in X. rewrite X.
    do 2 eexists. exists (repeat y (S (N.to_nat Count_))). split; [reflexivity|]. split; [reflexivity|].
    split.
    + cbn [b_stack set_line set_stack].
      assert (P : forall n, rev (repeat y n) = repeat y n).
      { clear. intros n. induction n as [|n IH]; [reflexivity|]. cbn. rewrite IH.
        clear. induction n as [|n IH]; [reflexivity|]. cbn. rewrite IH. reflexivity. }
      rewrite P. clear. induction (N.to_nat Count_) as [|n IH]; [reflexivity|].
      cbn. rewrite IH. reflexivity.
    + change (Forall2 typed (repeat TAny (S (N.to_nat Count_))) (repeat y (S (N.to_nat Count_)))).
      clear. induction (S (N.to_nat Count_)) as [|n IH]; cbn; constructor; auto. left; reflexivity.
  - intros k v b xs s Hk Hs E F. operands F. cbn [rev app] in E. cbn [execute].
    unfold bind. rewrite (pushes_put k v Hk). rewrite next_put by exact Hk.
    do 2 eexists. exists (map (fun b => Val TBytes (Some (SBytes b))) Bytess_).
    split; [reflexivity|]. split; [reflexivity|]. split; [cbn; rewrite E; reflexivity|].
    clear. induction Bytess_ as [|x xs IH]; cbn; constructor; auto. right; reflexivity.
Qed.

(* ------------------------------------------------------------------------------------------ *)
Theorem effect_types l ver v k b i e c a r xs s :
  reach l ver v -> before l v k b i e ->
  lang_spec e = Some (a, r) -> unexecuted e = false -> looks_elsewhere e = false ->
  mistyped e = false -> valid_immediate e ->
  cost_of e ver b = Ret [c] \/ (cost_of e ver b = Ret [] /\ c = 1%Z) -> (c <= b_budget b)%Z ->
  b_stack b = rev xs ++ s -> Forall2 fits a xs ->
  exists v' b' ys, step v = Ret v' /\ v_error v' = false /\
    nth_error (v_branches v') k = Some b' /\ b_stack b' = rev ys ++ s /\ Forall2 typed r ys.
Proof.
  intros R B L U K T V Hc Hle E F. apply reach_wf in R.
  pose proof (runs_execute e a r L U K T V) as Hrun.
  pose proof (nth_error_lt _ _ _ (before_branch _ _ _ _ _ _ B)) as Hk.
  assert (Hs : length (v_scratch (reset v)) = 256) by (apply (wf_scratch _ _ _ R)).
  assert (Hpos : (1 <= c)%Z).
  { destruct (cost_cases e ver b) as [Hp|[c' [Hc' H1]]].
    - destruct Hc as [Hc|[Hc _]]; congruence.
    - unfold costs in Hc'. destruct Hc as [Hc|[Hc ->]]; [|lia].
      destruct Hc' as [Hc'|[Hc' ->]]; rewrite Hc in Hc'; [injection Hc' as ->; exact H1|discriminate]. }
  destruct (executes_intro _ _ _ _ _ _ _ c R B Hc) as [v' X]; [lia| |].
  { destruct (Hrun k (reset v) (pay e c b) xs s Hk Hs E F) as [v2 [b2 [ys [E2 _]]]]. eauto. }
  destruct (executes_stack _ _ _ _ _ _ _ _ R B X) as [c' [v3 [b3 [b' [E' [N3 [N' S']]]]]]].
  destruct (Hrun k (reset v) (pay e c' b) xs s Hk Hs E F) as [v2 [b2 [ys [E2 [V2 [S2 T2]]]]]].
  exists v', b', ys. destruct X as [X1 [X2 _]]. repeat split; auto.
  rewrite S'. rewrite E2 in E'. injection E' as <-.
  rewrite nth_put in N3 by (rewrite V2; exact Hk). injection N3 as <-. exact S2.
Qed.
