(* Proofs about RealSpec.v: one instruction of the debugger covers one instruction of the real
   machine. *)
From Verif Require Import Base Expr Fields VmOps Vm VmProofs VmSkip VmStep VmExec VmSpec VmInv VmThms
  VmFlow VmStack VmTypes LangSpec RealSpec.
From Coq Require Import ZifyBool ZifyNat ZifyN.

(* ------------------------------------------------------------------------------------------ *)
(* inverting code that ran *)
Section Inv.
Context (k : nat) (v : vm) (Hk : k < length (v_branches v)).

Lemma pop_inv {A} t (f : value -> M A) b v3 a :
  bind (pop t) f k (put k b v) = (v3, Ret a) ->
  exists x r, b_stack b = x :: r /\ f x k (put k (set_stack r b) v) = (v3, Ret a).
Proof.
  unfold bind. rewrite pop_put by exact Hk. destruct (b_stack b) as [|x r]; [discriminate|].
  destruct (accepts t x); [|discriminate]. eauto.
Qed.

Lemma pop_known {A} t (f : value -> M A) b x r v3 a :
  b_stack b = x :: r -> bind (pop t) f k (put k b v) = (v3, Ret a) ->
  f x k (put k (set_stack r b) v) = (v3, Ret a).
Proof. intros E H. destruct (pop_inv _ _ _ _ _ H) as [y [s [E' H']]]. congruence. Qed.

Lemma field_inv {A} specs f (g : vtype -> M A) w v3 a :
  bind (field_type specs f) g k w = (v3, Ret a) ->
  exists s, spec_by_field specs f = Some s /\ g (vm_type (f_type s)) k w = (v3, Ret a).
Proof.
  unfold bind, field_type. destruct (spec_by_field specs f) as [s|]; [|discriminate]. eauto.
Qed.

Lemma pops_inv ps : forall b v3,
  each (fun t => pop t ;; ret tt) ps k (put k b v) = (v3, Ret tt) ->
  exists xs s, b_stack b = xs ++ s /\ length xs = length ps /\ v3 = put k (set_stack s b) v.
Proof.
  induction ps as [|p ps IH]; intros b v3 H; cbn [each] in H.
  - exists [], (b_stack b). injection H as <-. destruct b; auto.
  - rewrite bind_assoc in H. destruct (pop_inv _ _ _ _ _ H) as [x [r [E H']]].
    rewrite bind_ret in H'. destruct (IH _ _ H') as [xs [s [E' [L ->]]]]. cbn in E'.
    exists (x :: xs), s. rewrite E, E'. cbn. auto.
Qed.

Lemma pops_pushes_inv ps qs b v3 :
  pops_pushes ps qs k (put k b v) = (v3, Ret tt) ->
  exists xs s, b_stack b = xs ++ s /\ length xs = length ps /\
    v3 = put k (set_line (line_inc (b_line b)) (set_stack (rev (map plain_val qs) ++ s) b)) v.
Proof.
  unfold pops_pushes. unfold bind at 1. intros H.
  destruct (each (fun t => pop t ;; ret tt) ps k (put k b v)) as [v1 [[]| |]] eqn:E; try discriminate.
  destruct (pops_inv _ _ _ E) as [xs [s [Es [L ->]]]].
  unfold bind at 1 in H. rewrite pushes_put in H by exact Hk. rewrite next_put in H by exact Hk.
  injection H as <-. eauto.
Qed.

End Inv.

(* the type q of the debugger holds of all values of type t *)
Definition weaker (q t : vtype) : Prop := q = TAny \/ q = t.

Lemma weaker_of_type q t c : weaker q t -> of_type t c -> of_type q c.
Proof. intros [-> | ->]; [destruct c; reflexivity|auto]. Qed.

Lemma plain_described w slots qs r res :
  Forall2 weaker qs r -> Forall2 of_type r res ->
  Forall2 (describes w slots) (map plain_val qs) res.
Proof.
  intros H. revert res. induction H as [|q t qs r Hq H IH]; intros res F; inversion F; subst; cbn;
    constructor; auto. apply d_plain. eapply weaker_of_type; eauto.
Qed.

Lemma Forall2_split {A B} (R : A -> B -> Prop) xs ys xs' ys' :
  length xs = length xs' -> Forall2 R (xs ++ ys) (xs' ++ ys') -> Forall2 R xs xs' /\ Forall2 R ys ys'.
Proof.
  revert xs'. induction xs as [|x xs IH]; intros [|x' xs'] L F; try discriminate; cbn in *; auto.
  inversion F; subst. destruct (IH xs') as [A1 A2]; auto.
Qed.

(* the instructions with a plain effect that are covered *)
Definition simple_fits (e : expr) : Prop :=
  forall a r, lang_spec e = Some (a, r) -> unexecuted e = false ->
  match simple_effect e with
  | Some (ps, qs) => length ps = length a /\ Forall2 weaker qs r
  | None => True
  end.

Lemma simple_fits_all e : (forall ns, e <> PushIntsExpr ns) -> simple_fits e.
Proof.
  intros N a r L U. split_expr e; cbn in L; try discriminate; try exact I;
    try (injection L as <- <-; cbn; split; [reflexivity|repeat constructor]; fail).
  - destruct o; cbn in L; try discriminate; try exact I; injection L as <- <-; cbn;
      (split; [reflexivity|]); repeat (constructor; [first [left; reflexivity|right; reflexivity]|]); constructor.
Qed.

(* ------------------------------------------------------------------------------------------ *)
(* the instructions the world is asked about *)
Definition moved_on (k : nat) (v : vm) (b : branch) (v3 : vm) (stack : list value) : Prop :=
  exists b3 v2, v3 = put k b3 v2 /\ v_branches v2 = v_branches v /\
    b_line b3 = line_inc (b_line b) /\ b_frames b3 = b_frames b /\ b_stack b3 = stack.

Lemma simple_covers w slots e a r ps qs k v b v3 args res s :
  lang_spec e = Some (a, r) -> unexecuted e = false -> (forall ns, e <> PushIntsExpr ns) ->
  simple_effect e = Some (ps, qs) ->
  Forall2 of_type a args -> Forall2 of_type r res ->
  k < length (v_branches v) -> pops_pushes ps qs k (put k b v) = (v3, Ret tt) ->
  Forall2 (describes w slots) (b_stack b) (rev args ++ s) ->
  exists stack, moved_on k v b v3 stack /\ Forall2 (describes w slots) stack (rev res ++ s).
Proof.
  intros L U Np Se Fa Fr Hk E F.
  pose proof (simple_fits_all e Np a r L U) as Q. rewrite Se in Q. destruct Q as [Q1 Q2].
  destruct (pops_pushes_inv k v Hk _ _ _ _ E) as [xs [t [Es [Lx ->]]]].
  rewrite Es in F. apply Forall2_split in F.
  2:{ rewrite rev_length, Lx, Q1. exact (Forall2_len _ _ _ Fa). }
  eexists. split.
  - do 2 eexists. split; [reflexivity|]. repeat split.
  - cbn. apply Forall2_app; [|apply F]. apply Forall2_rev'. eapply plain_described; eauto.
Qed.


Ltac lists :=
  repeat match goal with
         | H : Forall2 of_type (_ :: _) ?x |- _ => is_var x; inversion H; subst; clear H
         | H : Forall2 of_type [] ?x |- _ => is_var x; inversion H; subst; clear H
         end.

Ltac operate k v Hk E F :=
  cbn [execute simple_effect] in E;
  repeat match type of E with
         | bind (field_type _ _) _ _ _ = _ =>
             let sp := fresh "sp" in let Hs := fresh "Hs" in
             apply field_inv in E; destruct E as [sp [Hs E]]
         | bind (pop _) _ _ _ = _ =>
             let x := fresh "x" in let t := fresh "t" in let Q := fresh "Q" in
             apply (pop_inv k v Hk) in E; destruct E as [x [t [Q E]]];
             cbn [b_stack set_stack] in Q; rewrite Q in F;
             inversion F as [|? ? ? ? ? F' Eq1 Eq2]; subst; clear F; rename F' into F
         | bind (push _) _ _ _ = _ => rewrite bind_push_put in E by exact Hk
         | next_line _ _ = _ => rewrite next_put in E by exact Hk; injection E as <-
         end.

Ltac covered :=
  eexists; split;
  [do 2 eexists; split; [reflexivity|]; repeat split|cbn [rev app b_stack set_stack set_line]].

Lemma world_covers w slots e a r k v b v3 args res s :
  lawful w -> built_in e = false -> unexecuted e = false -> w_op w e args res ->
  k < length (v_branches v) -> execute e k (put k b v) = (v3, Ret tt) ->
  lang_spec e = Some (a, r) ->
  Forall2 (describes w slots) (b_stack b) (rev args ++ s) ->
  exists stack, moved_on k v b v3 stack /\ Forall2 (describes w slots) stack (rev res ++ s).
Proof.
  intros Lw Bi U W Hk E L F.
  destruct (Lw _ _ _ W) as [a' [r' [L' [Fa [Fr Ff]]]]]. rewrite L in L'. injection L' as <- <-.
  assert (Np : forall ns, e <> PushIntsExpr ns) by (intros ns ->; discriminate).
  destruct (simple_effect e) as [[ps qs]|] eqn:Se.
  { eapply simple_covers; eauto.
    rewrite <- E. clear - Se Bi. split_expr e; try discriminate; try (cbn [execute]; rewrite Se; reflexivity).
    all: try (destruct o; try discriminate; cbn [execute]; rewrite Se; reflexivity). }
  split_expr e; try discriminate.
  { destruct o; try discriminate; injection L as <- <-; lists; cbn [rev app] in F.
    all: operate k v Hk E F; covered; auto.
    all: constructor; [|assumption].
    - eapply (d_op w slots TBytes (Op0 Sha256Expr) _ [_] [_]); eauto; repeat constructor; assumption.
    - eapply (d_op w slots TUint64 (Op0 ED25519VerifyExpr) _ [_; _; _] [_; _; _]); eauto;
        repeat constructor; assumption. }
  all: injection L as <- <-; lists; cbn [rev app] in F.
  all: operate k v Hk E F; covered; auto.
  all: repeat (constructor; [solve [apply d_plain; first [assumption|eapply Ff; eauto; reflexivity]]|]); auto.
  constructor; [|assumption].
  eapply (d_op w slots TUint64 (EcdsaVerifyExpr Index_) _ [_; _; _; _; _] [_; _; _; _; _]);
    [assumption|reflexivity| |exact W].
  repeat (constructor; [assumption|]). constructor.
Qed.

(* ------------------------------------------------------------------------------------------ *)
(* moving values about *)
Lemma Forall2_firstn' {A B} (R : A -> B -> Prop) n : forall xs ys,
  Forall2 R xs ys -> Forall2 R (firstn n xs) (firstn n ys).
Proof. induction n; intros xs ys F; inversion F; subst; cbn; constructor; auto. Qed.

Lemma Forall2_skipn' {A B} (R : A -> B -> Prop) n : forall xs ys,
  Forall2 R xs ys -> Forall2 R (skipn n xs) (skipn n ys).
Proof. induction n; intros xs ys F; inversion F; subst; cbn; auto. Qed.

Lemma Forall2_nth2 {A B} (R : A -> B -> Prop) xs ys n x y :
  Forall2 R xs ys -> nth_error xs n = Some x -> nth_error ys n = Some y -> R x y.
Proof. intros F Hx Hy. destruct (Forall2_nth _ _ _ _ _ F Hx) as [z [Hz H]]. congruence. Qed.

Lemma Forall2_repeat' {A B} (R : A -> B -> Prop) n x y : R x y -> Forall2 R (repeat x n) (repeat y n).
Proof. intros H. induction n; cbn; constructor; auto. Qed.

Lemma stack_moves {A B} (R : A -> B -> Prop) e xs ys xs' ys' :
  (forall n, e <> BuryExpr n) -> Forall2 R xs ys ->
  stack_spec e xs = Some xs' -> stack_spec e ys = Some ys' -> Forall2 R xs' ys'.
Proof.
  intros Nb F Hx Hy.
  destruct e; try discriminate; try (exfalso; eapply Nb; reflexivity).
  - destruct o; try discriminate; cbn in Hx, Hy.
    + destruct xs; [discriminate|]. destruct ys; [discriminate|].
      injection Hx as <-. injection Hy as <-. inversion F; subst. auto.
    + destruct xs; [discriminate|]. destruct ys; [discriminate|].
      injection Hx as <-. injection Hy as <-. inversion F; subst. auto.
    + destruct xs as [|? [|? ?]]; try discriminate. destruct ys as [|? [|? ?]]; try discriminate.
      injection Hx as <-. injection Hy as <-. inversion F; subst. inversion H4; subst. auto.
    + destruct xs as [|? [|? ?]]; try discriminate. destruct ys as [|? [|? ?]]; try discriminate.
      injection Hx as <-. injection Hy as <-. inversion F; subst. inversion H4; subst. auto.
  - cbn [stack_spec] in *. destruct (_ <=? length xs); [|discriminate].
    destruct (_ <=? length ys); [|discriminate]. injection Hx as <-. injection Hy as <-.
    apply Forall2_skipn'; auto.
  - cbn [stack_spec] in *. destruct xs; [discriminate|]. destruct ys; [discriminate|].
    injection Hx as <-. injection Hy as <-. inversion F; subst.
    apply Forall2_app; [|auto]. apply Forall2_repeat'; auto.
  - cbn [stack_spec] in *. destruct xs; [discriminate|]. destruct ys; [discriminate|].
    inversion F; subst.
    destruct (_ <=? length xs); [|discriminate]. destruct (_ <=? length ys); [|discriminate].
    injection Hx as <-. injection Hy as <-. apply Forall2_app; [apply Forall2_firstn'; auto|].
    constructor; auto. apply Forall2_skipn'; auto.
  - cbn [stack_spec] in *. destruct (nth_error xs _) as [x|] eqn:Ex; [|discriminate].
    destruct (nth_error ys _) as [y|] eqn:Ey; [|discriminate].
    injection Hx as <-. injection Hy as <-. constructor; [eapply Forall2_nth2; eauto|].
    apply Forall2_app; [apply Forall2_firstn'; auto|apply (Forall2_skipn' R (S _)); auto].
  - cbn [stack_spec] in *. destruct (nth_error xs _) as [x|] eqn:Ex; [|discriminate].
    destruct (nth_error ys _) as [y|] eqn:Ey; [|discriminate].
    injection Hx as <-. injection Hy as <-. constructor; [eapply Forall2_nth2; eauto|auto].
Qed.

(* ------------------------------------------------------------------------------------------ *)
(* one instruction *)
Definition matches (w : world) (slots : bool) (b : branch) (c : real_state) : Prop :=
  Forall2 (describes w slots) (b_stack b) (c_stack c) /\
  Forall2 describes_call (b_frames b) (c_calls c).

Definition covered_by (w : world) (slots : bool) (l : listing) (k : nat) (v v3 : vm)
    (c : real_state) : Prop :=
  exists b3 nbs, v_branches v3 = upd_nth k (fun _ => b3) (v_branches v) ++ nbs /\
    ((b_line b3 = Some (c_line c) /\ matches w slots b3 c) \/
     exists nb, In nb nbs /\ b_line nb = land l (Some (c_line c)) /\ matches w slots nb c).

Lemma moved_covered w slots l k v b v3 stack i s cs m :
  moved_on k v b v3 stack -> b_line b = Some i ->
  Forall2 (describes w slots) stack s -> Forall2 describes_call (b_frames b) cs ->
  covered_by w slots l k v v3 (Real (S i) s cs m).
Proof.
  intros [b3 [v2 [-> [V [L [Fr St]]]]]] Hi F C. exists b3, []. rewrite app_nil_r.
  split; [cbn; rewrite V; reflexivity|]. left. rewrite Hi in L. split; [exact L|].
  split; cbn; [rewrite St; exact F|rewrite Fr; exact C].
Qed.

Lemma forks_cover w slots l k v b v3 ts i s m :
  k < length (v_branches v) -> v_listing v = l -> b_line b = Some i -> b_frames b = [] ->
  Forall2 (describes w slots) (b_stack b) s ->
  (each fork ts ;; next_line) k (put k b v) = (v3, Ret tt) ->
  covered_by w slots l k v v3 (Real (S i) s [] m) /\
  forall t j, In t ts -> target l t (Some j) -> covered_by w slots l k v v3 (Real j s [] m).
Proof.
  intros Hk Hl Hi Hf F E.
  destruct (forks_put k b ts v Hk) as [v2 [nbs [E2 [B2 [L2 F2]]]]].
  unfold bind in E. rewrite E2 in E. rewrite next_put in E by (rewrite B2, app_length; lia).
  injection E as <-.
  assert (V : v_branches (put k (set_line (line_inc (b_line b)) b) v2) =
              upd_nth k (fun _ => set_line (line_inc (b_line b)) b) (v_branches v) ++ nbs).
  { cbn. rewrite B2. apply upd_nth_app_lt. exact Hk. }
  split.
  - exists (set_line (line_inc (b_line b)) b), nbs. split; [exact V|]. left. cbn. rewrite Hi.
    split; [reflexivity|]. split; cbn; [exact F|rewrite Hf; constructor].
  - intros t j Ht T. exists (set_line (line_inc (b_line b)) b), nbs. split; [exact V|]. right.
    assert (X : exists nb, In nb nbs /\ forked (v_listing v) b t nb).
    { clear - F2 Ht. induction F2 as [|t' nb ts nbs H F IH]; [destruct Ht|].
      destruct Ht as [->|Ht]; [exists nb; split; [left|]; auto|].
      destruct (IH Ht) as [nb' [A1 A2]]. exists nb'. split; [right|]; auto. }
    destruct X as [nb [Hn [N1 [N2 [_ [_ N5]]]]]]. exists nb. split; [exact Hn|].
    rewrite Hl in N1. apply target_find in T. rewrite <- T in N1. split; [exact N1|].
    split; cbn; [rewrite N2; exact F|rewrite N5; constructor].
Qed.

Lemma pop_n_inv {A} k v n (f : list value -> M A) b v3 a : k < length (v_branches v) ->
  bind (pop_n n TAny) f k (put k b v) = (v3, Ret a) ->
  n <= length (b_stack b) /\
  f (firstn n (b_stack b)) k (put k (set_stack (skipn n (b_stack b)) b) v) = (v3, Ret a).
Proof.
  intros Hk E. destruct (le_lt_dec n (length (b_stack b))) as [H|H].
  - unfold bind in E. rewrite pop_n_put in E by assumption. auto.
  - destruct (pop_n_short k v Hk n b H) as [v' Hv]. unfold bind in E. rewrite Hv in E. discriminate.
Qed.

Lemma const_covers w slots e xs k v b v3 s :
  constants w e = Some xs -> (forall ns, e <> PushIntsExpr ns) ->
  k < length (v_branches v) -> execute e k (put k b v) = (v3, Ret tt) ->
  Forall2 (describes w slots) (b_stack b) s ->
  exists stack, moved_on k v b v3 stack /\ Forall2 (describes w slots) stack (rev xs ++ s).
Proof.
  intros C Np Hk E F. destruct e; try discriminate; try (exfalso; eapply Np; reflexivity).
  all: injection C as <-; cbn [execute simple_effect] in E.
  all: try (unfold pops_pushes in E; cbn [each] in E; rewrite bind_ret, bind_assoc in E).
  all: try (operate k v Hk E F; try (rewrite bind_ret, next_put in E by exact Hk; injection E as <-);
            covered; constructor; [|assumption];
            first [apply d_bytes|apply d_int|apply d_selector|apply d_plain]; exact I).
  - unfold bind in E. rewrite pushes_put in E by exact Hk. rewrite next_put in E by exact Hk.
    injection E as <-. covered. apply Forall2_app; [|assumption]. apply Forall2_rev'.
    clear. induction Bytess_; cbn; constructor; auto. apply d_bytes. exact I.
Qed.

Lemma followed_unexecuted slots e c a r :
  built_in e = false -> lang_spec e = Some (a, r) -> followed slots e c -> unexecuted e = false.
Proof.
  intros B L F. split_expr e; try discriminate; try reflexivity; try (destruct F; fail).
  destruct o; try discriminate; try reflexivity; destruct F.
Qed.

Lemma stack_covers w slots e c k v b v3 s' :
  stack_op e = true -> followed slots e c -> stack_spec e (c_stack c) = Some s' ->
  k < length (v_branches v) -> execute e k (put k b v) = (v3, Ret tt) ->
  Forall2 (describes w slots) (b_stack b) (c_stack c) ->
  exists stack, moved_on k v b v3 stack /\ Forall2 (describes w slots) stack s'.
Proof.
  intros So Fo Sp Hk E F.
  pose proof (Forall2_len _ _ _ F) as Len.
  assert (Rs : right_stack_op e (length (b_stack b))).
  { destruct e; try discriminate; try exact I; try (destruct Fo; fail).
    - destruct o; try discriminate; try exact I; destruct Fo.
    - cbn [right_stack_op]. destruct (N.ltb_spec Count_ 255) as [H|H]; [exact H|].
      exfalso. cbn [execute] in E. apply (pop_inv k v Hk) in E. destruct E as [x [r [_ E]]].
      destruct (N.leb_spec 255 Count_); [discriminate|lia].
    - cbn [right_stack_op followed] in *. rewrite Len. split; [|exact Fo].
      cbn [stack_spec] in Sp. destruct (nth_error (c_stack c) _) as [x|] eqn:Ex; [|discriminate].
      apply nth_error_lt in Ex. lia. }
  pose proof (execute_stack_op k v b e Hk Rs) as X.
  destruct (stack_spec e (b_stack b)) as [s|] eqn:Sb.
  - rewrite X in E. injection E as <-. exists s. split.
    + do 2 eexists. split; [reflexivity|]. repeat split.
    + eapply stack_moves; eauto. intros n ->. exact Fo.
  - destruct X as [v' X]. rewrite X in E. discriminate.
Qed.

Lemma rev_nth_same {A B} (R : A -> B -> Prop) xs ys n y :
  Forall2 R xs ys -> nth_error (rev ys) n = Some y -> exists x, nth_error (rev xs) n = Some x /\ R x y.
Proof. intros F H. apply Forall2_rev' in F. destruct (Forall2_nth_r _ _ _ _ _ F H) as [x X]. eauto. Qed.

Lemma skipn_S {A} n : forall (s : list A) x r, skipn n s = x :: r -> skipn (S n) s = r.
Proof.
  induction n as [|n IH]; intros [|y s] x r H; cbn in H; try discriminate.
  - injection H as -> ->. reflexivity.
  - exact (IH s x r H).
Qed.

Lemma nth_error_same {A} : forall xs ys : list A,
  (forall j, nth_error xs j = nth_error ys j) -> xs = ys.
Proof.
  induction xs as [|x xs IH]; intros [|y ys] H; try reflexivity.
  - discriminate (H 0).
  - discriminate (H 0).
  - pose proof (H 0) as H0. injection H0 as ->. f_equal. apply IH. intros j. exact (H (S j)).
Qed.

Lemma frame_index h z :
  (0 <= Z.of_nat h + z)%Z -> (Z.of_nat h + z < 256)%Z ->
  Z.to_nat ((Z.of_N (N.of_nat h mod 256) + z) mod 256) = Z.to_nat (Z.of_nat h + z).
Proof.
  intros H1 H2. f_equal. rewrite N2Z.inj_mod, nat_N_Z. change (Z.of_N 256) with 256%Z.
  rewrite Zplus_mod_idemp_l. apply Z.mod_small. lia.
Qed.

Theorem instruction_covered w slots l e c c' k v b v3 :
  lawful w -> instruction w l e c c' -> is_nop e = false -> followed slots e c ->
  k < length (v_branches v) -> v_listing v = l -> b_line b = Some (c_line c) ->
  matches w slots b c -> execute e k (put k b v) = (v3, Ret tt) ->
  covered_by w slots l k v v3 c'.
Proof.
  intros Lw I_ Nn Fo Hk Hl Hi [F C] E.
  destruct I_; cbn [c_line c_stack c_calls] in *.
  - congruence.
  - destruct (Lw _ _ _ H0) as [a [r [L _]]].
    destruct (world_covers w slots e a r k v b v3 args res s Lw H
                (followed_unexecuted _ _ _ _ _ H L Fo) H0 Hk E L F) as [st [M D]].
    eapply moved_covered; eauto.
  - destruct (stack_covers w slots e (Real i s cs m) k v b v3 s' H Fo H0 Hk E F) as [st [M D]].
    eapply moved_covered; eauto.
  - assert (Np : forall ns, e <> PushIntsExpr ns) by (intros ns ->; exact Fo).
    destruct (const_covers w slots e xs k v b v3 s H Np Hk E F) as [st [M D]].
    eapply moved_covered; eauto.
  - cbn [execute simple_effect] in E. destruct (pops_pushes_inv k v Hk _ _ _ _ E) as [xs [t [Es [Lx ->]]]].
    destruct xs as [|x [|y xs]]; try discriminate. rewrite Es in F. cbn in F. inversion F; subst.
    eapply moved_covered; eauto. do 2 eexists. split; [reflexivity|]. repeat split.
  - cbn [execute] in E. unfold bind at 1 in E. unfold scratch, index in E.
    destruct (nth_error (v_scratch (put k b v)) (N.to_nat n)) as [x|]; [|discriminate].
    rewrite bind_push_put, next_put in E by exact Hk. injection E as <-.
    eapply moved_covered; eauto.
    + do 2 eexists. split; [reflexivity|]. repeat split.
    + constructor; [|exact F]. apply d_any_slot; [destruct (m n); exact I|exact Fo].
  - cbn [execute] in E. apply (pop_inv k v Hk) in E. destruct E as [x [t [Q E]]].
    rewrite Q in F. inversion F; subst. unfold bind, store in E. cbn [v_src] in E.
    destruct (_ <? _); [|discriminate].
    match type of E with next_line k (set_scratch ?x _) = _ =>
      change (next_line k (put k (set_stack t b) (set_scratch x v)) = (v3, Ret tt)) in E end.
    rewrite next_put in E by exact Hk. injection E as <-.
    eapply moved_covered; eauto. do 2 eexists. split; [reflexivity|]. repeat split.
  - cbn [execute simple_effect] in E. destruct (pops_pushes_inv k v Hk _ _ _ _ E) as [xs [t [Es [Lx ->]]]].
    destruct xs as [|x [|y xs]]; try discriminate. rewrite Es in F. cbn in F. inversion F; subst.
    eapply moved_covered; eauto.
    + do 2 eexists. split; [reflexivity|]. repeat split.
    + cbn. constructor; [|assumption]. apply d_plain. destruct (m n); exact I.
  - cbn [execute] in E. apply (pop_inv k v Hk) in E. destruct E as [x [t [Q E]]].
    rewrite Q in F. inversion F; subst.
    apply (pop_inv k v Hk) in E. destruct E as [y [t' [Q' E]]]. cbn in Q'. subst t.
    match goal with F' : Forall2 _ (_ :: t') _ |- _ => inversion F'; subst end.
    assert (X : exists sc, next_line k (put k (set_stack t' b) (set_scratch sc v)) = (v3, Ret tt)).
    { unfold bind, store in E. destruct (v_src y) as [[sn| | | |]|];
        try (exists (v_scratch v); destruct v; exact E).
      destruct (_ <? _); [|discriminate].
      match type of E with next_line k (set_scratch ?x _) = _ => exists x; exact E end. }
    destruct X as [sc X]. rewrite next_put in X by exact Hk. injection X as <-.
    eapply moved_covered; eauto. do 2 eexists. split; [reflexivity|]. repeat split.
  - cbn [execute] in E. rewrite jump_put in E by exact Hk. injection E as <-.
    exists (set_line (find (v_listing v) t) b), []. rewrite app_nil_r. split; [reflexivity|]. left.
    rewrite Hl. apply target_find in H. rewrite <- H. split; [reflexivity|]. split; assumption.
  - cbn [followed c_calls] in Fo. subst cs. inversion C as [Hf|]. symmetry in Hf.
    cbn [execute] in E. apply (pop_inv k v Hk) in E. destruct E as [x [r [Q E]]].
    rewrite Q in F. inversion F; subst.
    destruct (forks_cover w slots (v_listing v) k v (set_stack r b) v3 [t] i s m Hk eq_refl Hi Hf) as [_ X];
      [assumption| |apply (X t); [left; reflexivity|exact H]].
    rewrite <- E. unfold bind. cbn [each]. unfold bind, ret.
    destruct (fork t k _) as [v' [[]| |]]; reflexivity.
  - cbn [followed c_calls] in Fo. subst cs. inversion C as [Hf|]. symmetry in Hf.
    cbn [execute] in E. apply (pop_inv k v Hk) in E. destruct E as [x [r [Q E]]].
    rewrite Q in F. inversion F; subst.
    destruct (forks_cover w slots (v_listing v) k v (set_stack r b) v3 [t] i s m Hk eq_refl Hi Hf) as [X _];
      [assumption| |exact X].
    rewrite <- E. unfold bind. cbn [each]. unfold bind, ret.
    destruct (fork t k _) as [v' [[]| |]]; reflexivity.
  - cbn [followed c_calls] in Fo. subst cs. inversion C as [Hf|]. symmetry in Hf.
    cbn [execute] in E. apply (pop_inv k v Hk) in E. destruct E as [x [r [Q E]]].
    rewrite Q in F. inversion F; subst.
    destruct (forks_cover w slots (v_listing v) k v (set_stack r b) v3 [t] i s m Hk eq_refl Hi Hf) as [_ X];
      [assumption| |apply (X t); [left; reflexivity|assumption]].
    rewrite <- E. unfold bind. cbn [each]. unfold bind, ret.
    destruct (fork t k _) as [v' [[]| |]]; reflexivity.
  - cbn [followed c_calls] in Fo. subst cs. inversion C as [Hf|]. symmetry in Hf.
    cbn [execute] in E. apply (pop_inv k v Hk) in E. destruct E as [x [r [Q E]]].
    rewrite Q in F. inversion F; subst.
    destruct (forks_cover w slots (v_listing v) k v (set_stack r b) v3 [t] i s m Hk eq_refl Hi Hf) as [X _];
      [assumption| |exact X].
    rewrite <- E. unfold bind. cbn [each]. unfold bind, ret.
    destruct (fork t k _) as [v' [[]| |]]; reflexivity.
  - cbn [followed c_calls] in Fo. subst cs. inversion C as [Hf|]. symmetry in Hf.
    cbn [execute] in E. apply (pop_inv k v Hk) in E. destruct E as [x [r [Q E]]].
    rewrite Q in F. inversion F; subst.
    destruct (forks_cover w slots (v_listing v) k v (set_stack r b) v3 ts i s m Hk eq_refl Hi Hf) as [_ X];
      [assumption|exact E|]. apply (X t); [eapply nth_error_In; eauto|assumption].
  - cbn [followed c_calls] in Fo. subst cs. inversion C as [Hf|]. symmetry in Hf.
    cbn [execute] in E. apply (pop_inv k v Hk) in E. destruct E as [x [r [Q E]]].
    rewrite Q in F. inversion F; subst.
    destruct (forks_cover w slots (v_listing v) k v (set_stack r b) v3 ts i s m Hk eq_refl Hi Hf) as [X _];
      [assumption|exact E|exact X].
  - cbn [followed c_calls] in Fo. subst cs. inversion C as [Hf|]. symmetry in Hf.
    cbn [execute] in E. apply (pop_n_inv k v) in E; [|exact Hk]. destruct E as [Hn E].
    apply (pop_inv k v Hk) in E. destruct E as [x [r [Q E]]]. cbn in Q.
    assert (Fs : Forall2 (describes w slots) r s).
    { apply (Forall2_skipn' _ (S (length ts))) in F.
      rewrite (skipn_S _ _ _ _ Q) in F. cbn [skipn] in F. rewrite skipn_app in F.
      rewrite skipn_all2 in F by (rewrite rev_length; lia).
      replace (length ts - length (rev cases)) with 0 in F by (rewrite rev_length; lia). exact F. }
    destruct (forks_cover w slots (v_listing v) k v (set_stack r (set_stack (x :: r) b)) v3 ts i s m Hk eq_refl Hi Hf) as [_ X];
      [exact Fs|rewrite <- Q; exact E|]. subst l. apply (X t); [eapply nth_error_In; eauto|assumption].
  - cbn [followed c_calls] in Fo. subst cs. inversion C as [Hf|]. symmetry in Hf.
    cbn [execute] in E. apply (pop_n_inv k v) in E; [|exact Hk]. destruct E as [Hn E].
    apply (pop_inv k v Hk) in E. destruct E as [x [r [Q E]]]. cbn in Q.
    assert (Fs : Forall2 (describes w slots) r s).
    { apply (Forall2_skipn' _ (S (length ts))) in F.
      rewrite (skipn_S _ _ _ _ Q) in F. cbn [skipn] in F. rewrite skipn_app in F.
      rewrite skipn_all2 in F by (rewrite rev_length; lia).
      replace (length ts - length (rev cases)) with 0 in F by (rewrite rev_length; lia). exact F. }
    destruct (forks_cover w slots (v_listing v) k v (set_stack r (set_stack (x :: r) b)) v3 ts i s m Hk eq_refl Hi Hf) as [X _];
      [exact Fs|rewrite <- Q; exact E|]. subst l. exact X.
  - (* callsub *)
    cbn [execute] in E. unfold call in E. rewrite bind_get_put, bind_mod_put in E by exact Hk.
    unfold bind at 1, find_m in E. rewrite mod_put in E by exact Hk. injection E as <-.
    eexists. exists []. rewrite app_nil_r. split; [reflexivity|]. left. cbn.
    apply target_find in H. rewrite Hl, <- H. split; [reflexivity|].
    split; cbn; [exact F|]. constructor; [|exact C].
    unfold describes_call. cbn. rewrite Hi, (Forall2_len _ _ _ F). auto.
  - (* retsub without proto *)
    cbn [execute] in E. rewrite bind_get_put in E by exact Hk.
    inversion C as [|f ? fs ? Hf C' Ef]; subst. destruct Hf as [H1 [H2 [H3 H4]]]. cbn in H1, H3, H4.
    rewrite <- Ef, H3, H4 in E. cbn [N.to_nat pop_n] in E. rewrite !bind_ret in E.
    cbn [rev each] in E. rewrite bind_ret in E.
    rewrite mod_put in E by exact Hk. injection E as <-.
    eexists. exists []. rewrite app_nil_r. split; [reflexivity|]. left. cbn. rewrite H1.
    split; [reflexivity|]. split; cbn; assumption.
  - (* retsub with proto *)
    cbn [followed c_calls c_stack] in Fo.
    assert (locals = []) as ->.
    { destruct locals; [reflexivity|]. rewrite !app_length in *. cbn in *. lia. }
    cbn [app] in F.
    cbn [execute] in E. rewrite bind_get_put in E by exact Hk.
    inversion C as [|f ? fs ? Hf C' Ef]; subst. destruct Hf as [H1' [H2' [H3 H4]]]. cbn in H1', H3, H4.
    rewrite <- Ef, H3, H4 in E.
    apply (pop_n_inv k v) in E; [|exact Hk]. destruct E as [Hn E].
    apply (pop_n_inv k v) in E; [|exact Hk]. destruct E as [Hn' E]. cbn [b_stack set_stack] in E.
    unfold bind in E. rewrite each_push_put, mod_put in E by exact Hk. injection E as <-.
    eexists. exists []. rewrite app_nil_r. split; [reflexivity|]. left. cbn. rewrite H1'.
    split; [reflexivity|]. split; cbn; [|assumption]. rewrite rev_involutive.
    apply Forall2_app.
    + apply (Forall2_firstn' _ (N.to_nat r)) in F. rewrite firstn_app, <- H, firstn_all, Nat.sub_diag in F.
      cbn in F. rewrite app_nil_r in F. rewrite <- H. exact F.
    + apply (Forall2_skipn' _ (N.to_nat r)) in F.
      rewrite skipn_app, <- H, skipn_all, Nat.sub_diag in F. cbn in F.
      apply (Forall2_skipn' _ (N.to_nat a)) in F.
      rewrite skipn_app, <- H0, skipn_all, Nat.sub_diag in F. cbn in F. rewrite <- H, <- H0. exact F.
  - (* proto *)
    cbn [execute] in E. inversion C as [|f ? fs ? Hf C' Ef]; subst. symmetry in Ef.
    unfold bind at 1, prepare in E. rewrite bind_get_put in E by exact Hk.
    assert (Q : b_frames b = f :: fs) by congruence.
    rewrite Q in E. rewrite mod_put in E by exact Hk. rewrite next_put in E by exact Hk. injection E as <-.
    eexists. exists []. rewrite app_nil_r. split; [reflexivity|]. left. cbn. rewrite Hi.
    split; [reflexivity|]. split; cbn; [exact F|]. constructor; [|exact C'].
    destruct Hf as [H1 [H2 _]]. unfold describes_call. cbn in *. auto.
  - (* frame_dig *)
    cbn [followed c_calls] in Fo.
    cbn [execute] in E. rewrite bind_get_put in E by exact Hk.
    inversion C as [|f ? fs ? Hf C' Ef]; subst. symmetry in Ef.
    destruct Hf as [_ [H2 _]]. cbn in H2. rewrite Ef in E. unfold bind at 1 in E. rewrite item_put in E by exact Hk.
    rewrite H2, frame_index in E by assumption. unfold index in E.
    destruct (rev_nth_same _ _ _ _ _ F H0) as [x [Hx D]]. rewrite Hx in E.
    rewrite bind_push_put, next_put in E by exact Hk. injection E as <-.
    eapply moved_covered; eauto. do 2 eexists. split; [reflexivity|]. repeat split.
  - (* frame_bury *)
    cbn [followed c_calls] in Fo.
    cbn [execute] in E. rewrite bind_get_put in E by exact Hk.
    inversion C as [|f ? fs ? Hf C' Ef]; subst. symmetry in Ef.
    destruct Hf as [_ [H2' _]]. cbn in H2'. rewrite Ef in E. rewrite H2', frame_index in E by assumption.
    apply (pop_inv k v Hk) in E. destruct E as [x [t [Q E]]].
    unfold bind at 1, replace in E. rewrite bind_get_put in E by exact Hk. cbn [b_stack set_stack] in E.
    destruct (Nat.ltb_spec (Z.to_nat (Z.of_nat h + z)) (length t)) as [Hlt|]; [|discriminate].
    rewrite mod_put, next_put in E by exact Hk. injection E as <-.
    rewrite Q in F. inversion F as [|? ? ? ? D F' E1 E2]; subst.
    eapply moved_covered; eauto.
    + do 2 eexists. split; [reflexivity|]. repeat split.
    + cbn. rewrite <- (rev_involutive s'). apply Forall2_rev'.
      apply Forall2_rev' in F'.
      assert (G : forall n (xs : list value) (ys zs : list real_value),
                Forall2 (describes w slots) xs ys -> length zs = length ys ->
                nth_error zs n = Some c -> (forall j, j <> n -> nth_error zs j = nth_error ys j) ->
                Forall2 (describes w slots) (upd_nth n (fun _ => x) xs) zs).
      { clear - D. induction n as [|n IH]; intros xs ys zs F L Hn Ho.
        - destruct F as [|a y xs ys Ha F]; [destruct zs; discriminate|].
          destruct zs as [|z zs]; [discriminate|]. cbn in Hn. injection Hn as ->. cbn.
          constructor; [exact D|].
          assert (zs = ys) as ->; [|exact F].
          apply nth_error_same. intros j. exact (Ho (S j) ltac:(discriminate)).
        - destruct F as [|a y xs ys Ha F]; [destruct zs; discriminate|].
          destruct zs as [|z zs]; [discriminate|]. cbn in Hn, L. cbn.
          pose proof (Ho 0 ltac:(discriminate)) as H0. cbn in H0. injection H0 as ->.
          constructor; [exact Ha|]. apply (IH xs ys zs F); auto.
          intros j Hj. exact (Ho (S j) ltac:(congruence)). }
      apply (G _ _ (rev s)); auto. rewrite !rev_length. assumption.
Qed.
