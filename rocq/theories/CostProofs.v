(* What a step costs. *)
From Verif Require Import Base Expr Fields Literals OpTable Process ProcessSpec LangOps VmOps Vm VmProofs VmSkip VmStep
  VmExec VmSpec VmInv VmThms VmFlow CostSpec.
From Coq Require Import ZifyBool ZifyNat ZifyN.

Lemma costs_unique e ver b c c' : costs e ver b c -> costs e ver b c' -> c = c'.
Proof.
  intros [H|[H ->]] [H'|[H' ->]]; rewrite H in H'; try discriminate; [injection H' as ->|]; reflexivity.
Qed.

Lemma step_charged l ver v k b i e v' c :
  wf l ver v -> before l v k b i e -> step v = Ret v' -> costs e ver b c -> charged v v' k c.
Proof.
  intros W B E C. pose proof (step_stepped _ _ _ _ _ _ _ W B) as S. rewrite E in S.
  pose proof (before_branch _ _ _ _ _ _ B) as Hb.
  assert (Hver : v_version (reset v) = ver) by (apply (wf_version _ _ _ W)).
  assert (X : forall c' v3 r, execute e k (put k (pay e c' b) (reset v)) = (v3, r) ->
    exists b3, nth_error (v_branches v3) k = Some b3 /\ b_budget b3 = (b_budget b - c')%Z).
  { intros c' v3 r Ex. destruct (Ext_execute e _ _ _ _ Ex) as [_ X].
    destruct (X (pay e c' b)) as [b3 [new [E1 [_ [E2 _]]]]]; [apply (nth_put_same k b); exact Hb|].
    exists b3. split; [|exact E2]. rewrite E1, nth_error_app1.
    - cbn. rewrite !nth_upd_nth_same, Hb. reflexivity.
    - rewrite upd_nth_length. cbn. rewrite upd_nth_length. apply nth_error_lt in Hb. exact Hb. }
  exists b. inversion S as [Hp Q|c' Hc' Hc1 Hlt Q|c' v3 Hc' Hc1 He Q| |c' v3 b3 b4 t4 ok v5 b5 Hc' Hc1 He Hn Hs Hv Hpost Hn5 Q];
    rewrite Hver in *; try (rewrite <- (costs_unique _ _ _ _ _ C Hc') in *; clear Hc' c').
  - exfalso. destruct C as [C|[C _]]; rewrite Hp in C; discriminate.
  - exists (exit_branch b). split; [exact Hb|]. split; [apply (nth_put_same k b); exact Hb|]. right. auto.
  - destruct (X _ _ _ He) as [b3 [H3 U3]]. exists b3. split; [exact Hb|]. split; [exact H3|]. left. split; [lia|exact U3].
  - destruct (X _ _ _ He) as [b3' [H3 U3]]. rewrite Hn in H3. injection H3 as <-.
    apply skip_nops_spec in Hs. destruct Hs as [_ [_ [_ [S4 _]]]].
    destruct Hpost as [_ [_ [F _]]]. cbn [set_trig v_branches v_listing] in F.
    assert (N4 : nth_error (upd_nth k (fun _ => b4) (v_branches v3)) k = Some b4)
      by (rewrite nth_upd_nth_same, Hn; reflexivity).
    destruct (Forall2_nth _ _ _ _ _ F N4) as [y [Hy [_ [_ [_ [U5 _]]]]]].
    exists y. split; [exact Hb|]. split; [exact Hy|]. left. split; [lia|congruence].
Qed.

(* ------------------------------------------------------------------------------------------ *)
(* every instruction a program of reads can give *)
Fixpoint results (P : expr -> Prop) (p : prog) : Prop :=
  match p with
  | Emit e => P e
  | MinVersion _ p | ModeMinVersion _ _ p => results P p
  | Read k _ f => forall x, results P (f x)
  | ReadMaybe _ f => forall x, results P (f x)
  | ReadInts _ f => forall x, results P (f x)
  | ReadBytess _ f | ReadLabels _ f => forall x, results P (f x)
  end.

Lemma assemble_results P en v p : forall args e rest,
  results P p -> assemble en v p args = Some (e, rest) -> P e.
Proof.
  induction p as [e0|n p IH|m n p IH|k n f IH|n f IH|n f IH|n f IH|n f IH]; intros args e rest R A;
    cbn [results assemble] in *; eauto.
  - injection A as <- _. exact R.
  - destruct args as [|a r]; [discriminate|]. destruct (operand en v k a r) as [[x r']|]; [|discriminate].
    cbn in A. eauto.
  - destruct args as [|a r]; [eauto|]. destruct (read_uint8 a); [|discriminate]. cbn in A. eauto.
  - destruct (all_ints args); [|discriminate]. cbn in A. eauto.
  - destruct (all_bytes en (length args) args); [|discriminate]. cbn in A. eauto.
Qed.

Definition constantly (n : string) (e : expr) : Prop :=
  forall ver b, match published ver n with Constant c => costs e ver b c | _ => True end.

Lemma constant_ops : Forall (fun o => match ops_get (bs (lo_name o)) with
  | Some p => results (constantly (lo_name o)) p | None => True end) lang_ops.
Proof.
  unfold lang_ops.
  repeat (apply Forall_cons;
    [cbn [lo_name]; match goal with |- context[ops_get ?x] =>
       let r := eval vm_compute in (ops_get x) in change (ops_get x) with r end;
     cbn [results]; intros;
     repeat match goal with |- context[match ?x with Some _ => _ | None => _ end] => destruct x end; cbn [results]; intros;
     intros ver b; cbn; try exact I; unfold costs; cbn; auto|]).
  apply Forall_nil.
Qed.
