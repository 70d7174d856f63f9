(* Proofs about the builders (C94). *)
From Verif Require Import Base LexSpec Expr Fields Codec Compiler CompilerSpec CompilerProofs Print Builders BuilderSpec.

Lemma tree_rect2 (P : tree -> Prop) :
  (forall e, P (TOp e)) -> (forall ts, (forall t, In t ts -> P t) -> P (TList ts)) ->
  (forall ts, (forall t, In t ts -> P t) -> P (TNested ts)) -> forall t, P t.
Proof.
  intros H1 H2 H3. fix IH 1. intros [e|ts|ts]; [apply H1|apply H2|apply H3];
    (induction ts as [|a ts IHts]; intros t [];
      [subst t; apply IH|apply IHts; assumption]).
Qed.

Lemma cop_text_ops l : cop_text (map COp l) = print_listing l.
Proof. induction l as [|e l IH]; cbn; [reflexivity|]. rewrite IH. reflexivity. Qed.

Lemma flat_plain t : flat t -> plain_tree (seen t) /\ leaves (seen t) = content t.
Proof.
  induction t as [e|ts IH|ts IH] using tree_rect2; intros F; inversion F as [?|? F']; subst; cbn.
  - split; [constructor|reflexivity].
  - split.
    + constructor. intros e I. apply in_map_iff in I as [t [<- I]]. apply (IH t I). apply F'. exact I.
    + clear F. induction ts as [|t ts IHts]; [reflexivity|]. cbn.
      rewrite (proj2 (IH t (or_introl eq_refl) (F' t (or_introl eq_refl)))).
      rewrite IHts; [reflexivity| |]; intros; [apply IH|apply F']; try right; assumption.
Qed.

Lemma not_flat_other t : has_other (seen t) <-> ~ flat t.
Proof.
  induction t as [e|ts IH|ts IH] using tree_rect2; cbn.
  - split; [intros H; inversion H|intros H; destruct H; constructor].
  - split.
    + intros H F. inversion H as [|? e I O]; subst. inversion F as [|? F']; subst.
      apply in_map_iff in I as [t [<- I]]. apply (proj1 (IH t I) O). apply F'. exact I.
    + intros N. assert (X : Exists (fun t => has_other (seen t)) ts).
      { assert (D : forall l, (forall t, In t l -> In t ts) -> Exists (fun t => has_other (seen t)) l \/ forall t, In t l -> flat t).
        { induction l as [|t l IHl]; intros S; [right; intros ? []|].
          destruct (IHl (fun x i => S x (or_intror i))) as [X|X]; [left; right; exact X|].
          assert (C : has_other (seen t) \/ flat t).
          { clear - t. induction t as [e|us IU|us IU] using tree_rect2; [right; constructor| |left; constructor].
            assert (D : (exists u, In u us /\ has_other (seen u)) \/ forall u, In u us -> flat u).
            { clear - IU. induction us as [|u us IHu]; [right; intros ? []|].
              destruct (IU u (or_introl eq_refl)) as [X|X]; [left; exists u; split; [left; reflexivity|exact X]|].
              destruct (IHu (fun x i => IU x (or_intror i))) as [[v [I O]]|Y]; [left; exists v; split; [right; exact I|exact O]|].
              right. intros v [<-|I]; [exact X|apply Y; exact I]. }
            destruct D as [[u [I O]]|D]; [left|right; constructor; exact D].
            cbn. apply ho_list with (e := seen u); [apply in_map; exact I|exact O]. }
          destruct C as [C|C]; [left; left; exact C|right].
          intros u [<-|I]; [exact C|apply X; exact I]. }
        destruct (D ts (fun _ i => i)) as [X|X]; [exact X|destruct N; constructor; exact X]. }
      apply Exists_exists in X as [t [I O]]. apply ho_list with (e := seen t); [apply in_map; exact I|exact O].
  - split; [intros _ F; inversion F|intros _; constructor].
Qed.

(* instructions and lists come out as the lines of their content *)
Lemma text_flat ts : (forall t, In t ts -> flat t) -> text_of ts = print_listing (flat_map content ts).
Proof.
  intros F. unfold text_of.
  rewrite (compile_plain (map seen ts)).
  - cbn. rewrite <- cop_text_ops. f_equal. f_equal. induction ts as [|t ts IH]; [reflexivity|]. cbn.
    rewrite (proj2 (flat_plain t (F t (or_introl eq_refl)))). rewrite IH; [reflexivity|].
    intros; apply F; right; assumption.
  - intros e I. apply in_map_iff in I as [t [<- I]]. apply flat_plain. apply F. exact I.
Qed.

Lemma print_returns e : exists s, print e = Ret s.
Proof.
  destruct e; cbn; try (eexists; reflexivity); unfold bytes_text; repeat match goal with |- context [if ?b then _ else _] => destruct b end; eexists; reflexivity.
Qed.
Lemma print_listing_returns l : exists s, print_listing l = Ret s.
Proof.
  induction l as [|e l [t IH]]; [eexists; reflexivity|]. cbn. destruct (print_returns e) as [s ->]. cbn. rewrite IH. eexists. reflexivity.
Qed.

(* Compile panics exactly when a block is among what it is given *)
Lemma text_panics ts : text_of ts = Panic <-> exists t, In t ts /\ ~ flat t.
Proof.
  split.
  - intros P.
    assert (D : (exists t, In t ts /\ has_other (seen t)) \/ ~ (exists t, In t ts /\ has_other (seen t))).
    { destruct (compile (map seen ts)) as [l| |] eqn:E.
      - right. intros [t [I O]]. assert (X : compile (map seen ts) = Panic) by (apply compile_panic; exists (seen t); split; [apply in_map; exact I|exact O]).
        rewrite X in E. discriminate.
      - left. apply compile_panic in E as [e [I O]]. apply in_map_iff in I as [t [<- I]]. exists t. split; assumption.
      - unfold text_of in P. rewrite E in P. discriminate. }
    destruct D as [[t [I O]]|D]; [exists t; split; [exact I|apply not_flat_other; exact O]|].
    exfalso. unfold text_of in P. destruct (compile (map seen ts)) as [l| |] eqn:E; [|apply D|discriminate].
    + cbn in P. clear D. assert (K : exists es, l = map COp es).
      { clear P. revert E. unfold compile.
        assert (G : forall es to out, (exists a, to = map COp a) -> compile_all to (map seen es) = Ret out -> exists a, out = map COp a).
        { induction es as [|t es IH]; cbn; intros to out A E; [injection E as <-; exact A|].
          destruct (compile1 to (seen t)) as [m| |] eqn:E1; try discriminate. cbn in E.
          apply (IH m out); [|exact E]. clear - A E1. revert to m A E1.
          induction t as [e|us IU|us IU] using tree_rect2; intros to m [a A] E1; cbn in E1.
          - injection E1 as <-. subst to. exists (a ++ [e]). rewrite map_app. reflexivity.
          - change (compile1 to (PList (map seen us)) = Ret m) in E1. rewrite compile1_list in E1.
            assert (A' : exists a, to = map COp a) by (exists a; exact A). clear A. revert to m A' E1.
            induction us as [|u us IHu]; cbn; intros to m A' E1; [injection E1 as <-; exact A'|].
            destruct (compile1 to (seen u)) as [k| |] eqn:E2; try discriminate. cbn in E1.
            apply (IHu (fun x i => IU x (or_intror i)) k m); [|exact E1].
            apply (IU u (or_introl eq_refl) to k A' E2).
          - discriminate. }
        intros E. apply (G [TList ts] [] l); [exists []; reflexivity|].
        unfold program_compile in E. rewrite program_compile_all in E. exact E. }
      destruct K as [es ->]. rewrite cop_text_ops in P. destruct (print_listing_returns es) as [s K]. rewrite K in P. discriminate.
    + apply compile_panic in E as [e [I O]]. apply in_map_iff in I as [t [<- I]]. exists t. split; assumption.
  - intros [t [I N]]. unfold text_of. assert (E : compile (map seen ts) = Panic); [|rewrite E; reflexivity].
    apply compile_panic. exists (seen t). split; [apply in_map; exact I|apply not_flat_other; exact N].
Qed.

(* one line per builder of one instruction *)
Lemma called_for_text t s : called_for t s -> (forall n, t <> Cover n) -> text_of [t] = Ret (s ++ [c_lf]).
Proof.
  intros C N. rewrite text_flat; [|intros u [<-|[]]; inversion C; constructor].
  inversion C; subst; cbn; rewrite ?app_nil_r; try reflexivity.
  exfalso. apply (N n). reflexivity.
Qed.

Lemma combines_content t es : combines t es -> content t = es.
Proof.
  intros C; inversion C; subst; cbn; rewrite ?app_nil_r, ?flat_map_app, <- ?app_assoc; try reflexivity.
  - cbn [flat_map]. rewrite app_nil_r. cbn [content Match]. f_equal.
    clear C. induction ls as [|l ls IH]; cbn; [reflexivity|f_equal; exact IH].
Qed.
Lemma combines_nested t es : combines t es -> ~ flat t.
Proof. intros C F; inversion C; subst; inversion F. Qed.
