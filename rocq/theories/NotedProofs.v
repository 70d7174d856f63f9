(* Proofs about the texts shown for fields. *)
From Verif Require Import Base LexSpec Lexer Codec CodecProofs Fields OpTable Process ProcessSpec Query Semantics Lsp AnswerSpec AnswerProofs FieldDocs NotedSpec.
From Verif Require LspProofs.
From Coq Require Import Lia.

Fixpoint contains (w s : str) : bool :=
  seqb (firstn (length w) s) w || match s with [] => false | _ :: r => contains w r end.
Lemma contains_spec w s : contains w s = true <-> mentions w s.
Proof.
  induction s as [|c s IH]; cbn [contains].
  - rewrite orb_false_r. split.
    + intros H. apply seqb_eq in H. exists [], []. rewrite app_nil_r. rewrite firstn_nil in H. exact H.
    + intros [a [b H]]. destruct a; [|discriminate]. destruct w; [reflexivity|discriminate].
  - split.
    + intros H. apply orb_true_iff in H as [H|H].
      * apply seqb_eq in H. exists [], (skipn (length w) (c :: s)). cbn [app]. rewrite <- (firstn_skipn (length w) (c :: s)) at 1. rewrite H. reflexivity.
      * apply IH in H as [a [b ->]]. exists (c :: a), b. reflexivity.
    + intros [a [b H]]. destruct a as [|x a].
      * apply orb_true_iff. left. cbn [app] in H. rewrite H. apply seqb_eq. rewrite firstn_app, Nat.sub_diag, firstn_O, app_nil_r. apply firstn_all.
      * injection H as _ ->. apply orb_true_iff. right. apply IH. exists a, b. reflexivity.
Qed.

Definition app_only_b (k : imm) (name : str) : bool :=
  match k with
  | ITxnField | ITxnaField | IItxnField => mem name effects
  | IGlobal => mem name of_the_application
  | _ => false
  end.
Lemma app_only_spec k n : app_only_b k n = true <-> app_only k n.
Proof. destruct k; cbn [app_only_b app_only]; try apply mem_In; (split; [discriminate|tauto]). Qed.

Fixpoint from (i : N) (sp : list field_spec) : list (N * field_spec) :=
  match sp with [] => [] | s :: r => (i, s) :: from (i + 1)%N r end.
Lemma from_in sp : forall i j s, nth_error sp j = Some s -> In ((i + N.of_nat j)%N, s) (from i sp).
Proof.
  induction sp as [|x sp IH]; intros i [|j] s H; try discriminate H; cbn [from nth_error] in *.
  - injection H as ->. left. f_equal. lia.
  - right. replace (i + N.of_nat (S j))%N with (i + 1 + N.of_nat j)%N by lia. apply IH. exact H.
Qed.
Lemma noted_all k sp : field_table k = Some sp ->
  forallb (fun x => Bool.eqb (contains (bs "Application mode only") (note k (fst x))) (app_only_b k (f_name (snd x)))) (from 0 sp) = true.
Proof. intros H. destruct k; try discriminate H; injection H as <-; vm_compute; reflexivity. Qed.
Theorem noted k sp f s : field_table k = Some sp -> nth_error sp (N.to_nat f) = Some s ->
  (mentions (bs "Application mode only") (note k f) <-> app_only k (f_name s)).
Proof.
  intros T N. pose proof (from_in _ 0%N _ _ N) as I. rewrite N2Nat.id, N.add_0_l in I.
  pose proof (proj1 (forallb_forall _ _) (noted_all k sp T) _ I) as H. cbn [fst snd] in H. apply Bool.eqb_prop in H.
  rewrite <- contains_spec, H. apply app_only_spec.
Qed.

(* the text of a hover is made of the parts of the item *)
Lemma item_parts r a x n : In x (arg_vals r a) -> oa_type a <> ILabel -> av_value x = Some n ->
  In (Item (av_name x) (Some (bs " = " ++ dec n)) (note (oa_type a) n)) (items r a).
Proof.
  intros I K V. unfold items. destruct (oa_type a) eqn:T; try congruence; apply in_map_iff; exists x; rewrite V; (split; [reflexivity|exact I]).
Qed.
Lemma vals_field r a x sp : field_table (oa_type a) = Some sp -> In x (arg_vals r a) ->
  exists n s, av_value x = Some n /\ nth_error sp (N.to_nat n) = Some s /\ av_name x = f_name s.
Proof.
  intros T I. unfold arg_vals in I.
  assert (J : In x (filter (fun v => (av_version v <=? r_version r)%N) (vals_from (oa_type a) 0 sp))) by (destruct (oa_type a); try discriminate T; rewrite T in I; exact I).
  apply filter_In in J as [J _]. apply vals_from_in in J as [j [s [J1 [J2 ->]]]]. exists (0 + N.of_nat j)%N, s. cbn [av_value av_name].
  split; [reflexivity|]. rewrite N.add_0_l, Nat2N.id. auto.
Qed.
Theorem shown_alike r r' a x sp p t : documented (oa_type a) sp -> In x (arg_vals r a) ->
  on_operand r' p a t -> tok_v t = av_name x -> (0 <= ps_line p)%Z ->
  exists f d, In (Item (av_name x) (Some d) (note (oa_type a) f)) (items r a) /\
    doc_at r' (ps_line p) (ps_char p) = Ret (FieldDoc (oa_type a) f) /\
    hover_text (oa_type a) f = av_name x ++ d ++ [c_cr; c_lf] ++ note (oa_type a) f.
Proof.
  intros D I O T P. destruct D as [F K]. destruct (vals_field r a x sp F I) as [n [s [V [N E]]]].
  exists n, (bs " = " ++ dec n). split; [|split].
  - apply item_parts; [exact I| |exact V]. intros L. rewrite L in F. discriminate.
  - apply (proj2 (hover_field r' p (oa_type a) n P)). exists a, t, sp. split; [exact O|]. split; [reflexivity|]. split; [split; assumption|].
    left. exists s. split; [exact N|]. rewrite T, E. reflexivity.
  - unfold hover_text, field_name. rewrite F, N, E. rewrite <- !app_assoc. reflexivity.
Qed.

(* a hover tells which field it is *)
Lemma dec_no_cr n : ~ In c_cr (dec n).
Proof. intros I. destruct (dec_spec n) as [_ [F _]]. destruct (proj1 (Forall_forall _ _) F _ I) as [d [_ D]]. change (byte c_cr) with 13%N in D. lia. Qed.
Lemma no_blank_names k sp : field_table k = Some sp -> forallb (fun s => negb (existsb (Ascii.eqb " ") (f_name s))) sp = true.
Proof. intros H. destruct k; try discriminate H; injection H as <-; vm_compute; reflexivity. Qed.
Lemma split_blank a b x y : existsb (Ascii.eqb " ") a = false -> existsb (Ascii.eqb " ") b = false ->
  a ++ " "%char :: x = b ++ " "%char :: y -> a = b /\ x = y.
Proof.
  revert b. induction a as [|c a IH]; intros [|d b] A B E; cbn [app existsb] in *.
  - injection E as ->. auto.
  - injection E as <- _. discriminate.
  - injection E as -> _. discriminate.
  - apply orb_false_iff in A as [_ A], B as [_ B]. injection E as -> E. destruct (IH b A B E) as [-> ->]. auto.
Qed.
Theorem hover_tells k sp k' sp' f s f' s' : field_table k = Some sp -> nth_error sp (N.to_nat f) = Some s ->
  field_table k' = Some sp' -> nth_error sp' (N.to_nat f') = Some s' ->
  hover_text k f = hover_text k' f' -> f_name s = f_name s' /\ f = f'.
Proof.
  intros T N T' N' E. unfold hover_text, field_name in E. rewrite T, N, T', N' in E.
  change (bs " = " ++ dec f ++ [c_cr; c_lf] ++ note k f) with (" "%char :: bs "= " ++ dec f ++ [c_cr; c_lf] ++ note k f) in E.
  change (bs " = " ++ dec f' ++ [c_cr; c_lf] ++ note k' f') with (" "%char :: bs "= " ++ dec f' ++ [c_cr; c_lf] ++ note k' f') in E.
  pose proof (proj1 (forallb_forall _ _) (no_blank_names k sp T) _ (nth_error_In _ _ N)) as B. pose proof (proj1 (forallb_forall _ _) (no_blank_names k' sp' T') _ (nth_error_In _ _ N')) as B'.
  apply negb_true_iff in B, B'. apply split_blank in E as [E1 E2]; [|assumption|assumption]. split; [exact E1|].
  apply app_inv_head in E2.
  assert (Q : forall u v x y, Forall (fun c => c <> c_cr) u -> Forall (fun c => c <> c_cr) v -> u ++ c_cr :: x = v ++ c_cr :: y -> u = v).
  { induction u as [|c u IH]; intros [|d v] x y U V E; [reflexivity| | |].
    - cbn [app] in E. injection E as E0 _. inversion V as [|? ? H _]. destruct (H (eq_sym E0)).
    - cbn [app] in E. injection E as E0 _. inversion U as [|? ? H _]. destruct (H E0).
    - injection E as -> E. inversion U; inversion V; subst. f_equal. eapply IH; eassumption. }
  apply LspProofs.dec_injective. eapply Q; [| |exact E2].
  - apply Forall_forall. intros c C ->. apply (dec_no_cr f). exact C.
  - apply Forall_forall. intros c C ->. apply (dec_no_cr f'). exact C.
Qed.
