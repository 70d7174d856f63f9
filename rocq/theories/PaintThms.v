(* semantic tokens: each token of the document in its role, complete, apart, and once unless it is in a list of integers *)
From Verif Require Import Base LexSpec Lexer LexStatements LexerProofs LexerThms Expr Linter Fields Strconv Literals LiteralsProofs Codec OpTable Process ProcessSpec ProcessProofs ProcessRun ProcessLine ProcessDoc ProcessThms Semantics SemanticsProofs Query Lsp QueryProofs RenameSpec RenameProofs HintSpec PaintSpec PaintProofs PaintDoc.
From Coq Require Import ZifyBool ZifyNat ZifyN Permutation Sorted.

(* ------------------------------------------------------------------------------------------ *)
(* grouping by role *)
Definition of_role (k : role) (ms : list (role * token)) := filter (fun x => role_eqb (fst x) k) ms.
Definition group (ks : list role) (ms : list (role * token)) := flat_map (fun k => of_role k ms) ks.
Lemma role_eqb_eq a b : role_eqb a b = true <-> a = b.
Proof. destruct a, b; cbn; split; congruence. Qed.
Lemma group_skip k t ks ms : ~ In k ks -> group ks ((k, t) :: ms) = group ks ms.
Proof.
  induction ks as [|x ks IH]; intros H; [reflexivity|]. unfold group in *. cbn [flat_map]. rewrite IH by (intros I; apply H; right; exact I).
  unfold of_role at 1. cbn [filter fst]. destruct (role_eqb k x) eqn:E; [|reflexivity]. apply role_eqb_eq in E. destruct H. left. auto.
Qed.
Definition roles_order : list role := [Macro; Opcode; Number; Literal; Encoding; Remark; LabelDef; LabelRef].
Lemma roles_split k : exists a b, roles_order = a ++ k :: b /\ ~ In k a /\ ~ In k b.
Proof.
  destruct k.
  - exists [], [Opcode; Number; Literal; Encoding; Remark; LabelDef; LabelRef]. repeat split; cbn; intuition congruence.
  - exists [Macro], [Number; Literal; Encoding; Remark; LabelDef; LabelRef]. repeat split; cbn; intuition congruence.
  - exists [Macro; Opcode], [Literal; Encoding; Remark; LabelDef; LabelRef]. repeat split; cbn; intuition congruence.
  - exists [Macro; Opcode; Number], [Encoding; Remark; LabelDef; LabelRef]. repeat split; cbn; intuition congruence.
  - exists [Macro; Opcode; Number; Literal], [Remark; LabelDef; LabelRef]. repeat split; cbn; intuition congruence.
  - exists [Macro; Opcode; Number; Literal; Encoding], [LabelDef; LabelRef]. repeat split; cbn; intuition congruence.
  - exists [Macro; Opcode; Number; Literal; Encoding; Remark], [LabelRef]. repeat split; cbn; intuition congruence.
  - exists [Macro; Opcode; Number; Literal; Encoding; Remark; LabelDef], []. repeat split; cbn; intuition congruence.
Qed.
Lemma group_perm ms : Permutation ms (group roles_order ms).
Proof.
  induction ms as [|[k t] ms IH]; [reflexivity|]. destruct (roles_split k) as [a [b [Er [Na Nb]]]]. rewrite Er in *.
  unfold group in *. rewrite flat_map_app in *. cbn [flat_map] in *.
  fold (group a ((k, t) :: ms)). fold (group b ((k, t) :: ms)). fold (group a ms) in IH. fold (group b ms) in IH.
  rewrite !group_skip by assumption. unfold of_role at 1. cbn [filter fst]. replace (role_eqb k k) with true by (symmetry; apply role_eqb_eq; reflexivity).
  fold (of_role k ms). cbn [app]. apply Permutation_cons_app. exact IH.
Qed.
Lemma of_role_pick k ms : of_role k ms = map (pair k) (pick k ms).
Proof.
  unfold pick, of_role. induction ms as [|[a t] ms IH]; [reflexivity|]. cbn [filter fst]. destruct (role_eqb a k) eqn:E; [|exact IH].
  apply role_eqb_eq in E. subst a. cbn [map snd]. rewrite <- IH. reflexivity.
Qed.

(* ------------------------------------------------------------------------------------------ *)
(* the semantic tokens *)
Definition role_type (k : role) : Z :=
  match k with Macro => 4 | Opcode | Encoding => 0 | Number => 6 | Literal | LabelRef => 1 | Remark => 2 | LabelDef => 3 end%Z.
Definition shade (x : role * token) : stoken := sem_tok (role_type (fst x)) (snd x).

Lemma shade_shows k t : tok_b t <= tok_e t -> shows k t (shade (k, t)).
Proof.
  intros L. unfold shows, shade. cbn [fst snd sem_tok st_line st_index st_length st_modifiers st_type]. repeat split; [lia|].
  destruct k; [exists 4|exists 0|exists 6|exists 1|exists 0|exists 2|exists 3|exists 1]; split; reflexivity.
Qed.
Lemma shows_shade k t s : shows k t s -> s = shade (k, t).
Proof.
  intros [A [B [C [D [n [E F]]]]]]. destruct s as [l i n' ty m]. cbn [st_line st_index st_length st_modifiers st_type] in *. unfold shade, sem_tok. cbn [fst snd].
  assert (role_type k = Z.of_nat n).
  { clear - F. do 9 (destruct n as [|n]; [destruct k; try discriminate F; reflexivity|]). destruct n; discriminate F. }
  subst. f_equal; [lia|congruence].
Qed.

Lemma sem_syms ls : forall ps cs, map (sem_sym 3) (map (with_sig ps) (all_symbols cs ls)) = map (sem_tok 3) (map fst (flat_map defines ls)).
Proof.
  induction ls as [|l ls IH]; intros ps cs; [reflexivity|]. cbn [all_symbols flat_map]. rewrite !map_app, IH. f_equal.
  rewrite !map_map. apply map_ext. intros [t n]. reflexivity.
Qed.

Section doc.
Variables (en : env) (src : str) (r : presult).
Hypothesis HP : process en src = Ret r.

Lemma ops_values : filter (fun t => match tok_t t with TokValue => true | _ => false end) (r_ops r) = r_ops r.
Proof.
  destruct (process_result en src r HP) as [ts [errs [raw [lds [T [L [A R]]]]]]]. rewrite (ro_ops _ _ _ _ _ _ _ R).
  assert (G : forall ls, (forall l, In l ls -> In l (r_lines r)) -> filter (fun t => match tok_t t with TokValue => true | _ => false end) (flat_map op_token ls) = flat_map op_token ls).
  { induction ls as [|l ls IH]; intros H; [reflexivity|]. cbn [flat_map]. rewrite filter_app, IH by (intros m M; apply H; right; exact M). f_equal.
    unfold op_token. destruct l as [|t l]; [reflexivity|]. destruct (kind_of (t :: l)) eqn:K; try reflexivity. cbn [filter].
    pose proof (no_eol en src r HP t (t :: l) (or_introl eq_refl) (H _ (or_introl eq_refl))) as Ne.
    destruct (tok_t t) eqn:Tt; [congruence|reflexivity|]. unfold kind_of in K. rewrite Tt in K. discriminate K. }
  apply G. auto.
Qed.

Theorem semantic_perm : Permutation (semantic_tokens r) (map shade (doc_roles en 2 r)).
Proof.
  destruct (process_result en src r HP) as [ts [errs [raw [lds [T [L [A R]]]]]]].
  destruct (process_painted en src r HP). symmetry. eapply perm_trans; [apply Permutation_map, group_perm|].
  assert (Q : map shade (group roles_order (doc_roles en 2 r)) = semantic_tokens r); [|rewrite Q; reflexivity].
  unfold group, roles_order, doc_roles. cbn [flat_map]. rewrite !of_role_pick, !pick_app, app_nil_r, !map_app.
  destruct (all_ops en 2 (r_lines r) 1%N) as [O [D M]]. rewrite O, D, M. rewrite <- pa_nums, <- pa_strs, <- pa_keys, <- pa_mcrs, <- pa_refs.
  assert (P : forall k, k <> Remark -> pick k (map (pair Remark) (filter is_comment (r_tokens r))) = []).
  { intros k K. apply pick_none. intros t I. apply in_map_iff in I. destruct I as [u [E _]]. congruence. }
  rewrite (P Macro), (P Opcode), (P Number), (P Literal), (P Encoding), (P LabelDef), (P LabelRef) by discriminate. cbn [map]. rewrite !app_nil_r.
  assert (C : pick Remark (map (pair Remark) (filter is_comment (r_tokens r))) = filter is_comment (r_tokens r)).
  { clear. unfold pick. induction (filter is_comment (r_tokens r)) as [|t l IH]; [reflexivity|]. cbn. f_equal. exact IH. }
  rewrite C. unfold semantic_tokens. rewrite ops_values, (ro_ops _ _ _ _ _ _ _ R).
  destruct (ro_syms _ _ _ _ _ _ _ R) as [ps [-> _]]. rewrite sem_syms. rewrite !map_map. reflexivity.
Qed.

(* ------------------------------------------------------------------------------------------ *)
(* once or twice: the same tokens *)
Lemma int_roles_in n m l x : In x (int_roles (S n) l) -> In x (int_roles (S m) l).
Proof.
  induction l as [|a l IH]; [auto|]. cbn [int_roles]. destruct (parse_uint (tok_v a) 0 64); [|auto]. rewrite !in_app_iff.
  intros [H|H]; [|right; exact (IH H)]. left. apply repeat_spec in H. subst x. left. reflexivity.
Qed.
Lemma prog_roles_in n m v p : forall a x, In x (prog_roles en (S n) v p a) -> In x (prog_roles en (S m) v p a).
Proof.
  induction p as [e|w p IH|mo w p IH|k n' f IH|n' f IH|n' f IH|n' f IH|n' f IH]; intros a x H; cbn [prog_roles] in *; try exact H; try (apply IH; exact H).
  - destruct a as [|a t]; [exact H|]. apply in_app_iff in H. apply in_app_iff. destruct H as [H|H]; [left; exact H|]. right.
    destruct (operand en v k (tok_v a) (texts t)) as [[y r']|]; [apply IH; exact H|exact H].
  - destruct a as [|a t]; [exact H|]. destruct (read_uint8 (tok_v a)); [|exact H]. destruct H as [H|H]; [left; exact H|right; apply IH; exact H].
  - eapply int_roles_in; exact H.
Qed.
Lemma all_roles_in n m ls : forall v x, In x (all_roles en (S n) v ls) -> In x (all_roles en (S m) v ls).
Proof.
  induction ls as [|l ls IH]; intros v x H; [exact H|]. cbn [all_roles] in *. apply in_app_iff in H. apply in_app_iff.
  destruct H as [H|H]; [left|right; apply IH; exact H]. unfold line_roles in *. destruct l as [|t l]; [exact H|].
  destruct (kind_of (t :: l)); try exact H. destruct H as [H|H]; [left; exact H|right]. eapply prog_roles_in; exact H.
Qed.
Lemma doc_roles_in n m x : In x (doc_roles en (S n) r) -> In x (doc_roles en (S m) r).
Proof. unfold doc_roles. rewrite !in_app_iff. intros [H|H]; [left; eapply all_roles_in; exact H|right; exact H]. Qed.

(* ------------------------------------------------------------------------------------------ *)
(* a line is coloured from its start, and to its end if it is read without error *)
Lemma texts_length l : length (texts l) = length l.
Proof. apply map_length. Qed.
Lemma lastn_app {A} (a b : list A) : lastn (length b) (a ++ b) = b.
Proof. unfold lastn. rewrite app_length. replace (length a + length b - length b) with (length a) by lia. rewrite skipn_app, skipn_all, Nat.sub_diag. reflexivity. Qed.
Lemma byte_operand_rest a t x r' : byte_operand en a (texts t) = Some (x, r') ->
  if encoding a then exists l w, t = l :: w /\ r' = texts w else r' = texts t.
Proof.
  unfold byte_operand. destruct (encoding a) eqn:Ea.
  - assert (K : a = bs "base32" \/ a = bs "b32" \/ a = bs "base64" \/ a = bs "b64").
    { unfold encoding in Ea. cbn [mem existsb] in Ea. repeat (apply or_true in Ea; destruct Ea as [Ea|Ea]); try discriminate Ea; apply seqb_eq in Ea; rewrite Ea; tauto. }
    assert (D : forall dec : str -> option str, match texts t with l :: r' => obind (dec l) (fun v => Some (v, r')) | [] => None end = Some (x, r') -> exists l w, t = l :: w /\ r' = texts w).
    { intros dec. destruct t as [|l w]; [discriminate|]. cbn [texts map]. destruct (dec (tok_v l)); [|discriminate]. intros E. injection E as _ <-. exists l, w. auto. }
    destruct K as [-> | [-> | [-> | ->]]]; [exact (D (b32_decode en))|exact (D (b32_decode en))|exact (D b64_decode)|exact (D b64_decode)].
  - assert (K : seqb a (bs "base32") = false /\ seqb a (bs "b32") = false /\ seqb a (bs "base64") = false /\ seqb a (bs "b64") = false).
    { unfold encoding in Ea. cbn [mem existsb] in Ea. repeat (apply Bool.orb_false_elim in Ea; destruct Ea as [? Ea]). auto. }
    destruct K as [-> [-> [-> ->]]]. cbn [orb].
    repeat match goal with |- context[if ?b then _ else _] => destruct b end;
      try (destruct (between_parens a) as [s|]; cbn [obind]; [|discriminate]);
      try (destruct (b32_decode en s); cbn [obind]; [|discriminate]; intros E; injection E as _ <-; reflexivity);
      try (destruct (b64_decode s); cbn [obind]; [|discriminate]; intros E; injection E as _ <-; reflexivity);
      try (destruct (hex_decode (skipn 2 a)); cbn [obind]; [|discriminate]; intros E; injection E as _ <-; reflexivity);
      destruct (parse_string_literal a) as [[w|]| |]; try discriminate; intros E; injection E as _ <-; reflexivity.
Qed.
Lemma operand_rest v k a t x r' : operand en v k (tok_v a) (texts t) = Some (x, r') ->
  exists w, a :: t = map snd (operand_roles en v k a t) ++ w /\ r' = texts w /\ lastn (length r') t = w.
Proof.
  intros E. rewrite (operand_roles_ok _ _ _ _ _ _ _ E).
  assert (G : k <> IBytes -> r' = texts t).
  { intros K. unfold operand in E. destruct k; try congruence; destruct (operand_value en v _ (tok_v a)); try discriminate E; injection E as _ <-; reflexivity. }
  assert (L : r' = texts t -> lastn (length r') t = t).
  { intros ->. rewrite texts_length. exact (lastn_app [] t). }
  assert (D : k = IBytes \/ k <> IBytes) by (destruct k; (left; reflexivity) || (right; discriminate)).
  destruct D as [->|K].
  - cbn [operand] in E. apply byte_operand_rest in E. cbn [ok_roles]. destruct (encoding (tok_v a)).
    + destruct E as [l [w [-> ->]]]. exists w. cbn [firstn map snd app]. split; [reflexivity|]. split; [reflexivity|].
      rewrite texts_length. exact (lastn_app [l] w).
    + exists t. split; [reflexivity|]. split; [exact E|exact (L E)].
  - exists t. split; [destruct k; try reflexivity; congruence|]. split; [exact (G K)|exact (L (G K))].
Qed.
Lemma operand_none v k a t : operand en v k (tok_v a) (texts t) = None -> exists w, a :: t = map snd (operand_roles en v k a t) ++ w.
Proof.
  intros E. rewrite (operand_roles_ko _ _ _ _ _ E). destruct k; try (eexists; reflexivity). cbn [ko_roles].
  destruct (encoding (tok_v a)); [exists t|exists (a :: t)]; reflexivity.
Qed.
Lemma int_prefix l : exists w, l = map snd (int_roles 1 l) ++ w /\ (forall xs, all_ints (texts l) = Some xs -> w = []).
Proof.
  induction l as [|a l [w [E H]]]; [exists []; auto|]. cbn [int_roles texts map all_ints]. destruct (parse_uint (tok_v a) 0 64); cbn [obind].
  - exists w. cbn [repeat app map snd]. split; [rewrite <- E; reflexivity|]. intros xs. fold (texts l). destruct (all_ints (texts l)) as [ys|]; [|discriminate]. intros _. apply (H ys eq_refl).
  - exists (a :: l). split; [reflexivity|discriminate].
Qed.
Lemma byte_prefix f : forall l, length l <= f -> exists w, l = map snd (byte_roles en f l) ++ w /\ (forall xs m, all_bytes en m (texts l) = Some xs -> w = []).
Proof.
  induction f as [|f IH]; intros l L.
  - destruct l; [|cbn in L; lia]. exists []. auto.
  - destruct l as [|a l]; [exists []; auto|]. cbn [length] in L. cbn [byte_roles].
    destruct (byte_operand en (tok_v a) (texts l)) as [[x r']|] eqn:Eb.
    + destruct (operand_rest 0%N IBytes a l x r' Eb) as [w [E1 [E2 E3]]]. rewrite E3.
      assert (Lw : length w <= f).
      { apply (f_equal (@length token)) in E1. rewrite app_length in E1. cbn [length] in E1.
        pose proof (byte_operand_shrinks _ _ _ _ _ Eb) as S'. rewrite E2, !texts_length in S'. lia. }
      destruct (IH w Lw) as [w' [F1 F2]]. exists w'. rewrite map_app, <- app_assoc, <- F1. split; [exact E1|].
      intros xs m. cbn [texts map]. destruct m as [|m]; [discriminate|]. cbn [all_bytes]. fold (texts l). rewrite Eb. cbn [obind snd]. rewrite E2.
      destruct (all_bytes en m (texts w)) as [ys|] eqn:Ey; [|discriminate]. intros _. exact (F2 ys m Ey).
    + destruct (operand_none 0%N IBytes a l Eb) as [w Ew]. exists w. rewrite app_nil_r. split; [exact Ew|].
      intros xs m. cbn [texts map]. destruct m as [|m]; [discriminate|]. cbn [all_bytes]. fold (texts l). rewrite Eb. discriminate.
Qed.
Lemma assemble_nil v p : forall e s, assemble en v p [] = Some (e, s) -> s = [].
Proof.
  induction p as [e|w p IH|m w p IH|k n' f IH|n' f IH|n' f IH|n' f IH|n' f IH]; intros e' s H; cbn [assemble] in H; try (eapply IH; exact H).
  - injection H as _ <-. reflexivity.
  - discriminate H.
Qed.
Lemma prog_prefix v p : forall a, exists w, a = map snd (prog_roles en 1 v p a) ++ w /\
  (forall e s, assemble en v p (texts a) = Some (e, s) -> s = texts w).
Proof.
  induction p as [e|u p IH|m u p IH|k n' f IH|n' f IH|n' f IH|n' f IH|n' f IH]; intros a; cbn [prog_roles assemble]; try apply IH.
  - exists a. split; [reflexivity|]. intros e' s E. injection E as _ <-. reflexivity.
  - destruct a as [|a t]; [exists []; split; [reflexivity|discriminate]|]. cbn [texts map]. fold (texts t).
    destruct (operand en v k (tok_v a) (texts t)) as [[x r']|] eqn:Eo.
    + destruct (operand_rest v k a t x r' Eo) as [w [E1 [E2 E3]]]. rewrite E3. destruct (IH x w) as [w' [F1 F2]]. exists w'.
      rewrite map_app, <- app_assoc, <- F1. split; [exact E1|]. intros e s. cbn [obind fst snd]. rewrite E2. apply F2.
    + destruct (operand_none v k a t Eo) as [w Ew]. exists w. rewrite app_nil_r. split; [exact Ew|]. discriminate.
  - destruct a as [|a t]; [exists []; split; [reflexivity|intros e s H; exact (assemble_nil _ _ _ _ H)]|]. cbn [texts map]. fold (texts t).
    destruct (read_uint8 (tok_v a)) as [x|]; cbn [obind].
    + destruct (IH (Some x) t) as [w [F1 F2]]. exists w. cbn [map snd app]. rewrite <- F1. split; [reflexivity|exact F2].
    + exists (a :: t). split; [reflexivity|discriminate].
  - destruct (int_prefix a) as [w [E H]]. exists w. split; [exact E|]. intros e s. destruct (all_ints (texts a)) as [xs|]; [|discriminate]. cbn [obind].
    rewrite (H xs eq_refl). intros Q. exact (assemble_nil _ _ _ _ Q).
  - destruct (byte_prefix (length a) a (le_n _)) as [w [E H]]. exists w. split; [exact E|]. intros e s. destruct (all_bytes en (length (texts a)) (texts a)) as [xs|] eqn:Ey; [|discriminate]. cbn [obind].
    rewrite (H xs _ Ey). intros Q. exact (assemble_nil _ _ _ _ Q).
  - exists []. rewrite app_nil_r, map_map. split; [cbn; symmetry; apply map_id|]. intros e s Q. exact (assemble_nil _ _ _ _ Q).
Qed.
Theorem line_prefix v l : exists w, l = map snd (line_roles en 1 v l) ++ w.
Proof.
  unfold line_roles. destruct l as [|t l]; [exists []; reflexivity|]. destruct (kind_of (t :: l)) as [|x|[|c x]|x|p x|]; try (eexists; reflexivity).
  - unfold pragma_roles. destruct l as [|a l]; [eexists; reflexivity|]. destruct (seqb _ _); [|eexists; reflexivity].
    destruct l as [|b l]; [eexists; reflexivity|]. destruct (parse_uint _ _ _); eexists; reflexivity.
  - destruct (prog_prefix v p l) as [w [E _]]. exists w. cbn [map snd app]. rewrite <- E. reflexivity.
Qed.
Theorem line_covered v t l p e : kind_of (t :: l) = LOp p (texts l) -> assemble en v p (texts l) = Some (e, []) ->
  map snd (line_roles en 1 v (t :: l)) = t :: l.
Proof.
  intros K A. unfold line_roles. rewrite K. cbn [map snd]. f_equal. destruct (prog_prefix v p l) as [w [E H]]. specialize (H _ _ A).
  destruct w; [|discriminate H]. rewrite app_nil_r in E. symmetry. exact E.
Qed.

(* ------------------------------------------------------------------------------------------ *)
(* the tokens of the document are apart *)
Lemma placed_before segs : forall line start off ts,
  Forall (fun s => snd s <> []) segs -> Placed line start off segs ts -> start <= off -> StronglySorted before ts.
Proof.
  induction segs as [|[gap raw] segs IH]; intros line start off ts N H L.
  - destruct ts; [constructor|destruct H].
  - destruct ts as [|u ts]; [constructor|]. destruct H as (H1 & H2 & H3 & H4). inversion N as [|? ? N1 N2]; subst. cbn [snd] in N1.
    assert (Hpos : 0 < length raw) by (destruct raw; [congruence|cbn; lia]).
    constructor.
    + destruct (is_eol_tok u); [apply (IH _ _ _ _ N2 H4); lia|apply (IH _ _ _ _ N2 H4); lia].
    + apply Forall_forall. intros t I. apply In_nth_error in I. destruct I as [k I]. unfold before. destruct (is_eol_tok u).
      * destruct (placed_lower _ _ _ _ _ H4 (le_n _) _ _ I); lia.
      * assert (Hso' : start <= off + length gap + length raw) by lia. destruct (placed_lower _ _ _ _ _ H4 Hso' _ _ I); lia.
Qed.
Lemma doc_before : StronglySorted before (r_tokens r).
Proof.
  destruct (process_result en src r HP) as [ts [errs [raw [lds [T [L [A R]]]]]]]. rewrite (ro_tokens _ _ _ _ _ _ _ R).
  destruct (tokenize_tiles _ _ _ T) as (segs & tail & [HT1 HT2] & P & _). apply (placed_before segs 0 0 0); [|exact P|lia].
  clear -HT2. induction HT2; constructor; tauto.
Qed.

Lemma role_token n x : In x (doc_roles en (S n) r) -> In (snd x) (r_tokens r) /\ tok_b (snd x) < tok_e (snd x) /\
  (In x (all_roles en 1 1 (r_lines r)) -> is_comment (snd x) = false).
Proof.
  intros H. apply (doc_roles_in n 0) in H. destruct (lines_tokens _ _ _ HP) as [I F]. rewrite Forall_forall in F.
  assert (A : forall ls v, In x (all_roles en 1 v ls) -> (forall l, In l ls -> In l (r_lines r)) -> In (snd x) (concat ls) /\ is_comment (snd x) = false).
  { destruct (lines_of_result _ _ _ HP) as [_ _ _ D]. rewrite Forall_forall in D.
    induction ls as [|l ls IH]; intros v Hx Hl; [destruct Hx|]. cbn [all_roles concat] in *. apply in_app_iff in Hx. rewrite in_app_iff.
    destruct Hx as [Hx|Hx].
    - destruct (line_prefix v l) as [w Ew]. assert (In (snd x) l) as Il by (rewrite Ew; apply in_app_iff; left; apply in_map; exact Hx).
      split; [left; exact Il|]. specialize (D l (Hl l (or_introl eq_refl))). destruct l as [|t l]; [destruct Il|].
      assert (Ft : is_comment t = false).
      { unfold line_roles, kind_of in Hx. unfold is_comment. destruct (tok_t t); try reflexivity. destruct Hx. }
      destruct Il as [Q|Il]; [rewrite <- Q; exact Ft|]. rewrite Forall_forall in D. specialize (D _ Il). unfold is_comment. cbn in D. destruct (tok_t (snd x)); congruence.
    - destruct (IH _ Hx (fun m M => Hl m (or_intror M))) as [Q1 Q2]. auto. }
  assert (G : In (snd x) (r_tokens r)).
  { unfold doc_roles in H. apply in_app_iff in H. destruct H as [H|H].
    - apply I. exact (proj1 (A _ _ H (fun l L => L))).
    - apply in_map_iff in H. destruct H as [t [<- H]]. apply filter_In in H. exact (proj1 H). }
  split; [exact G|]. split; [exact (proj1 (F _ G))|]. intros Q. exact (proj2 (A _ _ Q (fun l L => L))).
Qed.

Lemma sorted_pairs ts a b : StronglySorted before ts -> In a ts -> In b ts -> a = b \/ before a b \/ before b a.
Proof.
  intros S'. induction S' as [|x l S' IH F]; [intros []|]. rewrite Forall_forall in F.
  intros [<-|A] [<-|B]; [left; reflexivity|right; left; exact (F _ B)|right; right; exact (F _ A)|exact (IH A B)].
Qed.

(* membership *)
Theorem semantic_in s : In s (semantic_tokens r) <-> exists k t, In (k, t) (doc_roles en 1 r) /\ shows k t s.
Proof.
  split.
  - intros H. apply (Permutation_in _ semantic_perm) in H. apply in_map_iff in H. destruct H as [[k t] [<- H]].
    apply (doc_roles_in 1 0) in H. exists k, t. split; [exact H|]. apply shade_shows. pose proof (role_token 0 _ H) as [_ [Q _]]. cbn in Q. lia.
  - intros [k [t [H S']]]. apply shows_shade in S'. subst s. apply (Permutation_in _ (Permutation_sym semantic_perm)). apply in_map.
    apply (doc_roles_in 0 1). exact H.
Qed.

Definition separate_tokens (a b : stoken) : Prop :=
  st_line a <> st_line b \/ (st_index a + st_length a <= st_index b)%Z \/ (st_index b + st_length b <= st_index a)%Z.

Lemma doc_roles_starts : NoDup (map start_of (map snd (doc_roles en 1 r))).
Proof.
  unfold doc_roles. rewrite !map_app. apply nodup_app.
  - apply (starts_nodup (bs "a") eq_refl). pose proof (rn_order en src r HP) as S'. revert S'. generalize 1%N. induction (r_lines r) as [|l ls IH]; intros v S'; [constructor|].
    cbn [all_roles concat] in *. rewrite map_app.
    assert (G : forall a b, StronglySorted before (a ++ b) -> StronglySorted before a /\ StronglySorted before b /\ (forall x y, In x a -> In y b -> before x y)).
    { induction a as [|x a IHa]; intros b Q; [split; [constructor|split; [exact Q|intros ? ? []]]|]. inversion Q as [|? ? Q1 Q2]; subst.
      destruct (IHa b Q1) as [R1 [R2 R3]]. apply Forall_app in Q2. destruct Q2 as [Q2 Q3]. split; [constructor; assumption|]. split; [exact R2|].
      intros x' y [<-|X] Y; [rewrite Forall_forall in Q3; exact (Q3 y Y)|exact (R3 x' y X Y)]. }
    destruct (G _ _ S') as [S1 [S2 S3]]. destruct (line_prefix v l) as [w Ew].
    assert (S1' := S1). rewrite Ew in S1'. destruct (G _ _ S1') as [S4 _].
    assert (Sub : forall ls v, incl (map snd (all_roles en 1 v ls)) (concat ls)).
    { clear. induction ls as [|l ls IH]; intros v x H; [destruct H|]. cbn [all_roles concat] in *. rewrite map_app in H. apply in_app_iff in H. apply in_app_iff.
      destruct H as [H|H]; [left|right; exact (IH _ _ H)]. destruct (line_prefix v l) as [w Ew]. rewrite Ew. apply in_app_iff. left. exact H. }
    apply SSorted_app; [exact S4|apply IH; exact S2|]. intros x y X Y. apply S3; [|exact (Sub _ _ _ Y)]. rewrite Ew. apply in_app_iff. left. exact X.
  - rewrite (map_map (pair Remark) snd). cbn [snd]. rewrite map_id. apply (starts_nodup (bs "a") eq_refl). apply SSorted_filter. exact doc_before.
  - intros x X Y. apply in_map_iff in X, Y. destruct X as [t [<- X]], Y as [t' [E Y]]. apply in_map_iff in X, Y. destruct X as [y [<- X]], Y as [y' [<- Y]].
    assert (X1 : In y (doc_roles en 1 r)) by (unfold doc_roles; apply in_app_iff; left; exact X).
    assert (Y1 : In y' (doc_roles en 1 r)) by (unfold doc_roles; apply in_app_iff; right; exact Y).
    destruct (role_token 0 _ X1) as [Tx [_ Cx]], (role_token 0 _ Y1) as [Ty _]. specialize (Cx X).
    unfold start_of in E. injection E as E1 E2. apply Nat2Z.inj in E1, E2.
    pose proof (before_inj _ _ _ doc_before Ty Tx E1 E2) as Q. apply in_map_iff in Y. destruct Y as [u [Y Yu]]. subst y'. cbn [snd] in Q. subst u.
    apply filter_In in Yu. destruct Yu as [_ Yu]. congruence.
Qed.

Theorem semantic_apart a b : In a (semantic_tokens r) -> In b (semantic_tokens r) -> a = b \/ separate_tokens a b.
Proof.
  intros Ha Hb. apply semantic_in in Ha, Hb. destruct Ha as [k [t [Ht Sa]]], Hb as [k' [t' [Ht' Sb]]].
  destruct (role_token 0 _ Ht) as [It _], (role_token 0 _ Ht') as [It' _]. cbn [snd] in *.
  destruct (sorted_pairs _ _ _ doc_before It It') as [<-|Q].
  - left. assert (k = k').
    { pose proof doc_roles_starts as N. rewrite map_map in N. clear -Ht Ht' N. induction (doc_roles en 1 r) as [|z l IH]; [destruct Ht|].
      cbn [map] in N. inversion N as [|? ? N1 N2]; subst. destruct Ht as [->|Ht], Ht' as [E|Ht'].
      - congruence.
      - destruct N1. apply in_map_iff. exists (k', t). auto.
      - subst z. destruct N1. apply in_map_iff. exists (k, t). auto.
      - exact (IH Ht Ht' N2). }
    subst k'. apply shows_shade in Sa, Sb. congruence.
  - right. destruct Sa as [A1 [A2 [A3 _]]], Sb as [B1 [B2 [B3 _]]]. unfold separate_tokens, before in *. lia.
Qed.

(* once *)
Definition has_int_list (l : list token) : Prop := exists t w p x, l = t :: w /\ kind_of l = LOp p x /\ one_of ["intcblock"; "pushints"] (tok_v t) = true.
Fixpoint no_ints (p : prog) : Prop :=
  match p with
  | Emit _ => True
  | MinVersion _ p | ModeMinVersion _ _ p => no_ints p
  | Read _ _ f => forall x, no_ints (f x)
  | ReadMaybe _ f => forall x, no_ints (f x)
  | ReadInts _ _ => False
  | ReadBytess _ _ | ReadLabels _ _ => True
  end.
Lemma no_ints_roles n m v p : no_ints p -> forall a, prog_roles en n v p a = prog_roles en m v p a.
Proof.
  induction p as [e|u p IH|mo u p IH|k n' f IH|n' f IH|n' f IH|n' f IH|n' f IH]; cbn [no_ints prog_roles]; intros H a; try reflexivity; try (apply IH; exact H).
  - destruct a as [|a t]; [reflexivity|]. destruct (operand en v k (tok_v a) (texts t)) as [[x r']|]; [|reflexivity]. rewrite (IH x (H x)). reflexivity.
  - destruct a as [|a t]; [reflexivity|]. destruct (read_uint8 (tok_v a)) as [x|]; [|reflexivity]. rewrite (IH (Some x) (H (Some x))). reflexivity.
  - destruct H.
Qed.
Lemma ops_no_ints : Forall (fun x => if one_of ["intcblock"; "pushints"] (bs (fst x)) then True else no_ints (snd x)) ops_list.
Proof.
  unfold ops_list.
  repeat (constructor; [cbv beta iota delta [one_of existsb fst snd];
    match goal with |- if ?b then _ else _ => let b' := eval vm_compute in b in change b with b' end; cbv iota;
    match goal with
    | |- True => exact I
    | |- no_ints ?p => try unfold p; cbn [no_ints];
        repeat (first [ exact I | intros ?x; cbn [no_ints]
                      | match goal with |- no_ints (match ?x with _ => _ end) => destruct x end; cbn [no_ints]
                      | match goal with |- no_ints (if ?x then _ else _) => destruct x end; cbn [no_ints] ])
    end|]).
  constructor.
Qed.
Lemma once_roles ls : (forall l, In l ls -> ~ has_int_list l) -> forall v, all_roles en 2 v ls = all_roles en 1 v ls.
Proof.
  induction ls as [|l ls IH]; intros H v; [reflexivity|]. cbn [all_roles]. rewrite IH by (intros m M; apply H; right; exact M). f_equal.
  specialize (H l (or_introl eq_refl)). unfold line_roles. destruct l as [|t l]; [reflexivity|]. destruct (kind_of (t :: l)) as [| | | |p x|] eqn:K; try reflexivity.
  f_equal. apply no_ints_roles.
  assert (O : ops_get (tok_v t) = Some p).
  { unfold kind_of in K. destruct (tok_t t); try discriminate K; (destruct (label_name (tok_v t)); [discriminate K|]); (destruct (seqb _ _); [discriminate K|]);
      destruct (ops_get (tok_v t)); try discriminate K; injection K as -> _; reflexivity. }
  assert (N : one_of ["intcblock"; "pushints"] (tok_v t) = false).
  { destruct (one_of _ _) eqn:Q; [|reflexivity]. destruct H. exists t, l, p, x. auto. }
  unfold ops_get in O. destruct (find (fun x => seqb (bs (fst x)) (tok_v t)) (rev ops_list)) as [[m q]|] eqn:F; [|discriminate O]. injection O as ->.
  apply find_some in F. destruct F as [I' E]. cbn [fst] in E. apply seqb_eq in E. apply in_rev in I'.
  pose proof (proj1 (Forall_forall _ _) ops_no_ints _ I') as G. cbn [fst snd] in G. rewrite E, N in G. exact G.
Qed.
Theorem semantic_once : (forall l, In l (r_lines r) -> ~ has_int_list l) -> NoDup (semantic_tokens r).
Proof.
  intros H. apply (Permutation_NoDup (Permutation_sym semantic_perm)). unfold doc_roles. rewrite (once_roles _ H). fold (doc_roles en 1 r).
  pose proof doc_roles_starts as N. apply (NoDup_map_inv (fun s => (st_line s, st_index s))). rewrite map_map. rewrite map_map in N. exact N.
Qed.

(* exact, with the repetitions *)
Theorem semantic_exact : exists l, Permutation (semantic_tokens r) l /\ Forall2 (fun x s => shows (fst x) (snd x) s) (doc_roles en 2 r) l.
Proof.
  exists (map shade (doc_roles en 2 r)). split; [exact semantic_perm|].
  assert (G : forall ms, incl ms (doc_roles en 2 r) -> Forall2 (fun x s => shows (fst x) (snd x) s) ms (map shade ms)).
  { induction ms as [|[k t] ms IH]; intros I; [constructor|]. constructor; [|apply IH; intros y Y; apply I; right; exact Y].
    apply shade_shows. destruct (role_token 1 _ (I _ (or_introl eq_refl))) as [_ [Q _]]. cbn [snd] in Q. cbn [fst snd]. lia. }
  apply G. intros x X. exact X.
Qed.

(* what the client reads *)
Lemma placed_upper segs : forall line start off ts t, Forall (fun s => snd s <> []) segs -> Placed line start off segs ts -> In t ts ->
  tok_e t <= off + length (concat (map seg_text segs)) /\ tok_l t <= line + length (concat (map seg_text segs)).
Proof.
  induction segs as [|[gap raw] segs IH]; intros line start off ts t N H I; destruct ts as [|u ts]; cbn [Placed] in H; try (destruct I; fail); try (destruct H; fail).
  destruct H as (H1 & H2 & H3 & H4). inversion N as [|? ? N1 N2]; subst. cbn [snd] in N1. cbn [map concat]. unfold seg_text at 1 3. cbn [fst snd]. rewrite !app_length.
  assert (Hpos : 0 < length raw) by (destruct raw; [congruence|cbn; lia]).
  destruct I as [<-|I]; [lia|]. destruct (is_eol_tok u).
  - destruct (IH _ _ _ _ t N2 H4 I) as [A B]. lia.
  - destruct (IH _ _ _ _ t N2 H4 I) as [A B]. lia.
Qed.
Lemma token_bounds t : In t (r_tokens r) -> tok_e t <= length src /\ tok_l t <= length src.
Proof.
  destruct (process_result en src r HP) as [ts [errs [raw [lds [T [L [A R]]]]]]]. rewrite (ro_tokens _ _ _ _ _ _ _ R). intros I.
  destruct (tokenize_tiles _ _ _ T) as (segs & tail & [HT1 HT2] & P & _).
  assert (N : Forall (fun s => snd s <> []) segs) by (clear -HT2; induction HT2; constructor; tauto).
  destruct (placed_upper segs 0 0 0 ts t N P I) as [B1 B2]. rewrite HT1, app_length. lia.
Qed.
Theorem semantic_fits : (Z.of_nat (length src) < 4294967296)%Z -> Forall token_fits (semantic_tokens r).
Proof.
  intros B. apply Forall_forall. intros s I. apply semantic_in in I. destruct I as [k [t [I S']]]. apply shows_shade in S'. subst s.
  destruct (role_token 0 _ I) as [It [Q _]]. cbn [snd] in *. destruct (token_bounds t It) as [B1 B2].
  unfold shade, token_fits, fits32, sem_tok. cbn [fst snd st_line st_index st_length st_type st_modifiers]. repeat split; try lia; destruct k; cbn; lia.
Qed.
End doc.
