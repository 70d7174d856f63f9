(* the answers about a range of the document *)
From Verif Require Import Base LexSpec Lexer LexerProofs LexerThms DocLines DocProofs Expr Linter Fields Strconv Literals Codec OpTable Process ProcessSpec ProcessProofs ProcessDoc ProcessThms Semantics SemanticsProofs Query Lsp Edit RoundTripSpec QueryProofs EditProofs RenameSpec RenameProofs HintSpec HintProofs AnswerSpec AnswerProofs RangeSpec.
From Coq Require Import Lia ZifyBool ZifyNat ZifyN Sorted.

Lemma named_list args i t : named_hint args i t = [] \/ exists n, named_hint args i t = [(t, n)].
Proof.
  unfold named_hint. destruct args as [args|]; [|auto]. destruct i; [auto|]. destruct (nth_error args i); [|auto]. destruct (atoi (tok_v t)); [|auto].
  destruct (arg_field_name _ _); eauto.
Qed.
Lemma decoded_list t : decoded_hint t = [] \/ exists n, decoded_hint t = [(t, n)].
Proof.
  unfold decoded_hint. destruct (tok_t t); auto. destruct (has_prefix _ _); auto. destruct (hex_decode _); auto. destruct (forallb _ _); eauto.
Qed.
Lemma line_hints_cons args rg i t l : line_hints args rg i (t :: l) =
  ((if overlaps (tok_range t) rg then named_hint args i t else []) ++ fst (line_hints args rg (S i) l),
   (if overlaps (tok_range t) rg then decoded_hint t else []) ++ snd (line_hints args rg (S i) l)).
Proof. cbn [line_hints]. destruct (line_hints args rg (S i) l). destruct (overlaps _ _); reflexivity. Qed.

Lemma line_named args rg l : forall i x, In x (fst (line_hints args rg i l)) <->
  exists j t, nth_error l j = Some t /\ overlaps (tok_range t) rg = true /\ In x (named_hint args (i + j) t).
Proof.
  induction l as [|t l IH]; intros i x; [split; [intros []|intros [[|j] [u [H _]]]; discriminate H]|].
  rewrite line_hints_cons. cbn [fst]. rewrite in_app_iff, IH. split.
  - intros [H|[j [u [H1 H2]]]].
    + destruct (overlaps (tok_range t) rg) eqn:O; [|destruct H]. exists 0, t. rewrite Nat.add_0_r. auto.
    + exists (S j), u. rewrite Nat.add_succ_r. auto.
  - intros [[|j] [u [H1 [H2 H3]]]]; cbn [nth_error] in H1.
    + injection H1 as <-. rewrite H2. rewrite Nat.add_0_r in H3. auto.
    + right. exists j, u. rewrite Nat.add_succ_r in H3. auto.
Qed.
Lemma line_decoded args rg l : forall i x, In x (snd (line_hints args rg i l)) <->
  exists t, In t l /\ overlaps (tok_range t) rg = true /\ In x (decoded_hint t).
Proof.
  induction l as [|t l IH]; intros i x; [split; [intros []|intros [u [[] _]]]|].
  rewrite line_hints_cons. cbn [snd]. rewrite in_app_iff, IH. split.
  - intros [H|[u [H1 H2]]]; [destruct (overlaps (tok_range t) rg) eqn:O; [|destruct H]; exists t; split; [left; reflexivity|auto]|].
    exists u. split; [right; exact H1|exact H2].
  - intros [u [[<-|H1] [H2 H3]]]; [rewrite H2; auto|right; exists u; auto].
Qed.

Definition hinted (l : list token) (hs : list (token * str)) : Prop := incl (map fst hs) l.
Lemma sorted_prefix (R : token -> token -> Prop) t l a b : StronglySorted R (t :: l) -> (a = [] \/ exists n : str, a = [(t, n)]) ->
  incl (map fst b) l -> StronglySorted R (map fst b) -> StronglySorted R (map fst (a ++ b)) /\ incl (map fst (a ++ b)) (t :: l).
Proof.
  intros S [->|[n ->]] I B; cbn [app map fst].
  - split; [exact B|apply incl_tl; exact I].
  - inversion S as [|? ? _ F]; subst. rewrite Forall_forall in F. split.
    + constructor; [exact B|]. apply Forall_forall. intros x X. apply F, I, X.
    + apply incl_cons; [left; reflexivity|apply incl_tl; exact I].
Qed.
Lemma line_sorted R args rg l : forall i, StronglySorted R l ->
  (StronglySorted R (map fst (fst (line_hints args rg i l))) /\ incl (map fst (fst (line_hints args rg i l))) l) /\
  (StronglySorted R (map fst (snd (line_hints args rg i l))) /\ incl (map fst (snd (line_hints args rg i l))) l).
Proof.
  induction l as [|t l IH]; intros i S; [repeat split; try constructor; intros x []|]. rewrite line_hints_cons. cbn [fst snd].
  inversion S as [|? ? S1 S2]; subst. destruct (IH (Datatypes.S i) S1) as [[A B] [C D]].
  assert (Z : forall a, (a = [] \/ exists n : str, a = [(t, n)]) -> (if overlaps (tok_range t) rg then a else []) = [] \/ exists n, (if overlaps (tok_range t) rg then a else []) = [(t, n)])
    by (intros a; destruct (overlaps _ _); auto).
  split; apply sorted_prefix; auto; apply Z; [apply named_list|apply decoded_list].
Qed.

Definition in_lines (rg : range) (i : nat) : bool := (r_sl rg <=? Z.of_nat i)%Z && (Z.of_nat i <=? r_el rg)%Z.
Lemma hints_from_cons rg i l ls : hints_from rg i (l :: ls) =
  ((if in_lines rg i then fst (hints_of_line rg l) else []) ++ fst (hints_from rg (S i) ls),
   (if in_lines rg i then snd (hints_of_line rg l) else []) ++ snd (hints_from rg (S i) ls)).
Proof.
  cbn [hints_from]. unfold in_lines. destruct (hints_from rg (S i) ls). destruct (_ && _); [|reflexivity]. destruct (hints_of_line rg l). reflexivity.
Qed.
Lemma from_in rg ls : forall i x,
  (In x (fst (hints_from rg i ls)) <-> exists k l, nth_error ls k = Some l /\ in_lines rg (i + k) = true /\ In x (fst (hints_of_line rg l))) /\
  (In x (snd (hints_from rg i ls)) <-> exists k l, nth_error ls k = Some l /\ in_lines rg (i + k) = true /\ In x (snd (hints_of_line rg l))).
Proof.
  induction ls as [|l ls IH]; intros i x; [split; (split; [intros []|intros [[|k] [m [H _]]]; discriminate H])|].
  rewrite hints_from_cons. cbn [fst snd]. destruct (IH (S i) x) as [A B].
  assert (G : forall (f : list (token * str) * list (token * str) -> list (token * str)) tl,
    (In x tl <-> exists k l, nth_error ls k = Some l /\ in_lines rg (S i + k) = true /\ In x (f (hints_of_line rg l))) ->
    (In x ((if in_lines rg i then f (hints_of_line rg l) else []) ++ tl) <->
     exists k m, nth_error (l :: ls) k = Some m /\ in_lines rg (i + k) = true /\ In x (f (hints_of_line rg m)))).
  { intros f tl' E. rewrite in_app_iff, E. split.
    - intros [H|[k [m [H1 H2]]]].
      + destruct (in_lines rg i) eqn:O; [|destruct H]. exists 0, l. rewrite Nat.add_0_r. auto.
      + exists (S k), m. rewrite Nat.add_succ_r. auto.
    - intros [[|k] [m [H1 [H2 H3]]]]; cbn [nth_error] in H1.
      + injection H1 as <-. rewrite Nat.add_0_r in H2. rewrite H2. auto.
      + right. exists k, m. rewrite Nat.add_succ_r in H2. auto. }
  split; [exact (G fst _ A)|exact (G snd _ B)].
Qed.
Lemma SSorted_inv {A} (R : A -> A -> Prop) a b : StronglySorted R (a ++ b) -> StronglySorted R a /\ StronglySorted R b /\ forall x y, In x a -> In y b -> R x y.
Proof.
  induction a as [|t a IH]; cbn [app]; intros S; [split; [constructor|split; [exact S|intros x y []]]|].
  inversion S as [|? ? S1 S2]; subst. destruct (IH S1) as [U [V W]]. rewrite Forall_forall in S2. split; [|split].
  - constructor; [exact U|]. apply Forall_forall. intros x X. apply S2. apply in_or_app. auto.
  - exact V.
  - intros x y [<-|X] Y; [apply S2; apply in_or_app; auto|auto].
Qed.
Lemma from_sorted R rg ls : forall i, StronglySorted R (concat ls) ->
  (StronglySorted R (map fst (fst (hints_from rg i ls))) /\ incl (map fst (fst (hints_from rg i ls))) (concat ls)) /\
  (StronglySorted R (map fst (snd (hints_from rg i ls))) /\ incl (map fst (snd (hints_from rg i ls))) (concat ls)).
Proof.
  induction ls as [|l ls IH]; intros i S; [repeat split; try constructor; intros x []|]. rewrite hints_from_cons. cbn [fst snd concat] in *.
  destruct (SSorted_inv _ _ _ S) as [S1 [S2 S3]]. destruct (IH (Datatypes.S i) S2) as [[A B] [C D]].
  destruct (line_sorted R (match l with t :: _ => op_args (tok_v t) | [] => None end) rg l 0 S1) as [[A' B'] [C' D']]. fold (hints_of_line rg l) in *.
  assert (G : forall a b : list (token * str), StronglySorted R (map fst a) -> incl (map fst a) l -> StronglySorted R (map fst b) -> incl (map fst b) (concat ls) ->
    StronglySorted R (map fst ((if in_lines rg i then a else []) ++ b)) /\ incl (map fst ((if in_lines rg i then a else []) ++ b)) (l ++ concat ls)).
  { intros a b Sa Ia Sb Ib. destruct (in_lines rg i).
    - rewrite map_app. split; [apply SSorted_app; auto|apply incl_app; [apply incl_appl|apply incl_appr]; assumption].
    - cbn [app]. split; [exact Sb|apply incl_appr; exact Ib]. }
  split; apply G; assumption.
Qed.

(* the hints, as tokens *)
Lemma overlap_lines rg t k : tok_l t = k -> overlaps (tok_range t) rg = true -> in_lines rg k = true.
Proof. unfold overlaps, tok_range, in_lines. cbn [r_sc r_ec r_sl r_el]. lia. Qed.

Section result.
Variables (en : env) (src : str) (r : presult).
Hypothesis HP : process en src = Ret r.

Lemma named_is t n op l args k : nth_error (r_lines r) (tok_l t) = Some (op :: l) -> nth_error l k = Some t ->
  op_args (tok_v op) = args -> (forall x, In x (op :: l) -> tok_l x = tok_l t) ->
  (In (t, n) (named_hint args (S k) t) -> names_field r t n).
Proof.
  intros N K A _ H. unfold named_hint in H. destruct args as [args|]; [|destruct H]. destruct (nth_error args k) as [a|] eqn:Ea; [|destruct H].
  destruct (atoi (tok_v t)) as [v|] eqn:Ev; [|destruct H]. unfold arg_field_name in H. destruct (field_table (oa_type a)) as [sp|] eqn:Es; [|destruct H].
  destruct (v <? 0)%Z eqn:Nv; [destruct H|]. destruct (nth_error sp (Z.to_nat v)) as [s|] eqn:En; [|destruct H].
  destruct (offered (oa_type a) s && _) eqn:O; [|destruct H]. destruct H as [H|[]]. injection H as <-. apply andb_true_iff in O. destruct O as [O1 O2].
  destruct (nth_error_split _ _ K) as [w1 [w2 [El Ew]]]. exists (oa_type a), sp, (Z.to_nat v), s.
  split. { exists op, w1, w2, args, a. rewrite El in N. rewrite Ew. auto. }
  split; [exact Es|]. split; [rewrite Ev; f_equal; lia|]. split; [exact En|]. split; [exact O1|]. split; [reflexivity|].
  intros Z. rewrite Z in O2. discriminate O2.
Qed.
Lemma is_named t n op w1 w2 : nth_error (r_lines r) (tok_l t) = Some (op :: w1 ++ t :: w2) ->
  forall k sp j s args a, op_args (tok_v op) = Some args -> nth_error args (length w1) = Some a -> oa_type a = k ->
  field_table k = Some sp -> atoi (tok_v t) = Some (Z.of_nat j) -> nth_error sp j = Some s -> offered k s = true -> f_name s = n -> n <> [] ->
  In (t, n) (named_hint (op_args (tok_v op)) (S (length w1)) t).
Proof.
  intros N k sp j s args a A1 A2 A3 F V J O E Z. unfold named_hint. rewrite A1, A2, V. unfold arg_field_name. rewrite A3, F.
  destruct (Z.of_nat j <? 0)%Z eqn:Nv; [lia|]. rewrite Nat2Z.id, J, O, E. cbn [andb].
  destruct (seqb_spec n []) as [Q|Q]; [contradiction|]. left. reflexivity.
Qed.
Lemma named_iff rg t n : In (t, n) (fst (hints_from rg 0 (r_lines r))) <-> names_field r t n /\ overlaps (tok_range t) rg = true.
Proof.
  rewrite (proj1 (from_in _ _ _ _)). split.
  - intros [k [l [N [_ H]]]]. unfold hints_of_line in H. rewrite line_named in H. destruct H as [j [u [J [O H]]]].
    assert (u = t) as ->.
    { destruct (named_list (match l with t :: _ => op_args (tok_v t) | [] => None end) (0 + j) u) as [Z|[m Z]]; rewrite Z in H; [destruct H|]. destruct H as [H|[]]. congruence. }
    pose proof (line_index _ _ _ HP _ _ N) as L. assert (It : In t l) by (eapply nth_error_In; exact J).
    split; [|exact O]. destruct l as [|op l]; [destruct j; discriminate J|]. cbn [Nat.add] in H. destruct j as [|j]; [cbn [named_hint] in H; destruct (op_args (tok_v op)); destruct H|].
    eapply named_is; [rewrite (L t It); exact N|exact J|reflexivity| |exact H]. intros x X. rewrite (L x X), (L t It). reflexivity.
  - intros [[k [sp [j [s [[op [w1 [w2 [args [a [N [A1 [A2 A3]]]]]]]] [F [V [J [O [E Z]]]]]]]]]] Ov].
    exists (tok_l t), (op :: w1 ++ t :: w2). split; [exact N|]. split; [eapply overlap_lines; [reflexivity|exact Ov]|].
    unfold hints_of_line. apply line_named. exists (S (length w1)), t. split.
    + cbn [nth_error]. rewrite nth_error_app2 by lia. rewrite Nat.sub_diag. reflexivity.
    + split; [exact Ov|]. eapply is_named; eassumption.
Qed.
Lemma decoded_iff rg t w : In (t, w) (snd (hints_from rg 0 (r_lines r))) <-> decodes r t w /\ overlaps (tok_range t) rg = true.
Proof.
  rewrite (proj2 (from_in _ _ _ _)). split.
  - intros [k [l [N [_ H]]]]. unfold hints_of_line in H. rewrite line_decoded in H. destruct H as [u [J [O H]]].
    assert (u = t) as ->. { destruct (decoded_list u) as [Z|[m Z]]; rewrite Z in H; [destruct H|]. destruct H as [H|[]]. congruence. }
    split; [|exact O]. split; [exists l; rewrite (line_index _ _ _ HP _ _ N _ J); auto|].
    unfold decoded_hint in H. destruct (tok_t t); try destruct H. split; [reflexivity|]. destruct (has_prefix "0x" (tok_v t)) eqn:P; [|destruct H].
    destruct (hex_decode (skipn 2 (tok_v t))) as [x|] eqn:X; [|destruct H]. destruct (forallb printable x) eqn:Fx; [|destruct H].
    destruct H as [H|[]]. injection H as <-. destruct (prefix_0x _ P) as [h Eh]. exists h. rewrite Eh in X |- *. split; [reflexivity|]. split; [exact X|].
    apply Forall_forall. intros c C. rewrite forallb_forall in Fx. specialize (Fx c C). unfold printable in Fx. lia.
  - intros [[[l [N It]] [T [h [Eh [D F]]]]] O]. exists (tok_l t), l. split; [exact N|]. split; [eapply overlap_lines; [reflexivity|exact O]|].
    unfold hints_of_line. apply line_decoded. exists t. split; [exact It|]. split; [exact O|]. unfold decoded_hint. rewrite T, Eh.
    replace (has_prefix "0x" (bs "0x" ++ h)) with true by reflexivity. change (skipn 2 (bs "0x" ++ h)) with h. rewrite D.
    replace (forallb printable w) with true; [left; reflexivity|]. symmetry. apply forallb_forall. intros c C. rewrite Forall_forall in F. specialize (F c C). unfold printable. lia.
Qed.

Lemma tokens_before : StronglySorted before (concat (r_lines r)).
Proof.
  destruct (lines_of_result _ _ _ HP) as [A _ _ _]. eapply before_lines; [exact A|]. destruct (lines_tokens _ _ _ HP) as [I F].
  apply Forall_forall. intros x X. rewrite Forall_forall in F. apply F, I, X.
Qed.

Lemma proper_token t : tok_b t <= tok_e t -> proper (tok_range t).
Proof. intros H. right. unfold tok_range. cbn. lia. Qed.
Lemma line_token t ln : nth_error (r_lines r) (tok_l t) = Some ln -> In t ln -> tok_b t <= tok_e t.
Proof.
  intros N I. apply nth_error_In in N. pose proof (fact_of _ _ _ HP t (in_line _ t ln I N)) as [B _]. lia.
Qed.
Lemma touch_iff rg t : proper rg -> single_line rg -> tok_b t <= tok_e t -> (overlaps (tok_range t) rg = true <-> touches rg t).
Proof.
  intros P S B. rewrite overlaps_sym. apply overlaps_single_line; [exact S|reflexivity|exact P|apply proper_token; exact B].
Qed.
Lemma touch_sound rg t : proper rg -> tok_b t <= tok_e t -> overlaps (tok_range t) rg = true -> touches rg t.
Proof. intros P B H. rewrite overlaps_sym in H. apply overlaps_sound; [exact P|apply proper_token; exact B|exact H]. Qed.
Lemma names_field_token t n : names_field r t n -> tok_b t <= tok_e t.
Proof.
  intros [k [sp [j [s [[op [w1 [w2 [args [a [N _]]]]]] _]]]]]. eapply line_token; [exact N|]. right. apply in_or_app. right. left. reflexivity.
Qed.
Lemma decodes_token t n : decodes r t n -> tok_b t <= tok_e t.
Proof. intros [[ln [N I]] _]. eapply line_token; eassumption. Qed.

Theorem hints_exact rg : (0 <= r_sl rg)%Z -> proper rg -> exists ns ds, inlay_hints r rg = Ret (ns, ds) /\
  StronglySorted before (map fst ns) /\ StronglySorted before (map fst ds) /\
  (forall t n, In (t, n) ns -> names_field r t n /\ touches rg t) /\ (forall t w, In (t, w) ds -> decodes r t w /\ touches rg t) /\
  (single_line rg -> (forall t n, names_field r t n -> touches rg t -> In (t, n) ns) /\ (forall t w, decodes r t w -> touches rg t -> In (t, w) ds)).
Proof.
  intros B P. unfold inlay_hints. replace ((r_sl rg <=? r_el rg)%Z && (r_sl rg <? 0)%Z) with false by lia.
  destruct (from_sorted before rg (r_lines r) 0 tokens_before) as [[S1 _] [S2 _]].
  exists (fst (hints_from rg 0 (r_lines r))), (snd (hints_from rg 0 (r_lines r))). split; [destruct (hints_from rg 0 (r_lines r)); reflexivity|].
  split; [exact S1|]. split; [exact S2|]. split; [|split].
  - intros t n H. apply named_iff in H. destruct H as [H O]. split; [exact H|]. exact (touch_sound _ _ P (names_field_token _ _ H) O).
  - intros t n H. apply decoded_iff in H. destruct H as [H O]. split; [exact H|]. exact (touch_sound _ _ P (decodes_token _ _ H) O).
  - intros S. split; intros t n H T.
    + apply named_iff. split; [exact H|]. apply touch_iff; auto. exact (names_field_token _ _ H).
    + apply decoded_iff. split; [exact H|]. apply touch_iff; auto. exact (decodes_token _ _ H).
Qed.
End result.

(* C43 *)
Theorem prepare_exact en src ps r p old new :
  Lexes src ps -> strings_on_one_line ps -> process en src = Ret r ->
  Forall (fun t => starts_quote (tok_v t) = false) (r_refs r) -> named r p old ->
  exists rg, prepare_rename r p = Some (rg, old) /\ In (TextEdit rg new) (rename_edits r p new) /\ r_sl rg = ps_line p /\
    forall ls, lines_of src ls -> covers ls rg old.
Proof.
  intros L O E Q N.
  assert (G : exists rg, prepare_rename r p = Some (rg, old) /\ (forall new, In (TextEdit rg new) (rename_edits r p new)) /\ r_sl rg = ps_line p).
  { pose proof (one_symbol en src r p E) as O1. pose proof (one_under r p (refs_apart _ _ _ E Q)) as O2. pose proof (not_both _ _ _ p E) as B.
    unfold prepare_rename. destruct N as [[s [Is [Ns Ps]]]|[t [It [Nt Pt]]]].
    - assert (I : In s (symbols_within r (pos_range p))) by (apply sym_within; auto).
      destruct (symbols_within r (pos_range p)) as [|x [|y l]]; [destruct I| |cbn in O1; lia]. destruct I as [->|[]]. exists (name_range s).
      split; [rewrite Ns; reflexivity|]. split; [|unfold name_range; cbn; symmetry; apply Ps].
      intros nw. rewrite (rename_named _ _ _ _ _ nw E Q (or_introl (ex_intro _ s (conj Is (conj Ns Ps))))). unfold rename_one. apply in_or_app. left.
      apply in_map_iff. exists s. split; [reflexivity|]. apply filter_In. split; [exact Is|apply seqb_eq; exact Ns].
    - assert (I : In t (refs_within r (pos_range p))) by (apply within_under; unfold under; auto).
      destruct (refs_within r (pos_range p)) as [|x [|y l]]; [destruct I| |cbn in O2; lia]. destruct I as [->|[]]. destruct B as [B|B]; [|discriminate B]. rewrite B.
      destruct (ref_spec _ _ _ _ E It) as [l [q [a [Il [Itl K]]]]].
      assert (Te : tok_e t = tok_b t + length (tok_v t)).
      { destruct (fact_of _ _ _ E t (in_line _ t l Itl Il)) as [_ F]. pose proof (no_eol _ _ _ E t l Itl Il) as X.
        assert (T : tok_t t = TokValue).
        { destruct (symbols_complete _ _ _ E) as [_ [S _]]. rewrite S in It. apply in_flat_map in It. destruct It as [m [Im J]].
          pose proof (names_labels_tail _ _ J) as Tl. destruct (lines_of_result _ _ _ E) as [_ _ _ C]. rewrite Forall_forall in C. specialize (C m Im). rewrite Forall_forall in C.
          specialize (C t Tl). destruct (tok_t t); congruence. }
        rewrite Forall_forall in Q. exact (proj1 (proj1 (F T) (Q t It))). }
      exists (tok_range t). split; [rewrite Nt; rewrite <- Nt, <- Te; reflexivity|]. split; [|cbn; symmetry; apply Pt].
      intros nw. rewrite (rename_named _ _ _ _ _ nw E Q (or_intror (ex_intro _ t (conj It (conj Nt Pt))))). unfold rename_one. apply in_or_app. right.
      apply in_map_iff. exists t. split; [reflexivity|]. apply filter_In. split; [exact It|apply seqb_eq; exact Nt]. }
  destruct G as [rg [A [B C]]]. exists rg. split; [exact A|]. split; [apply B|]. split; [exact C|].
  intros ls Ls. destruct (rename_exact en src ps r p old (bs "x") L O E Q eq_refl N) as [_ [_ [_ [D _]]]]. exact (D ls _ Ls (B _)).
Qed.
Theorem prepare_nothing r p : (forall n, ~ named r p n) -> prepare_rename r p = None.
Proof.
  intros N. unfold prepare_rename. destruct (symbols_within r (pos_range p)) as [|s ss] eqn:S.
  - destruct (refs_within r (pos_range p)) as [|t ts] eqn:T; [reflexivity|]. exfalso. apply (N (tok_v t)). right. exists t.
    assert (I : In t (refs_within r (pos_range p))) by (rewrite T; left; reflexivity). apply within_under in I. unfold under in I. tauto.
  - exfalso. apply (N (sy_name s)). left. exists s. assert (I : In s (symbols_within r (pos_range p))) by (rewrite S; left; reflexivity). apply sym_within in I. tauto.
Qed.

(* ------------------------------------------------------------------------------------------ *)
(* the versions asked for *)
Lemma kind_op t l p : kind_of (t :: l) = LOp p (texts l) <-> tok_t t <> TokComment /\ ops_get (tok_v t) = Some p.
Proof.
  unfold kind_of. split.
  - destruct (tok_t t); try discriminate; (destruct (label_name _); [discriminate|]; destruct (seqb _ _); [discriminate|]; destruct (ops_get (tok_v t)) as [q|]; [|discriminate];
      intros H; injection H as ->; split; [discriminate|reflexivity]).
  - intros [C O]. destruct (ops_are_opcodes _ _ O) as [-> P]. rewrite O. destruct (seqb_spec (tok_v t) (bs "#pragma")); [congruence|]. destruct (tok_t t); try reflexivity; congruence.
Qed.
Lemma kind_op_texts t l p a : kind_of (t :: l) = LOp p a -> a = texts l.
Proof.
  unfold kind_of. destruct (tok_t t); try discriminate; (destruct (label_name _); [discriminate|]; destruct (seqb _ _); [discriminate|]; destruct (ops_get (tok_v t)) as [q|]; [|discriminate];
      intros H; injection H as _ <-; reflexivity).
Qed.
Lemma needs_in ls : forall m v q, In q (all_needs m v ls) <-> exists i l, nth_error ls i = Some l /\ In q (needs (last_mode m (firstn i ls)) (last_version v (firstn i ls)) l).
Proof.
  induction ls as [|l ls IH]; intros m v q; [split; [intros []|intros [[|i] [l [H _]]]; discriminate H]|]. cbn [all_needs]. rewrite in_app_iff, IH. split.
  - intros [H|[i [l' [N H]]]]; [exists 0, l|exists (S i), l']; auto.
  - intros [[|i] [l' [N H]]]; cbn [nth_error firstn last_mode last_version] in *; [injection N as <-; auto|right; exists i, l'; auto].
Qed.
Lemma line_end_last t l : line_end (t :: l) = tok_e (last (t :: l) t).
Proof.
  unfold line_end. cbn [length]. replace (S (length l) - 1) with (length l) by lia. revert t. induction l as [|u l IH]; intros t; [reflexivity|].
  change (nth_error (t :: u :: l) (length (u :: l))) with (nth_error (u :: l) (length l)). rewrite IH.
  change (last (t :: u :: l) t) with (last (u :: l) t). f_equal. clear IH. revert u t. induction l as [|x l IH]; intros u t; [reflexivity|].
  change (last (u :: x :: l) u) with (last (x :: l) u). change (last (u :: x :: l) t) with (last (x :: l) t). rewrite <- (IH x u), <- (IH x t). reflexivity.
Qed.
Lemma sorted_last l : forall c t, sorted_from c (t :: l) -> tok_b t <= tok_e (last (t :: l) t).
Proof.
  induction l as [|u l IH]; intros c t S; [cbn in *; lia|]. cbn [sorted_from] in S. destruct S as [S1 S2].
  specialize (IH _ _ S2). change (last (t :: u :: l) t) with (last (u :: l) t).
  assert (E : last (u :: l) t = last (u :: l) u).
  { clear. revert u t. induction l as [|x l IH]; intros u t; [reflexivity|]. change (last (u :: x :: l) u) with (last (x :: l) u). change (last (u :: x :: l) t) with (last (x :: l) t). rewrite (IH x t), (IH x u). reflexivity. }
  rewrite E. cbn [sorted_from] in S2. lia.
Qed.

Section versions.
Variables (en : env) (src : str) (r : presult).
Hypothesis HP : process en src = Ret r.

Lemma vers_iff q : In q (r_vers r) <-> exists i l, nth_error (r_lines r) i = Some l /\ wants_version r i (rq_version q) /\ line_extent l (req_range q).
Proof.
  destruct (process_result en src r HP) as [ts [errs [raw [lds [_ [_ [_ R]]]]]]]. rewrite (ro_vers _ _ _ _ _ _ _ R), needs_in. split.
  - intros [i [l [N H]]]. exists i, l. split; [exact N|]. unfold needs in H. destruct l as [|t l]; [destruct H|]. destruct (kind_of (t :: l)) as [| | | |p a|] eqn:K; try destruct H.
    destruct (_ <? _)%N eqn:V; [|destruct H]. destruct H as [<-|[]]. cbn [rq_version]. pose proof (kind_op_texts _ _ _ _ K) as ->. apply kind_op in K. destruct K as [K1 K2]. split.
    + exists t, l, p. repeat split; auto. unfold version_on, mode_on. lia.
    + exists t, (last (t :: l) t). split; [reflexivity|]. split; [reflexivity|]. unfold req_range. cbn [rq_line rq_b rq_e]. rewrite line_end_last. reflexivity.
  - intros [i [l [N [[op [rest [p [N' [O [C [V W]]]]]]] [a [b [H1 [H2 H3]]]]]]]]. rewrite N in N'. injection N' as ->. exists i, (op :: rest). split; [exact N|].
    cbn [hd_error] in H1. injection H1 as <-. unfold needs. rewrite (proj2 (kind_op op rest p) (conj C O)). fold (mode_on r i). fold (version_on r i).
    rewrite <- V. replace (version_on r i <? rq_version q)%N with true by lia. left. destruct q as [ql qb qe qv]. unfold req_range in H3. cbn [rq_line rq_b rq_e rq_version] in *.
    rewrite line_end_last, H2. injection H3 as E1 E2 E3. cbn [line_begin]. f_equal; lia.
Qed.
Lemma extent_proper i l x : nth_error (r_lines r) i = Some l -> line_extent l x -> proper x /\ single_line x.
Proof.
  intros N [a [b [H1 [H2 ->]]]]. split; [|reflexivity]. right. cbn. split; [reflexivity|]. destruct l as [|t l]; [discriminate H1|]. cbn [hd_error] in H1. injection H1 as ->.
  destruct (lines_of_result _ _ _ HP) as [A _ _ _]. pose proof (lines_at_nth _ _ _ _ A N) as [_ S]. pose proof (sorted_last _ _ _ S). rewrite H2 in H. lia.
Qed.
Lemma ref_token t : In t (r_refs r) -> tok_b t <= tok_e t.
Proof.
  intros I. destruct (ref_spec _ _ _ _ HP I) as [l [q [a [Il [Itl K]]]]]. pose proof (fact_of _ _ _ HP t (in_line _ t l Itl Il)) as [B _]. lia.
Qed.

Theorem actions_exact rg : (0 <= r_sl rg)%Z -> proper rg -> exists acts, code_actions r rg = Ret acts /\
  (forall a, In a acts -> fix_for r rg a) /\ (single_line rg -> forall a, fix_for r rg a -> In a acts).
Proof.
  intros B P. destruct (hints_exact en src r HP rg B P) as [ns [ds [H [_ [_ [SN [SD C]]]]]]]. unfold code_actions. rewrite H. cbn [bindr fst snd].
  eexists. split; [reflexivity|]. destruct (symbols_complete en src r HP) as [_ [_ [M _]]].
  destruct (process_result en src r HP) as [ts [errs [raw [lds [_ [_ [_ R]]]]]]]. pose proof (ro_reds _ _ _ _ _ _ _ R) as Rd. split.
  - intros a. rewrite !in_app_iff, !in_map_iff. intros [[x [<- I]]|[[t [<- I]]|[[[t n] [<- I]]|[[[t n] [<- I]]|[q [<- I]]]]]]; try (apply filter_In in I; destruct I as [I J]).
    + apply Fix_line; [rewrite <- Rd; exact I|lia].
    + apply M in I. destruct I as [I Q]. apply Fix_label; [exact I|exact Q|]. apply touch_sound; [exact P|apply ref_token; exact I|rewrite overlaps_sym; exact J].
    + destruct (SN _ _ I) as [I1 I2]. exact (Fix_name _ _ _ _ I1 I2).
    + destruct (SD _ _ I) as [I1 I2]. exact (Fix_text _ _ _ _ I1 I2).
    + apply vers_iff in I. destruct I as [i [l [N [W E]]]]. apply (Fix_version r rg i l); [exact N|exact W|]. destruct (extent_proper _ _ _ N E) as [PE SE].
      destruct (overlaps_sound _ _ P PE J) as [k [c [K1 K2]]]. exists (req_range q), k, c. auto.
  - intros S a F. destruct (C S) as [CN CD]. rewrite !in_app_iff, !in_map_iff. destruct F as [x I J|t I Q T|t n I T|t w I T|i l v N W T].
    + left. exists x. split; [reflexivity|]. apply filter_In. rewrite Rd. split; [exact I|lia].
    + right. left. exists t. split; [reflexivity|]. apply filter_In. split; [apply M; auto|]. rewrite overlaps_sym. apply touch_iff; auto. apply ref_token. exact I.
    + right. right. left. exists (t, n). split; [reflexivity|]. apply CN; assumption.
    + right. right. right. left. exists (t, w). split; [reflexivity|]. apply CD; assumption.
    + right. right. right. right. destruct T as [x [k [c [E [K1 K2]]]]]. destruct (extent_proper _ _ _ N E) as [PE SE].
      assert (exists q, rq_version q = v /\ req_range q = x) as [q [Q1 Q2]].
      { destruct E as [a [b [_ [_ ->]]]]. exists (Required (tok_l a) (tok_b a) (tok_e b) v). auto. }
      exists q. split; [rewrite Q1; reflexivity|]. apply filter_In. split; [apply vers_iff; exists i, l; rewrite Q1, Q2; auto|].
      rewrite Q2. apply overlaps_single_line; auto. exists k, c. auto.
Qed.

Theorem hint_answer en' cf uri rg : (0 <= r_sl rg)%Z -> proper rg -> exists ns ds,
  answer_query en' cf uri src r (QInlayHint rg) = Ret (AInlayHint (
    (if c_named cf then map (fun x => (behind (fst x), snd x)) ns else []) ++ (if c_decoded cf then map (fun x => (behind (fst x), snd x)) ds else []))) /\
  StronglySorted before (map fst ns) /\ StronglySorted before (map fst ds) /\
  (forall t n, In (t, n) ns -> names_field r t n /\ touches rg t) /\ (forall t w, In (t, w) ds -> decodes r t w /\ touches rg t) /\
  (single_line rg -> (forall t n, names_field r t n -> touches rg t -> In (t, n) ns) /\ (forall t w, decodes r t w -> touches rg t -> In (t, w) ds)).
Proof.
  intros B P. destruct (hints_exact en src r HP rg B P) as [ns [ds [H G]]]. exists ns, ds. split; [|exact G].
  cbn [answer_query]. rewrite H. reflexivity.
Qed.
Theorem action_answer en' cf uri rg : (0 <= r_sl rg)%Z -> proper rg -> exists acts,
  answer_query en' cf uri src r (QCodeAction rg) = Ret (ACodeAction uri acts) /\
  (forall a, In a acts -> fix_for r rg a) /\ (single_line rg -> forall a, fix_for r rg a -> In a acts).
Proof.
  intros B P. destruct (actions_exact rg B P) as [acts [H G]]. exists acts. split; [|exact G]. cbn [answer_query]. rewrite H. reflexivity.
Qed.
End versions.
