(* The titles of the quick fixes: proofs. *)
From Verif Require Import Base LexSpec Lexer LexerProofs LexerThms Expr Linter Fields Literals LiteralsProofs Codec OpTable Process ProcessSpec ProcessProofs ProcessRun ProcessLine ProcessDoc ProcessThms Semantics SemanticsProofs Query Lsp QueryProofs RenameProofs HintSpec HintProofs AnswerSpec AnswerProofs RangeSpec RangeProofs Titles TitleSpec.
From Verif Require Flow LintSpec LinterThms LspProofs RemoveProofs.
From Coq Require Import Lia ZifyBool ZifyNat ZifyN Sorted.

(* the titles do not change what is offered *)
Lemma offers_actions r rg : mapr (map of_action) (code_offers r rg) = code_actions r rg.
Proof.
  unfold code_offers, code_actions. destruct (inlay_hints r rg) as [hs| |]; try reflexivity. cbn [bindr mapr].
  rewrite !map_app, !map_map. reflexivity.
Qed.

(* ------------------------------------------------------------------------------------------ *)
(* the lines *)
Lemma label_of_name a n : label_name a = Some n -> a = n ++ bs ":".
Proof.
  unfold label_name. destruct (rev a) as [|c w] eqn:E; [discriminate|]. destruct (Ascii.eqb_spec c ":") as [->|]; [|discriminate].
  intros H. injection H as <-. apply (f_equal (@rev ascii)) in E. rewrite rev_involutive in E. exact E.
Qed.
Lemma entries_label en v l n : entries en v l = [LabelExpr n] ->
  exists t w, l = t :: w /\ tok_t t <> TokComment /\ tok_v t = n ++ bs ":".
Proof.
  unfold entries. destruct l as [|t w]; [discriminate|]. destruct (kind_of (t :: w)) as [| |m|args|p args|] eqn:K; try discriminate.
  - intros E. exists t, w. split; [reflexivity|]. destruct m as [|c m]; [discriminate E|]. injection E as <-.
    unfold kind_of in K. split; [intros T; rewrite T in K; discriminate K|].
    destruct (tok_t t); try discriminate K; (destruct (label_name (tok_v t)) as [x|] eqn:L; [injection K as ->; exact (label_of_name _ _ L)|]);
      (destruct (seqb _ _); [discriminate K|]; destruct (ops_get _); discriminate K).
  - destruct (pragma_version args); discriminate.
  - apply RemoveProofs.kind_op in K. destruct (assemble en v p args) as [[e [|x y]]|] eqn:A; try discriminate.
    intros E. injection E as ->. pose proof (RemoveProofs.assemble_no_label _ _ _ _ _ _ _ K A) as D. discriminate D.
Qed.
Lemma entries_b en v l n : entries en v l = [BExpr n] ->
  exists t w, l = t :: w /\ tok_t t <> TokComment /\ tok_v t = bs "b".
Proof.
  unfold entries. destruct l as [|t w]; [discriminate|]. destruct (kind_of (t :: w)) as [| |m|args|p args|] eqn:K; try discriminate.
  - destruct m; discriminate.
  - destruct (pragma_version args); discriminate.
  - assert (T : tok_t t <> TokComment) by (intros T; unfold kind_of in K; rewrite T in K; discriminate K).
    apply RemoveProofs.kind_op in K. destruct (assemble en v p args) as [[e [|x y]]|] eqn:A; try discriminate.
    intros E. injection E as ->. exists t, w. split; [reflexivity|]. split; [exact T|]. pose proof (ops_kind _ _ K) as Kd.
    destruct (one_of branch_names (tok_v t)) eqn:B.
    + destruct (one_of_cases _ _ B) as [s [I Es]]. rewrite Es in K. cbn [branch_names In] in I.
      destruct I as [<-|[<-|[<-|[<-|[]]]]]; [exact Es| | |]; vm_compute in K; injection K as <-; destruct args as [|a args]; discriminate A.
    + destruct (one_of table_names (tok_v t)) eqn:Tn.
      * destruct (one_of_cases _ _ Tn) as [s [I Es]]. rewrite Es in K. cbn [table_names In] in I.
        destruct I as [<-|[<-|[]]]; vm_compute in K; injection K as <-; discriminate A.
      * destruct (assemble_plain _ _ _ Kd _ _ _ A) as [U _]. discriminate U.
Qed.

Lemma spells_literal w : ~ In c_bslash w -> spells (literal_of w) w.
Proof.
  intros N. exists (escape_quotes w), w. split; [reflexivity|]. split; [exact (escape_quoted w N)|]. split; [exact (escape_last w N)|].
  split; [|exact (denotes_self w N)]. pose proof (unescape_quotes_spec (escape_quotes w)) as U. rewrite escape_unescape in U. exact U.
Qed.

(* ------------------------------------------------------------------------------------------ *)
Section result.
Variables (en : env) (src : str) (r : presult).
Hypothesis HP : process en src = Ret r.

Lemma redundant_says x : filter is_surplus_diag (r_diag r) = [] -> In x (r_reds r) -> says r (red_title x) (FixRemoveLine (red_line x)).
Proof.
  intros S I. destruct (process_result en src r HP) as [ts [errs [raw [lds [_ [_ [_ R]]]]]]]. rewrite (ro_reds _ _ _ _ _ _ _ R) in I.
  destruct (listing_lines en src r HP S) as [Len Ln].
  assert (G : forall i e, nth_error (r_listing r) i = Some e -> exists l, nth_error (r_lines r) i = Some l /\
    entries en (last_version 1 (firstn i (r_lines r))) l = [e]).
  { intros i e N. destruct (nth_error (r_lines r) i) as [l|] eqn:E.
    - destruct (Ln i l E) as [e' [N' Q]]. exists l. split; [reflexivity|]. congruence.
    - apply nth_error_None in E. assert (i < length (r_listing r)) by (apply nth_error_Some; congruence). lia. }
  destruct x as [i n|i]; cbn [red_title red_line].
  - apply LinterThms.c15_redundant, LinterThms.c15 in I. destruct I as [D _]. unfold Flow.defines in D.
    destruct (G _ _ D) as [l [N E]]. destruct (entries_label _ _ _ _ E) as [t [w [-> [T V]]]].
    change (bs "Remove label " ++ ticked n) with (bs "Remove label '" ++ n ++ bs "'"). apply Says_label. exists t, w. auto.
  - apply LinterThms.c18_redundant, LinterThms.c18_exact in I. destruct I as (n & k & D & _).
    destruct (G _ _ D) as [l [N E]]. destruct (entries_b _ _ _ _ E) as [t [w [-> [T V]]]].
    apply Says_b. exists t, w. auto.
Qed.

(* what is offered, piece by piece *)
Inductive offered_as (rg : range) : offer -> Prop :=
| OA_line x : In x (r_reds r) -> (r_sl rg <= Z.of_nat (red_line x) <= r_el rg)%Z -> offered_as rg (line_offer x)
| OA_label t : In t (r_refs r) -> touches rg t -> offered_as rg (label_offer t)
| OA_name t n : names_field r t n -> touches rg t -> offered_as rg (name_offer (t, n))
| OA_text t w : decodes r t w -> touches rg t -> offered_as rg (text_offer (t, w))
| OA_version i q : wants_version r i (rq_version q) -> offered_as rg (version_offer q).

Lemma offers_are rg os o : (0 <= r_sl rg)%Z -> proper rg -> code_offers r rg = Ret os -> In o os -> offered_as rg o.
Proof.
  intros B P H. destruct (hints_exact en src r HP rg B P) as [ns [ds [Hh [_ [_ [SN [SD _]]]]]]].
  unfold code_offers in H. rewrite Hh in H. cbn [bindr fst snd] in H. injection H as <-.
  destruct (symbols_complete en src r HP) as [_ [_ [M _]]].
  rewrite !in_app_iff, !in_map_iff. intros [[x [<- I]]|[[t [<- I]]|[[[t n] [<- I]]|[[[t n] [<- I]]|[q [<- I]]]]]]; try (apply filter_In in I; destruct I as [I J]).
  - apply OA_line; [exact I|lia].
  - apply M in I. destruct I as [I _]. apply OA_label; [exact I|]. apply touch_sound; [exact P|exact (ref_token en src r HP t I)|rewrite overlaps_sym; exact J].
  - destruct (SN _ _ I). apply OA_name; assumption.
  - destruct (SD _ _ I). apply OA_text; assumption.
  - apply (vers_iff en src r HP) in I. destruct I as [i [l [_ [W _]]]]. exact (OA_version rg i q W).
Qed.

Theorem titles_say rg os o : (0 <= r_sl rg)%Z -> proper rg -> code_offers r rg = Ret os -> In o os ->
  filter is_surplus_diag (r_diag r) = [] -> (forall t w, decodes r t w -> touches rg t -> ~ In c_bslash w) ->
  says r (of_title o) (of_action o).
Proof.
  intros B P H I S D. destruct (offers_are rg os o B P H I) as [x X _|t X _|t n X _|t w X T|i q X]; cbn [of_title of_action line_offer label_offer name_offer text_offer version_offer fst snd].
  - exact (redundant_says x S X).
  - exact (Says_create r t X).
  - exact (Says_name r t n X).
  - exact (Says_text r t w _ X (spells_literal w (D t w X T))).
  - exact (Says_version r i _ X).
Qed.
(* nothing but the three clauses about lines needs the listing to keep step with the document *)
Theorem other_titles_say rg os o : (0 <= r_sl rg)%Z -> proper rg -> code_offers r rg = Ret os -> In o os ->
  (forall i, of_action o <> FixRemoveLine i) -> (forall t w, decodes r t w -> touches rg t -> ~ In c_bslash w) ->
  says r (of_title o) (of_action o).
Proof.
  intros B P H I S D. destruct (offers_are rg os o B P H I) as [x X _|t X _|t n X _|t w X T|i q X]; cbn [of_title of_action line_offer label_offer name_offer text_offer version_offer fst snd].
  - exfalso. exact (S _ eq_refl).
  - exact (Says_create r t X).
  - exact (Says_name r t n X).
  - exact (Says_text r t w _ X (spells_literal w (D t w X T))).
  - exact (Says_version r i _ X).
Qed.

(* ------------------------------------------------------------------------------------------ *)
(* titles tell fixes apart *)
Lemma ticked_inj a b : ticked a = ticked b -> a = b.
Proof. unfold ticked. intros H. apply app_inv_head, app_inv_tail in H. exact H. Qed.

Lemma titles_apart rg o o' : offered_as rg o -> offered_as rg o' -> of_title o = of_title o' -> same_but_place (of_action o) (of_action o').
Proof.
  intros [x X _|t X _|t n X _|t w X T|i q X] [x' X' _|t' X' _|t' n' X' _|t' w' X' T'|i' q' X'];
    cbn [of_title of_action line_offer label_offer name_offer text_offer version_offer fst snd red_title]; intros E; try (constructor; fail);
    try (match type of E with context [red_title ?y] => destruct y; cbn in E; discriminate E end); try (cbn in E; discriminate E).
  - apply app_inv_head, ticked_inj in E. rewrite E. constructor.
  - apply app_inv_head, ticked_inj in E. rewrite E. constructor.
  - apply app_inv_head, ticked_inj in E. rewrite E. constructor.
  - apply app_inv_head, LspProofs.dec_injective in E. rewrite E. constructor.
Qed.
End result.

(* ------------------------------------------------------------------------------------------ *)
(* two words never touch *)
Definition word (t : token) : Prop := tok_t t = TokValue /\ starts_quote (tok_v t) = false.
Lemma words_apart l : forall c t u, sorted_from c l -> spaced l -> existsb is_eol l = false -> In t l -> In u l -> word t -> word u ->
  t = u \/ tok_e t < tok_b u \/ tok_e u < tok_b t.
Proof.
  induction l as [|x l IH]; intros c t u S P E It Iu Wt Wu; [destruct It|].
  cbn [sorted_from spaced existsb] in *. destruct S as [S1 S2]. destruct P as [P1 P2]. apply orb_false_iff in E. destruct E as [E1 E2].
  assert (G : forall y, In y l -> word x -> tok_e x < tok_b y).
  { intros y Iy [W1 W2]. destruct l as [|z l]; [destruct Iy|]. cbn [spaced_after existsb sorted_from] in *. apply orb_false_iff in E2. destruct E2 as [E2 _].
    specialize (P1 W1 W2 E2). destruct Iy as [<-|Iy]; [exact P1|]. pose proof (sorted_in _ _ _ (proj2 S2) Iy). lia. }
  destruct It as [<-|It], Iu as [<-|Iu]; auto.
  - exact (IH _ _ _ S2 P2 E2 It Iu Wt Wu).
Qed.
Lemma atoi_word a j : atoi a = Some j -> starts_quote a = false.
Proof.
  destruct a as [|c a]; [reflexivity|]. cbn [starts_quote]. destruct (Ascii.eqb_spec c c_quote) as [->|]; [|reflexivity].
  unfold atoi. intros H. vm_compute in H. discriminate H.
Qed.
Lemma in_words r t : (exists ln, nth_error (r_lines r) (tok_l t) = Some ln /\ In t ln) -> word t ->
  forall u, (exists ln, nth_error (r_lines r) (tok_l u) = Some ln /\ In u ln) -> word u ->
  forall en src rg, process en src = Ret r -> cursor rg -> touches rg t -> touches rg u -> t = u.
Proof.
  intros [l [Nt It]] Wt u [l' [Nu Iu]] Wu en src rg E [C1 C2] [lt [ct [A1 A2]]] [lu [cu [B1 B2]]].
  assert (Q : tok_l t = tok_l u). { unfold in_range, tok_range in *. cbn in *. lia. }
  rewrite Q in Nt. rewrite Nu in Nt. injection Nt as ->.
  destruct (lines_of_result _ _ _ E) as [A B C _]. pose proof (lines_at_nth _ _ _ _ A Nu) as [_ S]. rewrite Forall_forall in B, C.
  destruct (words_apart l 0 t u S (B l (nth_error_In _ _ Nu)) (C l (nth_error_In _ _ Nu)) It Iu Wt Wu) as [X|X]; [exact X|].
  exfalso. unfold in_range, tok_range in *. cbn in *. lia.
Qed.

Section places.
Variables (en : env) (src : str) (r : presult).
Hypothesis HP : process en src = Ret r.

Lemma named_word t n : names_field r t n -> (exists ln, nth_error (r_lines r) (tok_l t) = Some ln /\ In t ln) /\ word t.
Proof.
  intros (k & sp & j & s & (op & w1 & w2 & args & a & N & _) & _ & At & _).
  assert (I : In t (tl (op :: w1 ++ t :: w2))) by (cbn [tl]; apply in_or_app; right; left; reflexivity).
  split; [exists (op :: w1 ++ t :: w2); split; [exact N|right; exact I]|]. split; [|exact (atoi_word _ _ At)].
  pose proof (nth_error_In _ _ N) as Il. assert (J : In t (op :: w1 ++ t :: w2)) by (right; exact I).
  pose proof (no_eol _ _ _ HP t _ J Il) as X.
  destruct (lines_of_result _ _ _ HP) as [_ _ _ D]. rewrite Forall_forall in D. specialize (D _ Il). rewrite Forall_forall in D. specialize (D t I).
  destruct (tok_t t); congruence.
Qed.
Lemma decoded_word t w : decodes r t w -> (exists ln, nth_error (r_lines r) (tok_l t) = Some ln /\ In t ln) /\ word t.
Proof. intros (L & T & h & V & _). split; [exact L|]. split; [exact T|]. rewrite V. reflexivity. Qed.

Lemma titles_one rg o o' : cursor rg -> offered_as r rg o -> offered_as r rg o' -> of_title o = of_title o' -> of_action o = of_action o'.
Proof.
  intros C A A' T. pose proof (titles_apart r rg o o' A A' T) as S.
  destruct A as [x X Lx|t X _|t n X Tt|t w X Tt|i q X], A' as [x' X' Lx'|t' X' _|t' n' X' Tt'|t' w' X' Tt'|i' q' X'];
    cbn [of_action of_title line_offer label_offer name_offer text_offer version_offer fst snd] in *; try (inversion S; congruence); try (cbn in T; discriminate T).
  - f_equal. destruct C. lia.
  - destruct (named_word t n X) as [L W], (named_word t' n' X') as [L' W']. rewrite (in_words r t L W t' L' W' en src rg HP C Tt Tt').
    apply app_inv_head, ticked_inj in T. rewrite T. reflexivity.
  - destruct (decoded_word t w X) as [L W], (decoded_word t' w' X') as [L' W']. rewrite (in_words r t L W t' L' W' en src rg HP C Tt Tt').
    apply app_inv_head, ticked_inj in T. rewrite T. reflexivity.
Qed.
End places.
