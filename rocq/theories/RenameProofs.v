(* Renaming through the language server: proofs. *)
From Verif Require Import Base LexSpec Lexer LexerProofs LexerThms LexStatements DocLines DocProofs DocTokens Expr Linter Literals Strconv Codec OpTable Process ProcessSpec ProcessProofs ProcessRun ProcessLine ProcessDoc ProcessThms Semantics Query Lsp Edit RoundTripSpec RoundTripLex QueryProofs EditProofs RenameSpec.
From Coq Require Import Lia ZifyBool ZifyNat ZifyN Sorted.

(* ------------------------------------------------------------------------------------------ *)
(* the tokens of the lexer *)
Definition tok_fact (t : token) : Prop :=
  tok_b t < tok_e t /\
  (tok_t t = TokValue ->
     (starts_quote (tok_v t) = false -> tok_e t = tok_b t + length (tok_v t) /\ is_word (tok_v t) = true) /\
     (starts_quote (tok_v t) = true -> exists w, tok_v t = c_quote :: w ++ [c_quote])).

Lemma tok_facts s ps : Lexes s ps -> forall l c, Forall tok_fact (fst (layout l c ps)).
Proof.
  induction 1; intros l0 c0; cbn [layout fst]; try constructor; try apply IHLexes.
  - split; [cbn; lia|intros Q; discriminate Q].
  - split; [cbn; lia|intros Q; discriminate Q].
  - split; [cbn; lia|intros Q; discriminate Q].
  - split; [cbn; lia|intros Q; discriminate Q].
  - split; [cbn; lia|]. cbn [tok_t tok_v]. intros _. split; [intros Q; discriminate Q|]. intros _. eexists. reflexivity.
  - split; [cbn; lia|]. cbn [tok_t tok_v tok_b tok_e piece_text]. intros _. split.
    + intros _. split; [reflexivity|]. apply word_raw_ok; assumption.
    + cbn [starts_quote]. intros Q. apply Ascii.eqb_eq in Q. contradiction.
Qed.

Lemma lines_incl ts raw : Lines ts raw -> incl (concat raw) ts.
Proof.
  induction 1 as [|l N E|l t r ls E T L IH]; cbn [concat].
  - intros x [].
  - rewrite app_nil_r. apply incl_refl.
  - apply incl_app; [apply incl_appl; apply incl_refl|]. apply incl_appr. apply incl_tl. exact IH.
Qed.
Lemma code_concat raw : incl (concat (map code_of raw)) (concat raw).
Proof.
  induction raw as [|l raw IH]; [intros x []|]. cbn [map concat]. apply incl_app; [apply incl_appl; apply code_incl|apply incl_appr; exact IH].
Qed.
Lemma lines_tokens en src r : process en src = Ret r -> incl (concat (r_lines r)) (r_tokens r) /\ Forall tok_fact (r_tokens r).
Proof.
  intros E. destruct (process_result en src r E) as [ts [errs [raw [lds [T [L [A R]]]]]]].
  rewrite (ro_lines _ _ _ _ _ _ _ R), (ro_tokens _ _ _ _ _ _ _ R). split.
  - eapply incl_tran; [apply code_concat|apply lines_incl; exact L].
  - destruct (lexes_exists src) as [ps X]. rewrite (tokenize_spec _ _ X) in T. injection T as T.
    pose proof (tok_facts _ _ X 0 0) as Q. rewrite T in Q. exact Q.
Qed.

(* tokens in order *)
Definition before (a b : token) : Prop := tok_l a < tok_l b \/ (tok_l a = tok_l b /\ tok_b a < tok_b b /\ tok_e a <= tok_b b).
Lemma before_line i l : forall c, Forall (fun t => tok_l t = i) l -> sorted_from c l -> Forall tok_fact l -> StronglySorted before l.
Proof.
  induction l as [|t l IH]; intros c A S F; [constructor|]. cbn [sorted_from] in S. destruct S as [S1 S2].
  inversion A; inversion F; subst. constructor; [eapply IH; eassumption|]. apply Forall_forall. intros x I. right.
  split; [rewrite Forall_forall in *; match goal with H : forall x, In x l -> tok_l x = _ |- _ => rewrite (H x I) end; reflexivity|].
  pose proof (sorted_in _ _ _ S2 I). match goal with H : tok_fact t |- _ => destruct H as [B _] end. lia.
Qed.
Lemma before_lines ls : forall i, lines_at i ls -> Forall tok_fact (concat ls) -> StronglySorted before (concat ls).
Proof.
  induction ls as [|l ls IH]; intros i A F; [constructor|]. cbn [concat lines_at] in *. destruct A as [[A1 A2] A3].
  apply Forall_app in F. destruct F as [F1 F2]. apply SSorted_app; [eapply before_line; eassumption|eapply IH; eassumption|].
  intros x y X Y. left. apply in_concat in Y. destruct Y as [l' [Il Y]].
  destruct (lines_at_ge _ _ _ A3 Il) as [k [K1 [K2 _]]]. rewrite Forall_forall in *. rewrite (A1 x X), (K2 y Y). lia.
Qed.
Lemma before_inj ts a b : StronglySorted before ts -> In a ts -> In b ts -> tok_l a = tok_l b -> tok_b a = tok_b b -> a = b.
Proof.
  induction 1 as [|t ts S IH F]; intros Ia Ib L B; [destruct Ia|]. rewrite Forall_forall in F.
  destruct Ia as [<-|Ia], Ib as [<-|Ib]; [reflexivity| | |apply IH; assumption].
  - specialize (F _ Ib). unfold before in F. lia.
  - specialize (F _ Ia). unfold before in F. lia.
Qed.

(* ------------------------------------------------------------------------------------------ *)
(* the occurrences of a name *)
Definition def_of (n : str) (l : list token) : list token :=
  flat_map (fun d => if seqb (snd d) n then [fst d] else []) (defines l).
Definition ref_of (n : str) (l : list token) : list token := filter (fun t => seqb (tok_v t) n) (names_labels l).

Definition def_edit (old new : str) (t : token) : text_edit :=
  TextEdit (Range (Z.of_nat (tok_l t)) (Z.of_nat (tok_b t)) (Z.of_nat (tok_l t)) (Z.of_nat (tok_b t + length old))) new.
Definition ref_edit (new : str) (t : token) : text_edit := TextEdit (tok_range t) new.

Lemma filter_flat_map {A B} f (g : A -> list B) l : filter f (flat_map g l) = flat_map (fun x => filter f (g x)) l.
Proof. induction l as [|x l IH]; [reflexivity|]. cbn. rewrite filter_app, IH. reflexivity. Qed.

Lemma sym_edits en src r old new : process en src = Ret r ->
  map (fun s => TextEdit (name_range s) new) (sym_by_name r old) = map (def_edit old new) (flat_map (def_of old) (r_lines r)).
Proof.
  intros E. destruct (symbols_complete en src r E) as [S _]. unfold sym_by_name.
  assert (G : forall ss ds, map (fun s => (sy_name s, sy_l s, sy_b s, sy_e s)) ss = map (fun d : token * str => (snd d, tok_l (fst d), tok_b (fst d), tok_e (fst d))) ds ->
    map (fun s => TextEdit (name_range s) new) (filter (fun s => seqb (sy_name s) old) ss) =
    map (def_edit old new) (flat_map (fun d => if seqb (snd d) old then [fst d] else []) ds)).
  { induction ss as [|s ss IH]; intros [|d ds] Q; try discriminate Q; [reflexivity|]. cbn [map] in Q. injection Q as Q1 Q2 Q3 Q4 Q.
    cbn [filter flat_map]. rewrite <- Q1. destruct (seqb (sy_name s) old) eqn:N; cbn [map app]; rewrite (IH _ Q); [|reflexivity].
    f_equal. unfold name_range, def_edit. apply seqb_eq in N. rewrite N, Q2, Q3. reflexivity. }
  rewrite (G _ _ S). f_equal. unfold def_of. generalize (r_lines r). induction l as [|x l IH]; [reflexivity|].
  cbn [flat_map]. rewrite flat_map_app, IH. reflexivity.
Qed.
Lemma ref_edits en src r old : process en src = Ret r -> ref_by_name r old = flat_map (ref_of old) (r_lines r).
Proof.
  intros E. destruct (symbols_complete en src r E) as [_ [S _]]. unfold ref_by_name. rewrite S, filter_flat_map. reflexivity.
Qed.
Lemma rename_one_occ en src r old new : process en src = Ret r ->
  rename_one r new old = map (def_edit old new) (flat_map (def_of old) (r_lines r)) ++ map (ref_edit new) (flat_map (ref_of old) (r_lines r)).
Proof. intros E. unfold rename_one. rewrite (sym_edits _ _ _ _ _ E), (ref_edits _ _ _ _ E). reflexivity. Qed.

Lemma label_name_spec a n : label_name a = Some n -> a = n ++ bs ":".
Proof.
  unfold label_name. destruct (rev a) as [|c m] eqn:E; [discriminate|]. destruct (Ascii.eqb c ":") eqn:C; [|discriminate].
  intros H. injection H as <-. apply Ascii.eqb_eq in C. subst c. rewrite <- (rev_involutive a), E. reflexivity.
Qed.
Lemma label_name_of n : label_name (n ++ bs ":") = Some n.
Proof. unfold label_name. rewrite rev_app_distr. change (rev (bs ":")) with [":"%char]. cbn [app]. rewrite Ascii.eqb_refl, rev_involutive. reflexivity. Qed.

(* a definition is the first token of its line and a value *)
Lemma def_of_spec n l t : In t (def_of n l) ->
  exists r, l = t :: r /\ tok_t t <> TokComment /\ tok_v t = n ++ bs ":" /\ n <> [] /\ kind_of l = LLabel n.
Proof.
  unfold def_of, defines. destruct l as [|u r]; [intros []|]. destruct (kind_of (u :: r)) as [| |[|c m]| | |] eqn:K; try (intros []).
  cbn [flat_map snd fst app]. destruct (seqb (c :: m) n) eqn:N; [|intros []]. intros [<-|[]]. apply seqb_eq in N. subst n.
  exists r. split; [reflexivity|]. unfold kind_of in K. destruct (tok_t u); try discriminate K;
  (split; [discriminate|]; destruct (label_name (tok_v u)) as [m'|] eqn:L; [|destruct (seqb (tok_v u) (bs "#pragma")); [discriminate K|destruct (ops_get (tok_v u)); discriminate K]];
   injection K as ->; split; [apply label_name_spec; exact L|split; [discriminate|reflexivity]]).
Qed.
Lemma ref_of_spec n l t : In t (ref_of n l) -> In t (names_labels l) /\ In t (tl l) /\ tok_v t = n /\ exists p a, kind_of l = LOp p a.
Proof.
  unfold ref_of. intros H. apply filter_In in H. destruct H as [I N]. apply seqb_eq in N. split; [exact I|].
  split; [apply names_labels_tail; exact I|]. split; [exact N|].
  unfold names_labels in I. destruct l as [|u r]; [destruct I|]. destruct (kind_of (u :: r)) as [| | | |p a|]; try destruct I. eauto.
Qed.

(* ------------------------------------------------------------------------------------------ *)
(* assembling with renamed labels *)
Lemma rename_plain f e : uses e = [] -> label_def e = None -> rename_expr f e = e.
Proof.
  intros U D. destruct e; try reflexivity; try discriminate U; try discriminate D; unfold uses in U; cbn in U; subst; reflexivity.
Qed.
Lemma assemble_plain en v p : plain p -> forall args e rest, assemble en v p args = Some (e, rest) -> uses e = [] /\ label_def e = None.
Proof.
  induction p as [e0|n p IH|m n p IH|k n g IH|n g IH|n g IH|n g IH|n g IH]; cbn [plain assemble]; intros P args e rest H.
  - injection H as <- _. exact P.
  - exact (IH P _ _ _ H).
  - exact (IH P _ _ _ H).
  - destruct args as [|a args]; [discriminate H|]. destruct (operand en v k a args) as [[x r']|]; [|discriminate H]. cbn [obind fst snd] in H.
    exact (IH x (proj2 P x) _ _ _ H).
  - destruct args as [|a args]; [exact (IH _ (P _) _ _ _ H)|]. destruct (read_uint8 a) as [x|]; [|discriminate H]. cbn [obind] in H.
    exact (IH _ (P _) _ _ _ H).
  - destruct (all_ints args) as [x|]; [|discriminate H]. cbn [obind] in H. exact (IH _ (P _) _ _ _ H).
  - destruct (all_bytes en (length args) args) as [x|]; [|discriminate H]. cbn [obind] in H. exact (IH _ (P _) _ _ _ H).
  - destruct P.
Qed.
Lemma one_of_cases ns n : one_of ns n = true -> exists s, In s ns /\ n = bs s.
Proof. unfold one_of. intros H. apply existsb_exists in H. destruct H as [s [I E]]. apply seqb_eq in E. exists s. auto. Qed.
Lemma assemble_branch n p : one_of branch_names n = true -> ops_get n = Some p ->
  exists K, (forall en v, assemble en v p [] = None) /\ (forall en v a r, assemble en v p (a :: r) = Some (K a, r)) /\
    forall f a, rename_expr f (K a) = K (f a).
Proof.
  intros H G. destruct (one_of_cases _ _ H) as [s [I ->]]. cbn [branch_names In] in I.
  destruct I as [<-|[<-|[<-|[<-|[]]]]]; vm_compute in G; injection G as <-;
  [exists BExpr|exists BzExpr|exists BnzExpr|exists CallSubExpr]; repeat split; reflexivity.
Qed.
Lemma assemble_table n p : one_of table_names n = true -> ops_get n = Some p ->
  exists K, (forall en v args, assemble en v p args = Some (K args, [])) /\ forall f a, rename_expr f (K a) = K (map f a).
Proof.
  intros H G. destruct (one_of_cases _ _ H) as [s [I ->]]. cbn [table_names In] in I.
  destruct I as [<-|[<-|[]]]; vm_compute in G; injection G as <-; [exists SwitchExpr|exists MatchExpr]; repeat split; reflexivity.
Qed.

(* ------------------------------------------------------------------------------------------ *)
Section rename.
Variable en : env.
Variable src : str.
Variable r : presult.
Hypothesis HP : process en src = Ret r.
Hypothesis HQ : Forall (fun t => starts_quote (tok_v t) = false) (r_refs r).
Variables old new : str.
Hypothesis HW : is_word new = true.

Let defs := flat_map (def_of old) (r_lines r).
Let refs := flat_map (ref_of old) (r_lines r).
Let es := map (def_edit old new) defs ++ map (ref_edit new) refs.

Lemma rn_order : StronglySorted before (concat (r_lines r)).
Proof.
  destruct (lines_tokens _ _ _ HP) as [I F]. destruct (lines_of_result _ _ _ HP) as [A _ _ _]. apply (before_lines _ 0 A).
  rewrite Forall_forall in *. intros t It. apply F. apply I. exact It.
Qed.
Lemma in_line t l : In t l -> In l (r_lines r) -> In t (concat (r_lines r)).
Proof. intros A B. apply in_concat. exists l. auto. Qed.
Lemma fact_of t : In t (concat (r_lines r)) -> tok_fact t.
Proof. intros I. destruct (lines_tokens _ _ _ HP) as [J F]. rewrite Forall_forall in F. apply F. apply J. exact I. Qed.
Lemma no_eol t l : In t l -> In l (r_lines r) -> tok_t t <> TokEol.
Proof.
  intros A B. destruct (lines_of_result _ _ _ HP) as [_ _ C _]. rewrite Forall_forall in C. specialize (C l B).
  intros T. assert (existsb is_eol l = true); [|congruence]. apply existsb_exists. exists t. split; [exact A|]. unfold is_eol. rewrite T. reflexivity.
Qed.

Lemma def_in t : In t defs -> exists l, In l (r_lines r) /\ In t (def_of old l).
Proof. unfold defs. intros H. apply in_flat_map in H. exact H. Qed.
Lemma ref_in t : In t refs -> exists l, In l (r_lines r) /\ In t (ref_of old l).
Proof. unfold refs. intros H. apply in_flat_map in H. exact H. Qed.

Lemma def_fact t : In t defs -> In t (concat (r_lines r)) /\ tok_t t = TokValue /\ starts_quote (tok_v t) = false /\
  tok_v t = old ++ bs ":" /\ old <> [] /\ tok_e t = tok_b t + length (tok_v t).
Proof.
  intros H. destruct (def_in t H) as [l [Il It]]. destruct (def_of_spec _ _ _ It) as [w [E [C [V [N K]]]]].
  assert (Itl : In t l) by (rewrite E; left; reflexivity). pose proof (in_line _ _ Itl Il) as I. pose proof (no_eol _ _ Itl Il) as X.
  assert (T : tok_t t = TokValue) by (destruct (tok_t t); congruence).
  destruct (fact_of t I) as [_ F]. destruct (F T) as [F1 F2].
  assert (Q : starts_quote (tok_v t) = false).
  { destruct (starts_quote (tok_v t)) eqn:Q; [|reflexivity]. destruct (F2 eq_refl) as [v Ev]. rewrite V in Ev.
    change (c_quote :: v ++ [c_quote]) with ((c_quote :: v) ++ [c_quote]) in Ev. apply app_inj_tail in Ev. destruct Ev as [_ Ev]. discriminate Ev. }
  destruct (F1 Q) as [F3 _]. repeat split; assumption.
Qed.
Lemma ref_fact t : In t refs -> In t (concat (r_lines r)) /\ tok_t t = TokValue /\ starts_quote (tok_v t) = false /\
  tok_v t = old /\ tok_e t = tok_b t + length (tok_v t).
Proof.
  intros H. destruct (ref_in t H) as [l [Il It]]. destruct (ref_of_spec _ _ _ It) as [N [Tl [V _]]].
  assert (Itl : In t l) by (destruct l; [destruct Tl|right; exact Tl]). pose proof (in_line _ _ Itl Il) as I. pose proof (no_eol _ _ Itl Il) as X.
  assert (Y : tok_t t <> TokComment). { destruct (lines_of_result _ _ _ HP) as [_ _ _ C]. rewrite Forall_forall in C. specialize (C l Il). rewrite Forall_forall in C. exact (C t Tl). }
  assert (T : tok_t t = TokValue) by (destruct (tok_t t); congruence).
  assert (Q : starts_quote (tok_v t) = false).
  { rewrite Forall_forall in HQ. apply HQ. destruct (symbols_complete _ _ _ HP) as [_ [-> _]]. apply in_flat_map. exists l. auto. }
  destruct (fact_of t I) as [_ F]. destruct (F T) as [F1 F2]. destruct (F1 Q) as [F3 _]. repeat split; assumption.
Qed.

(* definitions and references are different tokens *)
Lemma line_index k l : nth_error (r_lines r) k = Some l -> forall t, In t l -> tok_l t = k.
Proof.
  intros N t I. destruct (lines_of_result _ _ _ HP) as [A _ _ _]. pose proof (lines_at_nth _ _ _ _ A N) as [Q _]. rewrite Forall_forall in Q. rewrite (Q t I). reflexivity.
Qed.
Lemma same_line t l t' l' : In t l -> In l (r_lines r) -> In t' l' -> In l' (r_lines r) -> tok_l t = tok_l t' -> l = l'.
Proof.
  intros A B C D E. apply In_nth_error in B, D. destruct B as [k B], D as [k' D].
  rewrite (line_index _ _ B _ A), (line_index _ _ D _ C) in E. subst k'. congruence.
Qed.
Lemma def_not_ref t l : In l (r_lines r) -> In t l -> In t defs -> forall t', In t' l -> In t' refs -> False.
Proof.
  intros Il It Hd t' It' Hr. destruct (def_in _ Hd) as [m [Im Dm]]. destruct (ref_in _ Hr) as [m' [Im' Rm']].
  destruct (def_of_spec _ _ _ Dm) as [w [E [_ [_ [_ K]]]]]. destruct (ref_of_spec _ _ _ Rm') as [_ [Tl [_ [p [a K']]]]].
  assert (m = l) as -> by (apply (same_line t m t l); auto; rewrite E; left; reflexivity).
  assert (m' = l) as -> by (apply (same_line t' m' t' l); auto; destruct m'; [destruct Tl|right; exact Tl]).
  congruence.
Qed.

(* lists of tokens in order *)
Lemma before_sub (f : list token -> list token) : (forall l, In l (r_lines r) -> StronglySorted before (f l) /\ incl (f l) l) ->
  StronglySorted before (flat_map f (r_lines r)).
Proof.
  intros H. destruct (lines_of_result _ _ _ HP) as [At _ _ _]. revert At H. generalize 0. generalize (r_lines r).
  induction l as [|x l IH]; intros i At H; [constructor|]. cbn [flat_map lines_at] in *. destruct At as [[A1 _] A2].
  apply SSorted_app; [apply H; left; reflexivity|eapply IH; [exact A2|intros y Y; apply H; right; exact Y]|].
  intros a b Ia Ib. left. apply in_flat_map in Ib. destruct Ib as [m [Im Ib]]. destruct (lines_at_ge _ _ _ A2 Im) as [k [K1 [K2 _]]].
  rewrite Forall_forall in *. rewrite (A1 a), (K2 b); [lia| |].
  - apply (proj2 (H m (or_intror Im))). exact Ib.
  - apply (proj2 (H x (or_introl eq_refl))). exact Ia.
Qed.
Lemma defs_order : StronglySorted before defs.
Proof.
  unfold defs. apply before_sub. intros l Il. split.
  - unfold def_of, defines. destruct l as [|u w]; [constructor|]. destruct (kind_of (u :: w)) as [| |[|c m]| | |]; try constructor.
    cbn [flat_map fst snd app]. destruct (seqb _ _); repeat constructor.
  - intros t It. destruct (def_of_spec _ _ _ It) as [w [-> _]]. left. reflexivity.
Qed.
Lemma refs_order : StronglySorted before refs.
Proof.
  unfold refs. apply before_sub. intros l Il. split.
  - unfold ref_of. apply SSorted_filter. assert (S : StronglySorted before l).
    { pose proof rn_order as O. revert O Il. generalize (r_lines r). induction l0 as [|x l0 IH]; intros O I; [destruct I|]. cbn [concat] in O.
      assert (G : forall a b, StronglySorted before (a ++ b) -> StronglySorted before a /\ StronglySorted before b).
      { induction a as [|y a IHa]; intros b Q; [split; [constructor|exact Q]|]. inversion Q as [|? ? Q1 Q2]; subst. apply Forall_app in Q2. destruct (IHa _ Q1). split; [constructor; tauto|tauto]. }
      destruct (G _ _ O). destruct I as [->|I]; [assumption|apply IH; assumption]. }
    unfold names_labels. destruct l as [|u w]; [constructor|]. destruct (kind_of (u :: w)); try constructor. inversion S; subst.
    destruct (one_of branch_names (tok_v u)); [destruct w; repeat constructor|]. destruct (one_of table_names (tok_v u)); [assumption|constructor].
  - intros t It. destruct (ref_of_spec _ _ _ It) as [_ [Tl _]]. destruct l; [destruct Tl|right; exact Tl].
Qed.

Definition start_of (t : token) : Z * Z := (Z.of_nat (tok_l t), Z.of_nat (tok_b t)).
Lemma starts_nodup ts : StronglySorted before ts -> NoDup (map start_of ts).
Proof.
  induction 1 as [|t ts S IH F]; [constructor|]. cbn [map]. constructor; [|exact IH]. intros I. apply in_map_iff in I.
  destruct I as [x [E I]]. rewrite Forall_forall in F. specialize (F x I). unfold start_of, before in *. injection E as E1 E2. lia.
Qed.
Lemma nodup_app {A} (a b : list A) : NoDup a -> NoDup b -> (forall x, In x a -> ~ In x b) -> NoDup (a ++ b).
Proof.
  induction a as [|x a IH]; intros H1 H2 H; [exact H2|]. inversion H1; subst. cbn. constructor.
  - rewrite in_app_iff. intros [I|I]; [contradiction|exact (H x (or_introl eq_refl) I)].
  - apply IH; [assumption|assumption|]. intros y Y. apply H. right. exact Y.
Qed.
Lemma es_starts : map e_start es = map start_of defs ++ map start_of refs.
Proof. unfold es. rewrite map_app, !map_map. reflexivity. Qed.
Lemma es_nodup : NoDup (map e_start es).
Proof.
  rewrite es_starts. apply nodup_app; [apply starts_nodup, defs_order|apply starts_nodup, refs_order|].
  intros x Ia Ib. apply in_map_iff in Ia, Ib. destruct Ia as [t [<- It]], Ib as [t' [E It']].
  unfold start_of in E. injection E as E1 E2. apply Nat2Z.inj in E1, E2.
  destruct (def_in _ It) as [m [Im Dm]]. destruct (def_of_spec _ _ _ Dm) as [w [Em _]].
  assert (t' = t) as ->.
  { apply (before_inj _ t' t rn_order); [apply ref_fact|apply def_fact| |]; assumption. }
  assert (In t m) by (rewrite Em; left; reflexivity). apply (def_not_ref t m Im) with (t' := t); assumption.
Qed.

Lemma word_colon : is_word (new ++ bs ":") = true.
Proof.
  destruct (word_chars _ HW) as [c [w [E [A [B C]]]]]. rewrite E. cbn [app]. apply word_raw_ok; [exact A| |].
  - intros w' Q. injection Q as -> Q. destruct w as [|d w]; [discriminate Q|]. cbn in Q. injection Q as -> Q. exact (B w eq_refl).
  - change (c :: w ++ bs ":") with ((c :: w) ++ bs ":"). apply Forall_app. split; [exact C|]. repeat constructor. intros [[Q|Q]|[Q|Q]]; discriminate Q.
Qed.

Lemma es_tokens : Forall (on_token (r_tokens r)) es.
Proof.
  destruct (lines_tokens _ _ _ HP) as [Inc _]. unfold es. apply Forall_app. split; apply Forall_map, Forall_forall; intros t I.
  - destruct (def_fact t I) as [A [B [C [D [N E]]]]]. exists t. split; [apply Inc; exact A|]. split; [exact B|]. split; [exact C|].
    unfold def_edit, width, starts_at. cbn [te_range r_sl r_sc r_el r_ec te_text].
    replace (Z.to_nat (Z.of_nat (tok_b t + length old) - Z.of_nat (tok_b t))) with (length old) by lia.
    assert (0 < length old) by (destruct old; [congruence|cbn; lia]).
    split; [lia|]. split; [reflexivity|]. split; [lia|]. rewrite D, app_length. split; [lia|].
    rewrite skipn_app, skipn_all, Nat.sub_diag. cbn [skipn app]. left. exact word_colon.
  - destruct (ref_fact t I) as [A [B [C [D E]]]]. exists t. split; [apply Inc; exact A|]. split; [exact B|]. split; [exact C|].
    pose proof (proj1 (fact_of t A)) as W.
    unfold ref_edit, width, starts_at, tok_range. cbn [te_range r_sl r_sc r_el r_ec te_text].
    replace (Z.to_nat (Z.of_nat (tok_e t) - Z.of_nat (tok_b t))) with (length (tok_v t)) by lia.
    split; [lia|]. split; [reflexivity|]. split; [lia|]. split; [lia|].
    rewrite skipn_all, app_nil_r. left. exact HW.
Qed.

Lemma new_text_at t e : In e es -> starts_at (tok_l t) (tok_b t) e = true ->
  new_text es t = piece_tok (retext (te_text e ++ skipn (width e) (tok_v t))).
Proof. intros I S. unfold new_text. rewrite (unique_start es _ _ e es_nodup I S). reflexivity. Qed.

Lemma new_def t : In t defs -> new_text es t = new ++ bs ":".
Proof.
  intros I. destruct (def_fact t I) as [A [B [C [D [N E]]]]]. rewrite (new_text_at t (def_edit old new t)).
  - unfold def_edit, width. cbn [te_range r_sl r_sc r_el r_ec te_text].
    replace (Z.to_nat (Z.of_nat (tok_b t + length old) - Z.of_nat (tok_b t))) with (length old) by lia.
    rewrite D, skipn_app, skipn_all, Nat.sub_diag. cbn [skipn app]. rewrite (retext_word _ word_colon). reflexivity.
  - unfold es. apply in_or_app. left. apply in_map. exact I.
  - unfold starts_at, def_edit. cbn [te_range r_sl r_sc]. lia.
Qed.
Lemma new_ref t : In t refs -> new_text es t = new.
Proof.
  intros I. destruct (ref_fact t I) as [A [B [C [D E]]]]. rewrite (new_text_at t (ref_edit new t)).
  - unfold ref_edit, width, tok_range. cbn [te_range r_sl r_sc r_el r_ec te_text].
    replace (Z.to_nat (Z.of_nat (tok_e t) - Z.of_nat (tok_b t))) with (length (tok_v t)) by lia.
    rewrite skipn_all, app_nil_r, (retext_word _ HW). reflexivity.
  - unfold es. apply in_or_app. right. apply in_map. exact I.
  - unfold starts_at, ref_edit, tok_range. cbn [te_range r_sl r_sc]. lia.
Qed.
Lemma new_other t : In t (concat (r_lines r)) -> ~ In t defs -> ~ In t refs -> new_text es t = tok_v t.
Proof.
  intros I Nd Nr. unfold new_text. rewrite filter_none; [reflexivity|]. intros e Ie. apply starts_false. intros [S1 S2].
  unfold es in Ie. apply in_app_or in Ie. destruct Ie as [Ie|Ie]; apply in_map_iff in Ie; destruct Ie as [x [<- Ix]]; cbn in S1, S2.
  - apply Nd. replace t with x; [exact Ix|]. apply (before_inj _ x t rn_order); [apply def_fact; exact Ix|exact I|lia|lia].
  - apply Nr. replace t with x; [exact Ix|]. apply (before_inj _ x t rn_order); [apply ref_fact; exact Ix|exact I|lia|lia].
Qed.

(* ---------------------------------------------------------------- one line *)
Let f := ren old new.

Lemma new_name l t : In l (r_lines r) -> In t (names_labels l) -> new_text es t = f (tok_v t).
Proof.
  intros Il It. unfold f, ren. destruct (seqb (tok_v t) old) eqn:E.
  - apply new_ref. unfold refs. apply in_flat_map. exists l. split; [exact Il|]. apply filter_In. auto.
  - pose proof (names_labels_incl _ _ It) as I. apply new_other; [exact (in_line _ _ I Il)| |].
    + intros D. destruct (def_in _ D) as [m [Im Dm]]. destruct (def_of_spec _ _ _ Dm) as [w [Em [_ [_ [_ K]]]]].
      assert (m = l) as -> by (apply (same_line t m t l); auto; rewrite Em; left; reflexivity).
      unfold names_labels in It. rewrite K in It. destruct l; destruct It.
    + intros R. destruct (ref_fact _ R) as [_ [_ [_ [V _]]]]. rewrite V in E. rewrite (proj2 (seqb_eq old old) eq_refl) in E. discriminate E.
Qed.
(* the other tokens of a line keep their text *)
Lemma keeps l t : In l (r_lines r) -> In t l -> ~ In t (names_labels l) -> defines l = [] -> new_text es t = tok_v t.
Proof.
  intros Il It Nn Nd. apply new_other; [exact (in_line _ _ It Il)| |].
  - intros D. destruct (def_in _ D) as [m [Im Dm]]. destruct (def_of_spec _ _ _ Dm) as [w [Em _]].
    assert (m = l) as -> by (apply (same_line t m t l); auto; rewrite Em; left; reflexivity).
    unfold def_of in Dm. rewrite Nd in Dm. destruct Dm.
  - intros R. destruct (ref_in _ R) as [m [Im Rm]]. destruct (ref_of_spec _ _ _ Rm) as [N [Tl _]].
    assert (m = l) as -> by (apply (same_line t m t l); auto; destruct m; [destruct Tl|right; exact Tl]). contradiction.
Qed.

Lemma texts_new l l' : Forall2 (edited_tok es) l l' -> texts l' = map (new_text es) l.
Proof. induction 1 as [|t t' l l' [_ [_ H]] F IH]; [reflexivity|]. unfold texts in *. cbn [map]. congruence. Qed.

Lemma line_order l : In l (r_lines r) -> StronglySorted before l.
Proof.
  intros Il. pose proof rn_order as O. revert O Il. generalize (r_lines r). induction l0 as [|x l0 IH]; intros O I; [destruct I|]. cbn [concat] in O.
  assert (G : forall a b, StronglySorted before (a ++ b) -> StronglySorted before a /\ StronglySorted before b).
  { induction a as [|y a IHa]; intros b Q; [split; [constructor|exact Q]|]. inversion Q as [|? ? Q1 Q2]; subst. apply Forall_app in Q2. destruct (IHa _ Q1). split; [constructor; tauto|tauto]. }
  destruct (G _ _ O). destruct I as [->|I]; [assumption|apply IH; assumption].
Qed.
Lemma first_not_name t w : In (t :: w) (r_lines r) -> ~ In t (names_labels (t :: w)).
Proof.
  intros Il I. apply names_labels_tail in I. cbn [tl] in I. pose proof (line_order _ Il) as S. inversion S as [|? ? _ F]; subst.
  rewrite Forall_forall in F. specialize (F t I). unfold before in F. lia.
Qed.

Record renamed (l l' : list token) : Prop := {
  rn_entries : forall v, entries en v l' = map (rename_expr f) (entries en v l);
  rn_version : forall v, version_after v l' = version_after v l;
  rn_surplus : forall v, surplus en v l' = surplus en v l;
  rn_refs : map tok_v (names_labels l') = map f (map tok_v (names_labels l));
  rn_defs : map snd (defines l') = map f (map snd (defines l)) }.

Lemma map_keep l w w' : In l (r_lines r) -> (forall t, In t w -> In t l) -> defines l = [] -> (forall t, In t w -> ~ In t (names_labels l)) ->
  Forall2 (edited_tok es) w w' -> texts w' = texts w.
Proof.
  intros Il S D N F. rewrite (texts_new _ _ F). apply map_ext_in. intros t It. apply (keeps l); auto.
Qed.
Lemma map_names l w w' : In l (r_lines r) -> (forall t, In t w -> In t (names_labels l)) ->
  Forall2 (edited_tok es) w w' -> texts w' = map f (texts w).
Proof.
  intros Il S F. rewrite (texts_new _ _ F). unfold texts. rewrite map_map. apply map_ext_in. intros t It. apply (new_name l); auto.
Qed.

Lemma f_new : f old = new. Proof. unfold f, ren. rewrite (proj2 (seqb_eq old old) eq_refl). reflexivity. Qed.

Lemma line_renamed l l' : In l (r_lines r) -> Forall2 (edited_tok es) l l' -> renamed l l'.
Proof.
  intros Il F. destruct F as [|t t' w w' [T [_ V]] F].
  { constructor; reflexivity. }
  pose proof (first_not_name t w Il) as Nf.
  destruct (kind_of (t :: w)) as [| |[|c m]| | |] eqn:K.
  - (* blank *) unfold kind_of in K. destruct (tok_t t); [| |discriminate K]; destruct (label_name _); try discriminate K; destruct (seqb _ _); try discriminate K; destruct (ops_get _); discriminate K.
  - (* comment *)
    assert (D : defines (t :: w) = []) by (unfold defines; rewrite K; reflexivity).
    rewrite (keeps _ _ Il (in_eq t w) Nf D) in V.
    assert (K' : kind_of (t' :: w') = LComment w0).
    { unfold kind_of in *. rewrite T, V. destruct (tok_t t); [| |exact K]; destruct (label_name _); try discriminate K; destruct (seqb _ _); try discriminate K; destruct (ops_get _); discriminate K. }
    constructor; intros; unfold entries, version_after, surplus, names_labels, defines; rewrite K, K'; reflexivity.
  - (* nameless label *)
    assert (D : defines (t :: w) = []) by (unfold defines; rewrite K; reflexivity).
    rewrite (keeps _ _ Il (in_eq t w) Nf D) in V.
    assert (K' : kind_of (t' :: w') = LLabel []).
    { unfold kind_of in *. rewrite T, V. destruct (tok_t t); [| |discriminate K]; destruct (label_name _); try exact K; destruct (seqb _ _); try discriminate K; destruct (ops_get _); discriminate K. }
    constructor; intros; unfold entries, version_after, surplus, names_labels, defines; rewrite K, K'; reflexivity.
  - (* label *)
    assert (K' : kind_of (t' :: w') = LLabel (f (c :: m))).
    { assert (L : tok_t t <> TokComment /\ label_name (tok_v t) = Some (c :: m)).
      { unfold kind_of in K. destruct (tok_t t); [| |discriminate K]; (split; [discriminate|]); destruct (label_name _); try (injection K as ->; reflexivity); destruct (seqb _ _); try discriminate K; destruct (ops_get _); discriminate K. }
      destruct L as [L1 L2]. apply label_name_spec in L2.
      assert (Lf : label_name (tok_v t') = Some (f (c :: m))).
      { rewrite V. unfold f, ren. destruct (seqb (c :: m) old) eqn:E.
        - rewrite new_def; [apply label_name_of|]. unfold defs. apply in_flat_map. exists (t :: w). split; [exact Il|].
          unfold def_of, defines. rewrite K. cbn [flat_map snd]. rewrite E. left. reflexivity.
        - rewrite new_other; [rewrite L2; apply label_name_of|exact (in_line t (t :: w) (or_introl eq_refl) Il)| |].
          + intros Q. destruct (def_fact _ Q) as [_ [_ [_ [Q1 _]]]]. rewrite L2 in Q1. apply app_inv_tail in Q1. rewrite Q1, (proj2 (seqb_eq old old) eq_refl) in E. discriminate E.
          + intros Q. destruct (ref_in _ Q) as [u [Iu Ru]]. destruct (ref_of_spec _ _ _ Ru) as [_ [Tl [_ [p [a Ku]]]]].
            assert (u = t :: w) as -> by (apply (same_line t u t (t :: w)); auto; [destruct u; [destruct Tl|right; exact Tl]|left; reflexivity]). congruence. }
      unfold kind_of. rewrite T, Lf. destruct (tok_t t); [reflexivity|reflexivity|congruence]. }
    assert (Ne : exists d k, f (c :: m) = d :: k).
    { unfold f, ren. destruct (seqb (c :: m) old); [|eauto]. destruct new as [|d k]; [discriminate HW|eauto]. }
    destruct Ne as [d [k Ne]].
    constructor; intros; unfold entries, version_after, surplus, names_labels, defines; rewrite K, K', ?Ne; cbn [map rename_expr snd fst]; rewrite ?Ne; reflexivity.
  - (* pragma *)
    assert (D : defines (t :: w) = []) by (unfold defines; rewrite K; reflexivity).
    assert (Nn : names_labels (t :: w) = []) by (unfold names_labels; rewrite K; reflexivity).
    rewrite (keeps _ _ Il (in_eq t w) Nf D) in V.
    assert (W : texts w' = texts w) by (apply (map_keep (t :: w)); auto; [intros x X; right; exact X|intros x _; rewrite Nn; intros []]).
    assert (K' : kind_of (t' :: w') = LPragma args).
    { unfold kind_of in *. rewrite T, V, W. destruct (tok_t t); [| |discriminate K]; destruct (label_name _); try discriminate K; destruct (seqb _ _); try exact K; destruct (ops_get _); discriminate K. }
    constructor; intros; unfold entries, version_after, surplus, names_labels, defines; rewrite K, K'; try reflexivity.
    destruct (pragma_version args); reflexivity.
  - (* instruction *)
    assert (D : defines (t :: w) = []) by (unfold defines; rewrite K; reflexivity).
    rewrite (keeps _ _ Il (in_eq t w) Nf D) in V.
    assert (G : ops_get (tok_v t) = Some p /\ args = texts w /\ kind_of (t' :: w') = LOp p (texts w')).
    { unfold kind_of in *. rewrite T, V. destruct (tok_t t); [| |discriminate K]; destruct (label_name _); try discriminate K; destruct (seqb _ _); try discriminate K; destruct (ops_get _); try discriminate K; injection K as -> <-; auto. }
    destruct G as [G [-> K']]. pose proof (ops_kind _ _ G) as Ok.
    destruct (one_of branch_names (tok_v t)) eqn:Br; [|destruct (one_of table_names (tok_v t)) eqn:Ta].
    + destruct (assemble_branch _ _ Br G) as [Kx [A0 [A1 A2]]].
      assert (Nn : names_labels (t :: w) = firstn 1 w) by (unfold names_labels; rewrite K, Br; reflexivity).
      assert (Nn' : names_labels (t' :: w') = firstn 1 w') by (unfold names_labels; rewrite K', V, Br; reflexivity).
      destruct F as [|a a' w w' [Ta [_ Va]] F].
      * constructor; intros; unfold entries, version_after, surplus, defines; rewrite ?Nn, ?Nn', ?K, ?K'; cbn [texts map]; rewrite ?A0; reflexivity.
      * assert (Ea : tok_v a' = f (tok_v a)) by (rewrite Va; apply (new_name (t :: a :: w)); [exact Il|rewrite Nn; left; reflexivity]).
        constructor; intros; unfold entries, version_after, surplus, defines; rewrite ?Nn, ?Nn', ?K, ?K'; cbn [texts map firstn]; rewrite ?A1, ?Ea; try reflexivity.
        -- destruct F; cbn [map texts]; rewrite ?A2; reflexivity.
        -- destruct F; reflexivity.
    + destruct (assemble_table _ _ Ta G) as [Kx [A1 A2]].
      assert (Nn : names_labels (t :: w) = w) by (unfold names_labels; rewrite K, Br, Ta; reflexivity).
      assert (Nn' : names_labels (t' :: w') = w') by (unfold names_labels; rewrite K', V, Br, Ta; reflexivity).
      assert (W : texts w' = map f (texts w)) by (apply (map_names (t :: w)); auto; rewrite Nn; auto).
      constructor; intros; unfold entries, version_after, surplus, defines; rewrite ?Nn, ?Nn', ?K, ?K', ?A1; try reflexivity.
      * cbn [map]. rewrite A2, W. reflexivity.
      * exact W.
    + assert (Nn : names_labels (t :: w) = []) by (unfold names_labels; rewrite K, Br, Ta; reflexivity).
      assert (Nn' : names_labels (t' :: w') = []) by (unfold names_labels; rewrite K', V, Br, Ta; reflexivity).
      assert (W : texts w' = texts w) by (apply (map_keep (t :: w)); auto; [intros x X; right; exact X|intros x _; rewrite Nn; intros []]).
      constructor; intros; unfold entries, version_after, surplus, defines; rewrite ?Nn, ?Nn', ?K, ?K', ?W; try reflexivity.
      destruct (assemble en v p (texts w)) as [[e [|x y]]|] eqn:A; cbn [map rename_expr]; try reflexivity;
        destruct (assemble_plain _ _ _ Ok _ _ _ A) as [U L]; rewrite (rename_plain f e U L); reflexivity.
  - (* unknown *)
    assert (D : defines (t :: w) = []) by (unfold defines; rewrite K; reflexivity).
    rewrite (keeps _ _ Il (in_eq t w) Nf D) in V.
    assert (K' : kind_of (t' :: w') = LUnknown).
    { unfold kind_of in *. rewrite T, V. destruct (tok_t t); [| |discriminate K]; destruct (label_name _); try discriminate K; destruct (seqb _ _); try discriminate K; destruct (ops_get _); try discriminate K; reflexivity. }
    constructor; intros; unfold entries, version_after, surplus, names_labels, defines; rewrite K, K'; reflexivity.
Qed.

(* ---------------------------------------------------------------- the document *)
Lemma lines_renamed ls ls' : incl ls (r_lines r) -> Forall2 (Forall2 (edited_tok es)) ls ls' -> Forall2 renamed ls ls'.
Proof.
  intros I F. induction F as [|l l' ls ls' H F IH]; [constructor|]. constructor.
  - apply line_renamed; [apply I; left; reflexivity|exact H].
  - apply IH. intros x X. apply I. right. exact X.
Qed.
Lemma all_renamed ls ls' : Forall2 renamed ls ls' -> forall v,
  all_entries en v ls' = map (rename_expr f) (all_entries en v ls) /\ all_surplus en v ls' = all_surplus en v ls /\
  map tok_v (flat_map names_labels ls') = map f (map tok_v (flat_map names_labels ls)) /\
  map snd (flat_map defines ls') = map f (map snd (flat_map defines ls)).
Proof.
  induction 1 as [|l l' ls ls' H F IH]; intros v; [repeat split|]. destruct (IH (version_after v l)) as [A [B [C D]]].
  cbn [all_entries all_surplus flat_map]. rewrite (rn_version _ _ H), A, B, (rn_entries _ _ H), (rn_surplus _ _ H), !map_app, C, D, (rn_refs _ _ H), (rn_defs _ _ H). auto.
Qed.

Variable ps : list piece.
Hypothesis HL : Lexes src ps.
Hypothesis HO : strings_on_one_line ps.

Theorem rename_listing r' : process en (apply_edits es src) = Ret r' ->
  r_listing r' = map (rename_expr f) (r_listing r) /\
  map tok_v (r_refs r') = map f (map tok_v (r_refs r)) /\ map sy_name (r_syms r') = map f (map sy_name (r_syms r)).
Proof.
  intros P'. pose proof (edit_result en src ps r es r' HL HO HP es_nodup es_tokens P') as F.
  pose proof (lines_renamed _ _ (incl_refl _) F) as G. destruct (all_renamed _ _ G 1%N) as [A [_ [C D]]].
  destruct (process_result en _ r HP) as [ts1 [errs1 [raw1 [lds1 [_ [_ [_ R1]]]]]]].
  destruct (process_result en _ r' P') as [ts2 [errs2 [raw2 [lds2 [_ [_ [_ R2]]]]]]].
  destruct (symbols_complete _ _ _ HP) as [S1 [E1 _]]. destruct (symbols_complete _ _ _ P') as [S2 [E2 _]].
  rewrite (ro_listing _ _ _ _ _ _ _ R1), (ro_listing _ _ _ _ _ _ _ R2), E1, E2. split; [exact A|]. split; [exact C|].
  apply (f_equal (map (fun x => fst (fst (fst x))))) in S1, S2. rewrite !map_map in S1, S2. cbn [fst] in S1, S2.
  change (map (fun s => sy_name s) (r_syms r)) with (map sy_name (r_syms r)) in S1. change (map (fun s => sy_name s) (r_syms r')) with (map sy_name (r_syms r')) in S2.
  rewrite S1, S2. exact D.
Qed.

Theorem rename_returns : filter is_surplus_diag (r_diag r) = [] -> exists r', process en (apply_edits es src) = Ret r'.
Proof.
  intros Z. destruct (edit_lines en src ps r es HL HO HP es_nodup es_tokens) as [ts' [errs' [raw' [T [L F]]]]].
  pose proof (lines_renamed _ _ (incl_refl _) F) as G. destruct (all_renamed _ _ G 1%N) as [_ [B _]].
  apply (process_returns en _ _ _ _ T L). rewrite B. pose proof (result_surplus en src r HP) as Q. rewrite Z in Q. cbn in Q. lia.
Qed.

(* ---------------------------------------------------------------- the edits *)
Lemma es_token e : In e es -> exists t, In t (concat (r_lines r)) /\ tok_t t = TokValue /\ starts_quote (tok_v t) = false /\
  r_sl (te_range e) = Z.of_nat (tok_l t) /\ r_el (te_range e) = Z.of_nat (tok_l t) /\ r_sc (te_range e) = Z.of_nat (tok_b t) /\
  r_ec (te_range e) = Z.of_nat (tok_b t + length old) /\ (r_ec (te_range e) <= Z.of_nat (tok_e t))%Z /\ exists w, tok_v t = old ++ w.
Proof.
  unfold es. intros I. apply in_app_or in I. destruct I as [I|I]; apply in_map_iff in I; destruct I as [t [<- It]]; exists t.
  - destruct (def_fact t It) as [A [B [C [D [N E]]]]]. cbn [def_edit te_range r_sl r_el r_sc r_ec].
    repeat split; auto; [rewrite E, D, app_length; lia|]. exists (bs ":"). exact D.
  - destruct (ref_fact t It) as [A [B [C [D E]]]]. cbn [ref_edit te_range r_sl r_el r_sc r_ec tok_range]. rewrite D in E.
    repeat split; auto; try (rewrite E; reflexivity); try lia. exists []. rewrite app_nil_r. exact D.
Qed.

Lemma sorted_pairs ts a b : StronglySorted before ts -> In a ts -> In b ts -> a = b \/ before a b \/ before b a.
Proof.
  induction 1 as [|t ts S IH F]; intros Ia Ib; [destruct Ia|]. rewrite Forall_forall in F.
  destruct Ia as [<-|Ia], Ib as [<-|Ib]; auto.
Qed.
Lemma es_separate : ForallOrdPairs (fun a b => separate (te_range a) (te_range b)) es.
Proof.
  assert (G : forall l, incl l es -> NoDup (map e_start l) -> ForallOrdPairs (fun a b => separate (te_range a) (te_range b)) l).
  { induction l as [|e l IH]; intros I N; [constructor|]. cbn [map] in N. inversion N as [|? ? N1 N2]; subst. constructor.
    - apply Forall_forall. intros e' Ie'.
      destruct (es_token e (I _ (or_introl eq_refl))) as [t [It [_ [_ [A1 [A2 [A3 [_ [A4 _]]]]]]]]].
      destruct (es_token e' (I _ (or_intror Ie'))) as [t' [It' [_ [_ [B1 [B2 [B3 [_ [B4 _]]]]]]]]].
      unfold separate. destruct (sorted_pairs _ _ _ rn_order It It') as [Q|[Q|Q]]; [|unfold before in Q; lia|unfold before in Q; lia].
      exfalso. subst t'. apply N1. apply in_map_iff. exists e'. split; [unfold e_start; congruence|exact Ie'].
    - apply IH; [intros x X; apply I; right; exact X|exact N2]. }
  apply G; [apply incl_refl|exact es_nodup].
Qed.
Lemma es_covers ps0 ls e : Lexes src ps0 -> strings_on_one_line ps0 -> lines_of src ls -> In e es ->
  covers ls (te_range e) old.
Proof.
  intros L O Ls I. destruct (es_token e I) as [t [It [T [Q [A1 [A2 [A3 [A4 [_ [w V]]]]]]]]]].
  destruct (process_result en src r HP) as [ts [errs [raw [lds [Tk [_ [_ R]]]]]]].
  destruct (tokens_on_lines _ _ _ _ _ L O Tk Ls) as [_ H].
  assert (In t ts) as Ts by (rewrite <- (ro_tokens _ _ _ _ _ _ _ R); apply (lines_tokens _ _ _ HP); exact It).
  destruct (H t Ts ltac:(congruence)) as [line [pre [rw [post [N [El [Eb [_ Tt]]]]]]]].
  assert (rw = tok_v t) as ->.
  { unfold token_text in Tt. rewrite T in Tt. destruct Tt as [[Tt _]|[w' [v [_ [_ Tt]]]]]; [auto|]. rewrite Tt in Q. discriminate Q. }
  exists (tok_l t), line, pre, (w ++ post). split; [exact N|]. split; [rewrite El, V, <- app_assoc; reflexivity|].
  destruct (te_range e) as [a b c d]. cbn in *. rewrite app_length. f_equal; lia.
Qed.
End rename.


(* ------------------------------------------------------------------------------------------ *)
(* the name at a position *)
Lemma sym_spec en src r s : process en src = Ret r -> In s (r_syms r) ->
  exists t w, In (t :: w) (r_lines r) /\ kind_of (t :: w) = LLabel (sy_name s) /\ sy_l s = tok_l t /\ sy_b s = tok_b t /\ sy_e s = tok_e t.
Proof.
  intros E I. destruct (symbols_complete _ _ _ E) as [S _]. apply (in_map (fun s => (sy_name s, sy_l s, sy_b s, sy_e s))) in I. rewrite S in I.
  apply in_map_iff in I. destruct I as [d [Q I]]. apply in_flat_map in I. destruct I as [l [Il I]].
  unfold defines in I. destruct l as [|t w]; [destruct I|]. destruct (kind_of (t :: w)) as [| |[|c m]| | |] eqn:K; try destruct I as [].
  - subst d. injection Q as Q1 Q2 Q3 Q4. cbn [fst snd] in *. exists t, w. rewrite K, <- Q1. auto.
  - destruct H.
Qed.
Lemma ref_spec en src r t : process en src = Ret r -> In t (r_refs r) -> exists l p a, In l (r_lines r) /\ In t l /\ kind_of l = LOp p a.
Proof.
  intros E I. destruct (symbols_complete _ _ _ E) as [_ [S _]]. rewrite S in I. apply in_flat_map in I. destruct I as [l [Il I]].
  pose proof (names_labels_incl _ _ I) as It. unfold names_labels in I. destruct l as [|u w]; [destruct I|]. destruct (kind_of (u :: w)) as [| | | |p a|] eqn:K; try destruct I.
  exists (u :: w), p, a. auto.
Qed.
Lemma defs_lines ls : forall i, lines_at i ls -> StronglySorted lt (map (fun d => tok_l (fst d)) (flat_map defines ls)) /\
  Forall (fun d => i <= tok_l (fst d)) (flat_map defines ls).
Proof.
  induction ls as [|l ls IH]; intros i A; [split; constructor|]. cbn [lines_at flat_map] in *. destruct A as [[A1 _] A2]. destruct (IH _ A2) as [S F].
  assert (D : defines l = [] \/ exists t n, defines l = [(t, n)] /\ In t l).
  { unfold defines. destruct l as [|t w]; [auto|]. destruct (kind_of (t :: w)) as [| |[|c m]| | |]; auto. right. exists t, (c :: m). split; [reflexivity|left; reflexivity]. }
  destruct D as [->|[t [n [-> It]]]]; cbn [app map fst].
  - split; [exact S|]. eapply Forall_impl; [|exact F]. cbn. lia.
  - rewrite Forall_forall in A1. pose proof (A1 t It) as Et. split.
    + constructor; [exact S|]. apply Forall_map. eapply Forall_impl; [|exact F]. cbn. lia.
    + constructor; [cbn; lia|]. eapply Forall_impl; [|exact F]. cbn. lia.
Qed.
Lemma one_symbol en src r p : process en src = Ret r -> length (symbols_within r (pos_range p)) <= 1.
Proof.
  intros E. destruct (symbols_complete _ _ _ E) as [S _]. destruct (lines_of_result _ _ _ E) as [A _ _ _].
  destruct (defs_lines _ _ A) as [Q _]. apply (f_equal (map (fun x => snd (fst (fst x))))) in S. rewrite !map_map in S. cbn [fst snd] in S.
  rewrite <- S in Q. clear S. unfold symbols_within. induction (r_syms r) as [|s l IH]; [cbn; lia|]. cbn [map] in Q. inversion Q as [|? ? Q1 Q2]; subst.
  cbn [filter]. destruct (overlaps (pos_range p) (sym_range s)) eqn:Os; [|apply IH; exact Q1].
  assert (N : filter (fun s => overlaps (pos_range p) (sym_range s)) l = []).
  { apply filter_none. intros x Ix. rewrite Forall_forall in Q2. specialize (Q2 _ (in_map _ _ _ Ix)). cbn beta in Q2. destruct (overlaps (pos_range p) (sym_range x)) eqn:Ox; [|reflexivity].
    unfold overlaps, pos_range, sym_range in *. cbn [r_sc r_ec r_sl r_el] in *. lia. }
  rewrite N. cbn. lia.
Qed.
Lemma sym_within r p s : In s (symbols_within r (pos_range p)) <->
  In s (r_syms r) /\ ps_line p = Z.of_nat (sy_l s) /\ (Z.of_nat (sy_b s) <= ps_char p <= Z.of_nat (sy_e s))%Z.
Proof.
  unfold symbols_within. rewrite filter_In. unfold overlaps, pos_range, sym_range. cbn [r_sc r_ec r_sl r_el]. split; intros [A B]; (split; [exact A|lia]).
Qed.
Lemma not_both en src r p : process en src = Ret r -> symbols_within r (pos_range p) = [] \/ refs_within r (pos_range p) = [].
Proof.
  intros E. destruct (symbols_within r (pos_range p)) as [|s ss] eqn:S; [auto|]. destruct (refs_within r (pos_range p)) as [|t ts] eqn:T; [auto|]. exfalso.
  assert (In s (symbols_within r (pos_range p))) as Is by (rewrite S; left; reflexivity).
  assert (In t (refs_within r (pos_range p))) as It by (rewrite T; left; reflexivity).
  apply sym_within in Is. destruct Is as [Is [Ls _]]. apply within_under in It. destruct It as [It [Lt _]].
  destruct (sym_spec _ _ _ _ E Is) as [u [w [Il [K [L _]]]]]. destruct (ref_spec _ _ _ _ E It) as [l [q [a [Il' [Itl K']]]]].
  assert (t_l : tok_l u = tok_l t) by lia.
  pose proof (same_line _ _ _ E u (u :: w) t l (or_introl eq_refl) Il Itl Il' t_l). subst l. congruence.
Qed.

Lemma rename_named en src r p n new : process en src = Ret r -> Forall (fun t => starts_quote (tok_v t) = false) (r_refs r) -> named r p n ->
  rename_edits r p new = rename_one r new n.
Proof.
  intros E Q N. pose proof (one_symbol en src r p E) as O1. pose proof (one_under r p (refs_apart _ _ _ E Q)) as O2.
  pose proof (not_both _ _ _ p E) as B. unfold rename_edits. destruct N as [[s [Is [Ns Ps]]]|[t [It [Nt Pt]]]].
  - assert (I : In s (symbols_within r (pos_range p))) by (apply sym_within; auto).
    destruct (symbols_within r (pos_range p)) as [|x [|y l]]; [destruct I| |cbn in O1; lia]. destruct I as [->|[]]. destruct B as [B|B]; [discriminate B|].
    rewrite B. cbn [flat_map]. rewrite !app_nil_r, Ns. reflexivity.
  - assert (I : In t (refs_within r (pos_range p))) by (apply within_under; unfold under; auto).
    destruct (refs_within r (pos_range p)) as [|x [|y l]]; [destruct I| |cbn in O2; lia]. destruct I as [->|[]]. destruct B as [B|B]; [|discriminate B].
    rewrite B. cbn [flat_map app]. rewrite app_nil_r, Nt. reflexivity.
Qed.
Lemma rename_nothing r p new : (forall n, ~ named r p n) -> rename_edits r p new = [].
Proof.
  intros N. unfold rename_edits. destruct (symbols_within r (pos_range p)) as [|s ss] eqn:S.
  - destruct (refs_within r (pos_range p)) as [|t ts] eqn:T; [reflexivity|]. exfalso. apply (N (tok_v t)). right. exists t.
    assert (I : In t (refs_within r (pos_range p))) by (rewrite T; left; reflexivity). apply within_under in I. unfold under in I. tauto.
  - exfalso. apply (N (sy_name s)). left. exists s. assert (I : In s (symbols_within r (pos_range p))) by (rewrite S; left; reflexivity). apply sym_within in I. tauto.
Qed.

(* C43 *)
Theorem rename_exact en src ps r p old new :
  Lexes src ps -> strings_on_one_line ps -> process en src = Ret r ->
  Forall (fun t => starts_quote (tok_v t) = false) (r_refs r) -> is_word new = true -> named r p old ->
  (forall e, In e (rename_edits r p new) <-> te_text e = new /\
     ((exists s, In s (r_syms r) /\ sy_name s = old /\ te_range e = name_range s) \/
      (exists t, In t (r_refs r) /\ tok_v t = old /\ te_range e = tok_range t))) /\
  length (rename_edits r p new) = length (filter (fun s => seqb (sy_name s) old) (r_syms r)) + length (filter (fun t => seqb (tok_v t) old) (r_refs r)) /\
  ForallOrdPairs (fun a b => separate (te_range a) (te_range b)) (rename_edits r p new) /\
  (forall ls e, lines_of src ls -> In e (rename_edits r p new) -> covers ls (te_range e) old) /\
  (filter is_surplus_diag (r_diag r) = [] -> exists r', process en (apply_edits (rename_edits r p new) src) = Ret r') /\
  (forall r', process en (apply_edits (rename_edits r p new) src) = Ret r' ->
     r_listing r' = map (rename_expr (ren old new)) (r_listing r) /\
     map sy_name (r_syms r') = map (ren old new) (map sy_name (r_syms r)) /\
     map tok_v (r_refs r') = map (ren old new) (map tok_v (r_refs r))).
Proof.
  intros L O E Q W N. rewrite (rename_named _ _ _ _ _ new E Q N). split.
  { intros e. unfold rename_one. rewrite in_app_iff, !in_map_iff. split.
    - intros [[s [<- I]]|[t [<- I]]]; (split; [reflexivity|]).
      + left. exists s. apply filter_In in I. destruct I as [I J]. apply seqb_eq in J. auto.
      + right. exists t. apply filter_In in I. destruct I as [I J]. apply seqb_eq in J. auto.
    - intros [T [[s [I [J R]]]|[t [I [J R]]]]]; [left; exists s|right; exists t]; (split; [destruct e; cbn in *; congruence|apply filter_In; split; [exact I|apply seqb_eq; exact J]]). }
  split. { unfold rename_one. rewrite app_length, !map_length. reflexivity. }
  rewrite (rename_one_occ _ _ _ _ new E). split; [exact (es_separate en src r E Q old new W)|].
  split. { intros ls e Ls I. exact (es_covers en src r E Q old new W ps ls e L O Ls I). }
  split. { intros Z. exact (rename_returns en src r E Q old new W ps L O Z). }
  intros r' P'. destruct (rename_listing en src r E Q old new W ps L O r' P') as [A [B C]]. auto.
Qed.
