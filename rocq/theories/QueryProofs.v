(* the queries at a position *)
From Verif Require Import Base LexSpec Lexer LexerProofs LexerThms Expr Linter Fields Strconv Literals Codec OpTable Process ProcessSpec ProcessProofs ProcessRun ProcessLine ProcessDoc ProcessThms Semantics Query Lsp.
From Coq Require Import Lia ZifyBool ZifyNat ZifyN Sorted.

(* ------------------------------------------------------------------------------------------ *)
(* spec: a text that starts like a string *)
Definition starts_quote (a : str) : bool := match a with c :: _ => Ascii.eqb c c_quote | [] => false end.

(* after a word there is a blank, a line end or nothing *)
Definition spaced_after (t : token) (r : list token) : Prop :=
  match r with
  | t' :: _ => tok_t t = TokValue -> starts_quote (tok_v t) = false -> is_eol t' = false -> tok_e t < tok_b t'
  | [] => True
  end.
Fixpoint spaced (ts : list token) : Prop :=
  match ts with [] => True | t :: r => spaced_after t r /\ spaced r end.

Lemma layout_after s ps : Lexes s ps -> ends_before is_delim s -> forall l c,
  match fst (layout l c ps) with t :: _ => is_eol t = false -> c < tok_b t | [] => True end.
Proof.
  intros L E l c. destruct L; cbn [layout fst is_eol tok_t piece_text length]; try discriminate; auto.
  - pose proof (good_layout _ _ L l (c + 1)) as G. destruct (fst (layout l (c + 1) ps)) as [|t r0]; [exact I|].
    cbn [good] in G. intros _. lia.
  - cbn in E. destruct E as [[Q|Q]|[Q|Q]]; discriminate Q.
  - cbn in E. destruct E as [[Q|Q]|[Q|Q]]; discriminate Q.
  - match goal with F : Forall _ (_ :: _) |- _ => inversion F as [|? ? Nd _]; subst end. destruct (Nd E).
Qed.

Lemma spaced_layout s ps : Lexes s ps -> forall l c, spaced (fst (layout l c ps)).
Proof.
  induction 1; intros l0 c0; cbn [layout fst spaced]; auto.
  - split; [|apply IHLexes]. unfold spaced_after. destruct (fst _); [exact I|]. intros Q; discriminate Q.
  - split; [|apply IHLexes]. unfold spaced_after. destruct (fst _); [exact I|]. intros Q; discriminate Q.
  - split; [|apply IHLexes]. unfold spaced_after. destruct (fst _); [exact I|]. intros Q; discriminate Q.
  - split; [|apply IHLexes]. unfold spaced_after. destruct (fst _); [exact I|]. intros Q; discriminate Q.
  - split; [|apply IHLexes]. unfold spaced_after. destruct (fst _); [exact I|]. intros _ Q; discriminate Q.
  - split; [|apply IHLexes]. unfold spaced_after.
    match goal with E : ends_before is_delim r |- _ => pose proof (layout_after _ _ H3 E l0 (c0 + length (piece_text (PWord (c :: w))))) as A end.
    destruct (fst _); [exact I|]. intros _ _ N. exact (A N).
Qed.

Lemma spaced_cons t r : spaced (t :: r) -> spaced r. Proof. cbn. tauto. Qed.
Lemma spaced_app a b : spaced (a ++ b) -> spaced a /\ spaced b.
Proof.
  induction a as [|t a IH]; [split; [exact I|assumption]|]. cbn [app spaced]. intros [H1 H2].
  destruct (IH H2) as [A B]. split; [|exact B]. split; [|exact A]. destruct a; [exact I|exact H1].
Qed.
Lemma spaced_lines ts ls : Lines ts ls -> spaced ts -> Forall spaced ls.
Proof.
  induction 1 as [|l N E|l t r ls E T L IH]; intros S; [constructor|repeat constructor; assumption|].
  destruct (spaced_app _ _ S) as [A B]. constructor; [exact A|]. apply IH. exact (spaced_cons _ _ B).
Qed.
Lemma until_comment_app l : exists r, l = until_comment l ++ r.
Proof.
  induction l as [|t l [r IH]]; [exists []; reflexivity|]. cbn [until_comment].
  destruct (is_comment t); [exists (t :: l); reflexivity|]. exists r. cbn. congruence.
Qed.
Lemma code_of_app l : exists r, l = code_of l ++ r.
Proof. destruct l as [|t l]; [exists []; reflexivity|]. destruct (until_comment_app l) as [r E]. exists r. cbn. congruence. Qed.
Lemma spaced_code l : spaced l -> spaced (code_of l).
Proof. destruct (code_of_app l) as [r E]. intros S. rewrite E in S. exact (proj1 (spaced_app _ _ S)). Qed.

(* no line ends among the tokens of a line *)
Lemma lines_no_eol ts ls : Lines ts ls -> Forall (fun l => existsb is_eol l = false) ls.
Proof. induction 1; repeat constructor; assumption. Qed.
Lemma code_incl l : incl (code_of l) l.
Proof. destruct (code_of_app l) as [r E]. intros x I. rewrite E. apply in_or_app. left. exact I. Qed.
Lemma code_no_eol l : existsb is_eol l = false -> existsb is_eol (code_of l) = false.
Proof.
  intros H. destruct (existsb is_eol (code_of l)) eqn:E; [|reflexivity]. apply existsb_exists in E.
  destruct E as [t [I T]]. assert (existsb is_eol l = true) as C by (apply existsb_exists; exists t; split; [apply code_incl; exact I|exact T]).
  congruence.
Qed.
(* comments come first in a line or not at all *)
Lemma code_values l : Forall (fun t => tok_t t <> TokComment) (tl (code_of l)).
Proof.
  destruct l as [|t l]; [constructor|]. cbn [code_of tl]. clear t. induction l as [|t l IH]; [constructor|].
  cbn [until_comment]. unfold is_comment. destruct (tok_t t) eqn:T; try constructor; try assumption; congruence.
Qed.

(* the document *)
Record lines_facts (ls : list (list token)) : Prop := {
  lf_at : lines_at 0 ls;
  lf_spaced : Forall spaced ls;
  lf_no_eol : Forall (fun l => existsb is_eol l = false) ls;
  lf_values : Forall (fun l => Forall (fun t => tok_t t <> TokComment) (tl l)) ls }.

Lemma lines_of_result en src r : process en src = Ret r -> lines_facts (r_lines r).
Proof.
  intros E. destruct (process_result en src r E) as [ts [errs [raw [lds [T [L [A R]]]]]]].
  rewrite (ro_lines _ _ _ _ _ _ _ R). destruct (lexes_exists src) as [ps X].
  assert (S : spaced ts). { rewrite (tokenize_spec _ _ X) in T. injection T as T. pose proof (spaced_layout _ _ X 0 0) as Q. rewrite T in Q. exact Q. }
  pose proof (spaced_lines _ _ L S) as B. pose proof (lines_no_eol _ _ L) as C.
  constructor; [exact A| | |].
  - apply Forall_map. eapply Forall_impl; [|exact B]. intros l. apply spaced_code.
  - apply Forall_map. eapply Forall_impl; [|exact C]. intros l. apply code_no_eol.
  - apply Forall_map. apply Forall_forall. intros l _. apply code_values.
Qed.

(* ------------------------------------------------------------------------------------------ *)
(* tokens that do not touch, in order *)
Definition apart (a b : token) : Prop := tok_l a < tok_l b \/ (tok_l a = tok_l b /\ tok_e a < tok_b b).

Lemma apart_line l : forall c i, Forall (fun t => tok_l t = i) l -> sorted_from c l -> spaced l ->
  existsb is_eol l = false -> Forall (fun t => tok_t t <> TokComment) l -> Forall (fun t => starts_quote (tok_v t) = false) l ->
  StronglySorted apart l /\ match l with t :: r => Forall (fun x => tok_e t < tok_b x) r | [] => True end.
Proof.
  induction l as [|t r IH]; intros c i A S P E C Q; [split; constructor|].
  cbn [sorted_from spaced existsb] in *. destruct S as [S1 S2]. destruct P as [P1 P2]. apply orb_false_iff in E. destruct E as [E1 E2].
  inversion A as [|? ? A1 A2]; inversion C as [|? ? C1 C2]; inversion Q as [|? ? Q1 Q2]; subst.
  destruct (IH _ _ A2 S2 P2 E2 C2 Q2) as [B1 B2].
  assert (F : Forall (fun x => tok_e t < tok_b x) r).
  { destruct r as [|t' r]; [constructor|]. cbn [spaced_after existsb] in *. apply orb_false_iff in E2. destruct E2 as [E2 _].
    assert (V : tok_t t = TokValue). { unfold is_eol in E1. destruct (tok_t t); congruence. }
    specialize (P1 V Q1 E2). cbn [sorted_from] in S2. constructor; [exact P1|].
    eapply Forall_impl; [|exact B2]. cbn. intros x X. lia. }
  split; [|exact F]. constructor; [exact B1|]. rewrite Forall_forall in *. intros x I. right. split; [|exact (F x I)].
  rewrite (A2 x I). reflexivity.
Qed.

Lemma SSorted_app {A} (R : A -> A -> Prop) a b : StronglySorted R a -> StronglySorted R b ->
  (forall x y, In x a -> In y b -> R x y) -> StronglySorted R (a ++ b).
Proof.
  intros H1 H2 H. induction a as [|x a IH]; [exact H2|]. inversion H1 as [|? ? S F]; subst. cbn. constructor.
  - apply IH; [exact S|]. intros u v Iu Iv. apply H; [right; exact Iu|exact Iv].
  - apply Forall_app. split; [exact F|]. apply Forall_forall. intros y I. apply H; [left; reflexivity|exact I].
Qed.
Lemma SSorted_filter {A} (R : A -> A -> Prop) f l : StronglySorted R l -> StronglySorted R (filter f l).
Proof.
  induction 1 as [|x l S IH F]; [constructor|]. cbn. destruct (f x); [|exact IH]. constructor; [exact IH|].
  rewrite Forall_forall in *. intros y I. apply filter_In in I. exact (F y (proj1 I)).
Qed.

Lemma names_labels_incl l : incl (names_labels l) l.
Proof.
  unfold names_labels. destruct l as [|t r]; [intros x []|]. destruct (kind_of (t :: r)); try (intros x []).
  destruct (one_of branch_names (tok_v t)).
  - destruct r as [|a r]; [intros x []|]. intros x [<-|[]]. right. left. reflexivity.
  - destruct (one_of table_names (tok_v t)); [|intros x []]. intros x I. right. exact I.
Qed.
Lemma names_labels_tail l : incl (names_labels l) (tl l).
Proof.
  unfold names_labels. destruct l as [|t r]; [intros x []|]. destruct (kind_of (t :: r)); try (intros x []).
  destruct (one_of branch_names (tok_v t)).
  - destruct r as [|a r]; [intros x []|]. intros x [<-|[]]. left. reflexivity.
  - destruct (one_of table_names (tok_v t)); [|intros x []]. intros x I. exact I.
Qed.

Lemma apart_names i l : line_at i l -> spaced l -> existsb is_eol l = false ->
  Forall (fun t => tok_t t <> TokComment) (tl l) -> Forall (fun t => starts_quote (tok_v t) = false) (names_labels l) ->
  StronglySorted apart (names_labels l).
Proof.
  intros [A S] P E C Q. unfold names_labels in *. destruct l as [|t r]; [constructor|]. destruct (kind_of (t :: r)); try constructor.
  destruct (one_of branch_names (tok_v t)).
  - destruct r as [|a r]; repeat constructor.
  - destruct (one_of table_names (tok_v t)); [|constructor]. cbn [tl sorted_from spaced existsb] in *.
    inversion A; subst. apply orb_false_iff in E. refine (proj1 (apart_line r _ _ _ (proj2 S) (proj2 P) (proj2 E) C Q)). exact H2.
Qed.

Lemma lines_at_ge ls : forall i l, lines_at i ls -> In l ls -> exists k, i <= k /\ line_at k l.
Proof.
  induction ls as [|x ls IH]; intros i l H I; [destruct I|]. cbn [lines_at] in H. destruct I as [<-|I].
  - exists i. split; [lia|tauto].
  - destruct (IH (S i) l (proj2 H) I) as [k [K1 K2]]. exists k. split; [lia|exact K2].
Qed.

Lemma apart_refs ls : forall i, lines_at i ls -> Forall spaced ls -> Forall (fun l => existsb is_eol l = false) ls ->
  Forall (fun l => Forall (fun t => tok_t t <> TokComment) (tl l)) ls ->
  Forall (fun t => starts_quote (tok_v t) = false) (flat_map names_labels ls) ->
  StronglySorted apart (flat_map names_labels ls).
Proof.
  induction ls as [|l ls IH]; intros i A P E C Q; [constructor|]. cbn [flat_map lines_at] in *.
  inversion P; inversion E; inversion C; subst. apply Forall_app in Q. destruct Q as [Q1 Q2], A as [A1 A2].
  apply SSorted_app; [eapply apart_names; eassumption|eapply IH; eassumption|].
  intros x y X Y. left. apply in_flat_map in Y. destruct Y as [l' [Il Y]].
  destruct (lines_at_ge _ _ _ A2 Il) as [k [K1 [K2 _]]]. destruct A1 as [A1 _]. rewrite Forall_forall in *.
  rewrite (A1 x (names_labels_incl _ _ X)), (K2 y (names_labels_incl _ _ Y)). lia.
Qed.

Theorem refs_apart en src r : process en src = Ret r ->
  Forall (fun t => starts_quote (tok_v t) = false) (r_refs r) -> StronglySorted apart (r_refs r).
Proof.
  intros E Q. destruct (process_result en src r E) as [ts [errs [raw [lds [_ [_ [_ R]]]]]]].
  rewrite (ro_refs _ _ _ _ _ _ _ R) in *. destruct (lines_of_result _ _ _ E) as [A B C D].
  exact (apart_refs _ 0 A B C D Q).
Qed.

(* ------------------------------------------------------------------------------------------ *)
(* spec: the position is on the line of the token, between its first column and the one after its last *)
Definition under (p : position) (t : token) : Prop :=
  (ps_line p = Z.of_nat (tok_l t) /\ Z.of_nat (tok_b t) <= ps_char p <= Z.of_nat (tok_e t))%Z.

Lemma within_under r p t : In t (refs_within r (pos_range p)) <-> In t (r_refs r) /\ under p t.
Proof.
  unfold refs_within. rewrite filter_In. unfold overlaps, under, pos_range, tok_range. cbn [r_sc r_ec r_sl r_el].
  split; intros [H1 H2]; (split; [exact H1|lia]).
Qed.

Lemma one_under r p : StronglySorted apart (r_refs r) -> length (refs_within r (pos_range p)) <= 1.
Proof.
  intros S. pose proof (SSorted_filter _ (fun t => overlaps (pos_range p) (tok_range t)) _ S) as F. fold (refs_within r (pos_range p)) in F.
  destruct (refs_within r (pos_range p)) as [|a [|b l]] eqn:E; [cbn; lia|cbn; lia|].
  assert (In a (refs_within r (pos_range p))) as Ia by (rewrite E; left; reflexivity).
  assert (In b (refs_within r (pos_range p))) as Ib by (rewrite E; right; left; reflexivity).
  apply within_under in Ia, Ib. inversion F as [|? ? _ G]; subst. inversion G as [|? ? H _]; subst.
  unfold under, apart in *. lia.
Qed.

(* C44 *)
Theorem definition_exact en src r p rg : process en src = Ret r ->
  Forall (fun t => starts_quote (tok_v t) = false) (r_refs r) ->
  (In rg (map name_range (symbols_for_ref r (pos_range p))) <->
   exists s t, In s (r_syms r) /\ In t (r_refs r) /\ under p t /\ sy_name s = tok_v t /\ rg = name_range s).
Proof.
  intros E Q. pose proof (one_under r p (refs_apart _ _ _ E Q)) as O.
  unfold symbols_for_ref. rewrite in_map_iff. destruct (refs_within r (pos_range p)) as [|a l] eqn:W.
  - split; [intros [s [_ []]]|]. intros [s [t [_ [It [U _]]]]]. assert (In t []) as [] by (rewrite <- W; apply within_under; auto).
  - assert (In a (r_refs r) /\ under p a) as [Ia Ua] by (apply within_under; rewrite W; left; reflexivity).
    assert (l = []) as -> by (destruct l; [reflexivity|cbn in O; lia]).
    split.
    + intros [s [<- Is]]. unfold sym_by_name in Is. apply filter_In in Is. destruct Is as [I1 I2]. apply seqb_eq in I2.
      exists s, a. auto.
    + intros [s [t [Is [It [U [N ->]]]]]]. assert (In t [a]) as [<-|[]] by (rewrite <- W; apply within_under; auto).
      exists s. split; [reflexivity|]. apply filter_In. split; [exact Is|]. apply seqb_eq. exact N.
Qed.

(* ------------------------------------------------------------------------------------------ *)
(* C48 *)
Lemma index_at {A} (l : list A) n : n < length l -> exists x, index l n = Ret x.
Proof.
  intros H. unfold index. destruct (nth_error l n) as [x|] eqn:E; [exists x; reflexivity|].
  apply nth_error_None in E. lia.
Qed.
Lemma line_of_ok r l : (0 <= l)%Z -> past_end r l = false ->
  exists ln, line_of r l = Ret ln /\ nth_error (r_lines r) (Z.to_nat l) = Some ln.
Proof.
  intros H P. unfold line_of, past_end in *. destruct (l <? 0)%Z eqn:N; [lia|].
  unfold index. destruct (nth_error (r_lines r) (Z.to_nat l)) as [ln|] eqn:E; [exists ln; auto|].
  apply nth_error_None in E. lia.
Qed.

Lemma arg_at_ok r l ch : (0 <= l)%Z -> nth_error (r_lines r) (Z.to_nat l) <> Some [] -> exists x, arg_at r l ch = Ret x.
Proof.
  intros H N. unfold arg_at. destruct (past_end r l) eqn:P; [eexists; reflexivity|].
  destruct (line_of_ok r l H P) as [ln [-> E]]. cbn [bindr]. destruct ln as [|op ln]; [congruence|].
  change (index (op :: ln) 0) with (@Ret token op). cbn [bindr].
  set (curr := match imm_at (op :: ln) ch with Some (_, idx) => Z.of_nat idx | None => (Z.of_nat (length (op :: ln)) - 1)%Z end).
  assert (C : (0 <= curr)%Z). { unfold curr. destruct (imm_at (op :: ln) ch) as [[? ?]|]; cbn [length]; lia. }
  destruct (op_args (tok_v op)) as [args|]; [|eexists; reflexivity]. cbv zeta.
  match goal with |- exists x, (if (_ <=? ?c)%Z then _ else _) = _ => set (cu := c) end.
  assert (0 <= cu)%Z. { unfold cu. match goal with |- context [if ?b then _ else _] => destruct b eqn:B end; [|exact C]. apply andb_prop in B. lia. }
  destruct (Z.of_nat (length args) <=? cu)%Z eqn:L; [eexists; reflexivity|].
  destruct (index_at args (Z.to_nat cu)) as [a ->]; [lia|]. eexists; reflexivity.
Qed.

Lemma completions_ok r p : (0 <= ps_line p)%Z -> exists c, completions r p = Ret c.
Proof.
  intros H. unfold completions. destruct (ps_line p <? Z.of_nat (length (r_lines r)))%Z eqn:L.
  - destruct (line_of_ok r (ps_line p) H) as [ln [-> E]]; [unfold past_end; lia|]. cbn [bindr].
    destruct ln as [|t ln]; [eexists; reflexivity|].
    destruct (ps_char p <=? Z.of_nat (tok_e t))%Z; [eexists; reflexivity|].
    unfold arg_vals_at. destruct (arg_at_ok r (ps_line p) (ps_char p) H) as [x ->]; [congruence|]. eexists; reflexivity.
  - cbn [bindr]. eexists; reflexivity.
Qed.

Lemma signature_ok en src r p : process en src = Ret r -> (0 <= ps_line p)%Z -> exists c, signature_help r p = Ret c.
Proof.
  intros E H. unfold signature_help. destruct (find _ (r_ops r)) as [t|] eqn:F; [|eexists; reflexivity].
  destruct (ops_get (tok_v t)); [|eexists; reflexivity]. apply find_some in F. destruct F as [I T].
  destruct (arg_at_ok r (ps_line p) (ps_char p) H) as [x ->]; [|eexists; reflexivity].
  intros N. destruct (process_result en src r E) as [ts [errs [raw [lds [_ [_ [A R]]]]]]].
  rewrite (ro_ops _ _ _ _ _ _ _ R) in I. apply in_flat_map in I. destruct I as [l [Il It]].
  rewrite <- (ro_lines _ _ _ _ _ _ _ R) in A. apply In_nth_error in Il. destruct Il as [k K].
  assert (In t l). { unfold op_token in It. destruct l as [|u l]; [destruct It|]. destruct (kind_of (u :: l)); try destruct It. subst. left. reflexivity. destruct H0. }
  pose proof (lines_at_nth _ _ _ _ A K) as [Q _]. rewrite Forall_forall in Q. specialize (Q t H0).
  replace (Z.to_nat (ps_line p)) with k in N by lia. rewrite K in N. injection N as ->. destruct H0.
Qed.

Lemma imm_at_in l : forall i pos t k, imm_at_from i l pos = Some (t, k) ->
  In t l /\ (Z.of_nat (tok_b t) <= pos <= Z.of_nat (tok_e t))%Z.
Proof.
  induction l as [|x l IH]; intros i pos t k H; [discriminate H|]. cbn [imm_at_from] in H.
  destruct ((0 <? i) && (Z.of_nat (tok_b x) <=? pos)%Z && (pos <=? Z.of_nat (tok_e x))%Z) eqn:B.
  - injection H as -> <-. split; [left; reflexivity|lia].
  - destruct (IH _ _ _ _ H). split; [right; assumption|assumption].
Qed.

Lemma field_doc_ok k s : (forall v, atoi s = Some v -> (0 <= v)%Z) -> exists d, field_doc k s = Ret d.
Proof.
  intros H.
  assert (G : forall sp, exists d, (match spec_by_name sp s with Some (f, _) => Ret (FieldDoc k f)
    | None => match atoi s with Some v => letr o := spec_by_field sp v in Ret (match o with Some f => FieldDoc k f | None => NoDoc end)
    | None => Ret NoDoc end end) = Ret d).
  { intros sp. destruct (spec_by_name sp s) as [[f b]|]; [eexists; reflexivity|]. destruct (atoi s) as [v|]; [|eexists; reflexivity].
    specialize (H v eq_refl). unfold spec_by_field. destruct (_ <=? v)%Z; [eexists; reflexivity|].
    destruct (v <? 0)%Z eqn:N; [lia|]. eexists; reflexivity. }
  unfold field_doc. destruct k; cbn [field_table]; try (eexists; reflexivity); apply G.
Qed.

(* spec: the token is the numeral of a negative number *)
Definition negative (t : token) : Prop := exists v, atoi (tok_v t) = Some v /\ (v < 0)%Z.

Lemma hover_ok r p : (0 <= ps_line p)%Z ->
  (forall ln t, nth_error (r_lines r) (Z.to_nat (ps_line p)) = Some ln -> In t ln -> 
     (Z.of_nat (tok_b t) <= ps_char p <= Z.of_nat (tok_e t))%Z -> ~ negative t) ->
  exists d, doc_at r (ps_line p) (ps_char p) = Ret d.
Proof.
  intros H N. unfold doc_at. destruct (past_end r (ps_line p)) eqn:P; [eexists; reflexivity|].
  destruct (line_of_ok r (ps_line p) H P) as [ln [-> E]]. cbn [bindr]. specialize (N ln). 
  assert (forall l i, ln <> [] \/ l = [] -> exists d, doc_tok ln i l (ps_char p) = Ret d) as G; [|apply G; destruct ln; [right; reflexivity|left; discriminate]].
  induction l as [|t l IH]; intros i X; [eexists; reflexivity|]. cbn [doc_tok].
  destruct ((ps_char p <? Z.of_nat (tok_b t))%Z || (Z.of_nat (tok_e t) <? ps_char p)%Z).
  { apply IH. left. destruct X as [X|X]; [exact X|discriminate X]. }
  destruct i as [|i]; [eexists; reflexivity|].
  destruct (imm_at ln (ps_char p)) as [[tok idx]|] eqn:M; [|eexists; reflexivity].
  destruct ln as [|op ln]; [discriminate M|]. change (index (op :: ln) 0) with (@Ret token op). cbn [bindr].
  destruct (op_args (tok_v op)) as [args|]; [|eexists; reflexivity]. cbv zeta.
  match goal with |- context [nth_error args ?n] => destruct (nth_error args n) as [a|] end; [|eexists; reflexivity].
  destruct (imm_at_in _ _ _ _ _ M) as [I B]. apply field_doc_ok. intros v V.
  destruct (Z.le_gt_cases 0 v) as [|L]; [assumption|]. destruct (N tok E I B). exists v. split; [exact V|lia].
Qed.

(* the position queries of C48 *)
Definition at_position (q : query) (p : position) : Prop :=
  match q with QHover p' | QCompletion p' | QSignatureHelp p' | QDocumentHighlight p' => p' = p | _ => False end.

Theorem position_queries en cf uri src r q p : process (l_env en) src = Ret r -> at_position q p -> (0 <= ps_line p)%Z ->
  (forall ln t, q = QHover p -> nth_error (r_lines r) (Z.to_nat (ps_line p)) = Some ln -> In t ln ->
     (Z.of_nat (tok_b t) <= ps_char p <= Z.of_nat (tok_e t))%Z -> ~ negative t) ->
  exists a, answer_query en cf uri src r q = Ret a.
Proof.
  intros E A H N. destruct q; try destruct A; cbn [answer_query].
  - destruct (completions_ok r p0 H) as [c ->]. eexists; reflexivity.
  - destruct (hover_ok r p0 H) as [c ->]; [intros ln t; apply N; reflexivity|]. eexists; reflexivity.
  - destruct (signature_ok _ _ _ p0 E H) as [c ->]. eexists; reflexivity.
  - eexists; reflexivity.
Qed.

Theorem definition_answer en src r p cf uri a : process (l_env en) src = Ret r ->
  Forall (fun t => starts_quote (tok_v t) = false) (r_refs r) ->
  answer_query en cf uri src r (QDefinition p) = Ret a ->
  exists rgs, a = ADefinition uri rgs /\ forall rg, In rg rgs <->
    exists s t, In s (r_syms r) /\ In t (r_refs r) /\ under p t /\ sy_name s = tok_v t /\ rg = name_range s.
Proof.
  intros P F Q. cbn [answer_query] in Q. injection Q as <-. eexists. split; [reflexivity|]. intros rg. exact (definition_exact (l_env en) src r p rg P F).
Qed.
