(* A rename taken back: proofs. *)
From Verif Require Import Base LexSpec Lexer LexerProofs LexerThms LexStatements DocLines DocProofs DocTokens Expr Linter Literals Strconv Codec OpTable Process ProcessSpec ProcessProofs ProcessRun ProcessLine ProcessDoc ProcessThms Semantics Query Lsp Edit RoundTripSpec RoundTripLex QueryProofs EditProofs RenameSpec RenameProofs.
From Coq Require Import Lia Sorted.

(* ------------------------------------------------------------------------------------------ *)
(* the words of a line with the labels renamed *)
Definition respell (f : str -> str) (l : list token) : list str :=
  match l with
  | [] => []
  | t :: w =>
      match kind_of l with
      | LLabel (c :: m) => (f (c :: m) ++ bs ":") :: texts w
      | LOp _ _ =>
          if one_of branch_names (tok_v t) then tok_v t :: match texts w with a :: r => f a :: r | [] => [] end
          else if one_of table_names (tok_v t) then tok_v t :: map f (texts w) else texts l
      | _ => texts l
      end
  end.

Definition all_edits (r : presult) (old new : str) : list text_edit :=
  map (def_edit old new) (flat_map (def_of old) (r_lines r)) ++ map (ref_edit new) (flat_map (ref_of old) (r_lines r)).

Section line.
Variables (en : env) (src : str) (r : presult).
Hypothesis HP : process en src = Ret r.
Hypothesis HQ : Forall (fun t => starts_quote (tok_v t) = false) (r_refs r).
Variables old new : str.
Hypothesis HW : is_word new = true.
Let es := all_edits r old new.
Let f := ren old new.

Lemma kept l t : In l (r_lines r) -> In t l -> ~ In t (names_labels l) -> defines l = [] -> new_text es t = tok_v t.
Proof. exact (keeps en src r HP HQ old new HW l t). Qed.

Lemma kept_all l : In l (r_lines r) -> names_labels l = [] -> defines l = [] -> map (new_text es) l = texts l.
Proof. intros Il N D. unfold texts. apply map_ext_in. intros t It. apply (kept l); auto. rewrite N. intros []. Qed.

Lemma not_twice t w : In (t :: w) (r_lines r) -> ~ In t w.
Proof.
  intros Il I. pose proof (line_order en src r HP old new _ Il) as S. inversion S as [|? ? _ F]; subst. rewrite Forall_forall in F.
  specialize (F t I). unfold before in F. lia.
Qed.
Lemma not_twice2 t a w : In (t :: a :: w) (r_lines r) -> ~ In a w.
Proof.
  intros Il I. pose proof (line_order en src r HP old new _ Il) as S. inversion S as [|? ? S' _]; subst. inversion S' as [|? ? _ F]; subst. rewrite Forall_forall in F.
  specialize (F a I). unfold before in F. lia.
Qed.

Lemma line_respelled l : In l (r_lines r) -> map (new_text es) l = respell f l.
Proof.
  intros Il. destruct l as [|t w]; [reflexivity|]. unfold respell.
  destruct (kind_of (t :: w)) as [| |[|c m]| | |] eqn:K;
    try (apply kept_all; [exact Il|unfold names_labels; rewrite K; reflexivity|unfold defines; rewrite K; reflexivity]).
  - (* label *)
    assert (V : tok_v t = (c :: m) ++ bs ":").
    { apply label_name_spec. unfold kind_of in K. destruct (tok_t t); try discriminate K;
      (destruct (label_name (tok_v t)) as [n|]; [injection K as ->; reflexivity|destruct (seqb (tok_v t) (bs "#pragma")); [discriminate K|destruct (ops_get (tok_v t)); discriminate K]]). }
    assert (NR : forall x, In x (t :: w) -> ~ In x (flat_map (ref_of old) (r_lines r))).
    { intros x Ix Q. destruct (ref_in _ _ _ Q) as [u [Iu Ru]]. destruct (ref_of_spec _ _ _ Ru) as [_ [Tl [_ [p [a Ku]]]]].
      assert (u = t :: w) as -> by (apply (same_line en src r HP x u x (t :: w)); auto; destruct u; [destruct Tl|right; exact Tl]). congruence. }
    cbn [map]. f_equal.
    + unfold f, ren. destruct (seqb (c :: m) old) eqn:E.
      * apply (new_def en src r HP HQ old new HW). apply in_flat_map. exists (t :: w). split; [exact Il|].
        unfold def_of, defines. rewrite K. cbn [flat_map snd]. rewrite E. left. reflexivity.
      * rewrite <- V. apply (new_other en src r HP HQ old new HW); [exact (in_line r t (t :: w) (or_introl eq_refl) Il)| |apply NR; left; reflexivity].
        intros Q. destruct (def_fact en src r HP _ _ Q) as [_ [_ [_ [Q1 _]]]]. rewrite V in Q1. apply app_inv_tail in Q1. rewrite Q1, (proj2 (seqb_eq old old) eq_refl) in E. discriminate E.
    + unfold texts. apply map_ext_in. intros x Ix. apply (new_other en src r HP HQ old new HW); [exact (in_line r x (t :: w) (or_intror Ix) Il)| |apply NR; right; exact Ix].
      intros Q. destruct (def_in _ _ _ Q) as [u [Iu Du]]. destruct (def_of_spec _ _ _ Du) as [z [Eu _]].
      assert (u = t :: w) as Eq by (apply (same_line en src r HP x u x (t :: w)); auto; [rewrite Eu; left; reflexivity|right; exact Ix]).
      rewrite Eq in Eu. injection Eu as -> _. exact (not_twice _ _ Il Ix).
  - (* instruction *)
    assert (D : defines (t :: w) = []) by (unfold defines; rewrite K; reflexivity).
    pose proof (first_not_name en src r HP old new HW t w Il) as Nf.
    pose proof (kept _ _ Il (in_eq t w) Nf D) as V.
    destruct (one_of branch_names (tok_v t)) eqn:Br; [|destruct (one_of table_names (tok_v t)) eqn:Ta].
    + assert (Nn : names_labels (t :: w) = firstn 1 w) by (unfold names_labels; rewrite K, Br; reflexivity).
      cbn [map]. rewrite V. f_equal. destruct w as [|a w]; [reflexivity|]. cbn [map texts]. f_equal.
      * apply (new_name en src r HP HQ old new HW (t :: a :: w)); [exact Il|rewrite Nn; left; reflexivity].
      * apply map_ext_in. intros x Ix. apply (kept (t :: a :: w)); [exact Il|right; right; exact Ix| |exact D].
        rewrite Nn. intros [->|[]]. exact (not_twice2 _ _ _ Il Ix).
    + assert (Nn : names_labels (t :: w) = w) by (unfold names_labels; rewrite K, Br, Ta; reflexivity).
      cbn [map]. rewrite V. f_equal. unfold texts. rewrite map_map. apply map_ext_in. intros x Ix.
      apply (new_name en src r HP HQ old new HW (t :: w)); [exact Il|rewrite Nn; exact Ix].
    + apply kept_all; [exact Il| |exact D]. unfold names_labels. rewrite K, Br, Ta. reflexivity.
Qed.

Lemma line_texts l l' : In l (r_lines r) -> Forall2 (edited_tok es) l l' -> texts l' = respell f l.
Proof. intros Il F. rewrite (texts_new r old new _ _ F). exact (line_respelled l Il). Qed.
End line.

(* ------------------------------------------------------------------------------------------ *)
(* back again *)
Lemma respell_back f g l l' : Forall2 (fun t t' => tok_t t' = tok_t t) l l' -> texts l' = respell f l ->
  (forall n, In n (map snd (defines l)) -> f n <> [] /\ g (f n) = n) ->
  (forall n, In n (map tok_v (names_labels l)) -> g (f n) = n) -> respell g l' = texts l.
Proof.
  intros T E D N. destruct T as [|t t' w w' T F]; [reflexivity|]. unfold respell in E.
  destruct (kind_of (t :: w)) as [| |[|c m]|ar|p ar|] eqn:K.
  - unfold kind_of in K. destruct (tok_t t); try discriminate K; destruct (label_name (tok_v t)); try discriminate K; destruct (seqb (tok_v t) (bs "#pragma")); try discriminate K; destruct (ops_get (tok_v t)); discriminate K.
  - cbn [texts map] in E. injection E as Ev Ew. unfold respell. assert (K' : kind_of (t' :: w') = LComment w0).
    { unfold kind_of in *. rewrite T, Ev. destruct (tok_t t); [| |exact K]; destruct (label_name _); try discriminate K; destruct (seqb _ _); try discriminate K; destruct (ops_get _); discriminate K. }
    rewrite K'. unfold texts. cbn [map]. rewrite Ev, Ew. reflexivity.
  - cbn [texts map] in E. injection E as Ev Ew. unfold respell. assert (K' : kind_of (t' :: w') = LLabel []).
    { unfold kind_of in *. rewrite T, Ev. destruct (tok_t t); [| |discriminate K]; destruct (label_name _); try exact K; destruct (seqb _ _); try discriminate K; destruct (ops_get _); discriminate K. }
    rewrite K'. unfold texts. cbn [map]. rewrite Ev, Ew. reflexivity.
  - cbn [texts map] in E. injection E as Ev Ew.
    destruct (D (c :: m)) as [Ne G]; [unfold defines; rewrite K; left; reflexivity|].
    assert (V : tok_v t = (c :: m) ++ bs ":" /\ tok_t t <> TokComment).
    { unfold kind_of in K. destruct (tok_t t); try discriminate K;
      (split; [|discriminate]; apply label_name_spec; destruct (label_name (tok_v t)) as [n|]; [injection K as ->; reflexivity|destruct (seqb (tok_v t) (bs "#pragma")); [discriminate K|destruct (ops_get (tok_v t)); discriminate K]]). }
    destruct V as [V Tc]. assert (K' : kind_of (t' :: w') = LLabel (f (c :: m))).
    { unfold kind_of. rewrite T, Ev, label_name_of. destruct (tok_t t); [reflexivity|reflexivity|congruence]. }
    unfold respell. rewrite K'. destruct (f (c :: m)) as [|d k] eqn:Ef; [congruence|]. rewrite G. unfold texts. cbn [map]. rewrite V, Ew. reflexivity.
  - cbn [texts map] in E. injection E as Ev Ew. unfold respell. assert (K' : exists ar', kind_of (t' :: w') = LPragma ar').
    { unfold kind_of in *. rewrite T, Ev. destruct (tok_t t); [| |discriminate K]; destruct (label_name _); try discriminate K; destruct (seqb _ _); try (eexists; reflexivity); destruct (ops_get _); discriminate K. }
    destruct K' as [ar' K']. rewrite K'. unfold texts. cbn [map]. rewrite Ev, Ew. reflexivity.
  - assert (Ev : tok_v t' = tok_v t).
    { destruct (one_of branch_names (tok_v t)); [|destruct (one_of table_names (tok_v t))]; cbn [texts map] in E; injection E as E _; exact E. }
    assert (K' : exists ar', kind_of (t' :: w') = LOp p ar').
    { unfold kind_of in *. rewrite T, Ev. destruct (tok_t t); [| |discriminate K]; destruct (label_name _); try discriminate K; destruct (seqb _ _); try discriminate K; destruct (ops_get _); try discriminate K; injection K as -> _; eexists; reflexivity. }
    destruct K' as [ar' K']. unfold respell. rewrite K', Ev.
    destruct (one_of branch_names (tok_v t)) eqn:Br; [|destruct (one_of table_names (tok_v t)) eqn:Ta].
    + cbn [texts map] in E. injection E as _ Ew. change (map tok_v w') with (texts w') in Ew. rewrite Ew. destruct w as [|a w]; [reflexivity|]. cbn [texts map].
      f_equal. f_equal. apply N. unfold names_labels. rewrite K, Br. left. reflexivity.
    + cbn [texts map] in E. injection E as _ Ew. change (map tok_v w') with (texts w') in Ew. rewrite Ew. cbn [texts map]. f_equal. rewrite map_map.
      transitivity (map (fun x => x) (map tok_v w)); [|apply map_id]. apply map_ext_in. intros n In_. apply N. unfold names_labels. rewrite K, Br, Ta. exact In_.
    + exact E.
  - cbn [texts map] in E. injection E as Ev Ew. unfold respell. assert (K' : kind_of (t' :: w') = LUnknown).
    { unfold kind_of in *. rewrite T, Ev. destruct (tok_t t); [| |discriminate K]; destruct (label_name _); try discriminate K; destruct (seqb _ _); try discriminate K; destruct (ops_get _); try discriminate K; reflexivity. }
    rewrite K'. unfold texts. cbn [map]. rewrite Ev, Ew. reflexivity.
Qed.

(* ------------------------------------------------------------------------------------------ *)
(* all words of a document are in its lines *)
Definition is_value (t : token) : bool := match tok_t t with TokValue => true | _ => false end.
Fixpoint tidy (ts : list token) : Prop :=
  match ts with
  | [] => True
  | c :: r => (is_comment c = true -> match r with [] => True | v :: _ => is_eol v = true end) /\ tidy r
  end.
Lemma after_comment r ps : ends_before is_eolc r -> Lexes r ps -> forall l c, match fst (layout l c ps) with [] => True | v :: _ => is_eol v = true end.
Proof.
  intros H L l c. destruct L as [|x r ps Hc L|r ps L|r ps L|r ps Hr L|w r ps Hw Hr L|w r ps Hq Hl L|w Hq|x w r ps Hq Hs Hw Hr L]; cbn [layout fst]; try exact I; try reflexivity; exfalso;
    cbn in H.
  - unfold is_eolc, is_blank in *. destruct H as [->| ->], Hc as [Hc|Hc]; discriminate Hc.
  - destruct H as [H|H]; discriminate H.
  - destruct H as [H|H]; discriminate H.
  - inversion Hw as [|? ? W _]; subst. apply W. unfold is_delim, is_eolc in *. tauto.
Qed.
Lemma tidy_layout s ps : Lexes s ps -> forall l c, tidy (fst (layout l c ps)).
Proof.
  induction 1 as [|x r ps Hc L IH|r ps L IH|r ps L IH|r ps Hr L IH|w r ps Hw Hr L IH|w r ps Hq Hl L IH|w Hq|x w r ps Hq Hs Hw Hr L IH]; intros l c; cbn [layout fst tidy]; try exact I; try apply IH;
    (split; [|apply IH]); try (intros Q; discriminate Q). intros _. exact (after_comment _ _ Hr L _ _).
Qed.
Lemma tidy_app a b : tidy (a ++ b) -> tidy b.
Proof. induction a as [|x a IH]; [trivial|]. cbn [app tidy]. intros [_ H]. apply IH. exact H. Qed.
Lemma code_values l b : tidy (l ++ b) -> existsb is_eol l = false -> filter is_value (code_of l) = filter is_value l.
Proof.
  assert (U : forall l b, tidy (l ++ b) -> existsb is_eol l = false -> filter is_value (until_comment l) = filter is_value l).
  { clear. induction l as [|t l IH]; intros b H E; [reflexivity|]. cbn [app tidy] in H. destruct H as [A B]. cbn [existsb] in E. apply orb_false_iff in E. destruct E as [E1 E2].
    cbn [until_comment]. destruct (is_comment t) eqn:C.
    - assert (l = []) as ->.
      { destruct l as [|u l]; [reflexivity|]. exfalso. specialize (A eq_refl). cbn in A. cbn [existsb] in E2. rewrite A in E2. discriminate E2. }
      cbn [filter]. unfold is_value, is_comment in *. destruct (tok_t t); try discriminate C. reflexivity.
    - cbn [filter]. rewrite (IH b B E2). reflexivity. }
  destruct l as [|t l]; [reflexivity|]. intros H E. cbn [app tidy] in H. destruct H as [_ B]. cbn [existsb] in E. apply orb_false_iff in E. cbn [code_of filter]. rewrite (U l b B (proj2 E)). reflexivity.
Qed.
Lemma values_lines ts raw : Lines ts raw -> tidy ts -> filter is_value ts = filter is_value (concat (map code_of raw)).
Proof.
  induction 1 as [|l N E|l t r ls E T L IH]; intros H.
  - reflexivity.
  - cbn [map concat]. rewrite app_nil_r. symmetry. apply (code_values l []); [rewrite app_nil_r; exact H|exact E].
  - cbn [map concat]. rewrite !filter_app, (code_values l (t :: r) H E). f_equal. cbn [filter].
    replace (is_value t) with false by (unfold is_value, is_eol in *; destruct (tok_t t); [reflexivity|discriminate T|reflexivity]).
    apply IH. apply tidy_app in H. exact (proj2 H).
Qed.

(* ------------------------------------------------------------------------------------------ *)
(* the pieces are determined by the words *)
Definition alike (p q : piece) : Prop := p = q \/ exists w w', p = PWord w /\ q = PWord w'.
Lemma change_alike es : Forall (fun e => exists c w, te_text e = c :: w /\ c <> c_quote) es ->
  forall ps l c, Forall2 alike ps (change es l c ps).
Proof.
  intros H. induction ps as [|p ps IH]; intros l c; cbn [change]; [constructor|].
  destruct p; try (constructor; [left; reflexivity|apply IH]). constructor; [|apply IH]. right. unfold cut_word.
  destruct (filter (starts_at l c) es) as [|e k] eqn:F; [eauto|].
  assert (I : In e es) by (apply (proj1 (filter_In (starts_at l c) e es)); rewrite F; left; reflexivity).
  rewrite Forall_forall in H. destruct (H e I) as (x & v & -> & Q). unfold retext. cbn [app starts_quote].
  destruct (Ascii.eqb x c_quote) eqn:Y; [apply Ascii.eqb_eq in Y; contradiction|]. eauto.
Qed.
Lemma alike_trans a b c : Forall2 alike a b -> Forall2 alike b c -> Forall2 alike a c.
Proof.
  intros F. revert c. induction F as [|x y a b H F IH]; intros c G; inversion G as [|? z ? c' K G']; subst; constructor; [|apply IH; exact G'].
  destruct H as [->|(w & w' & -> & ->)]; [exact K|]. destruct K as [<-|(v & v' & _ & ->)]; right; eauto.
Qed.
Lemma lexes_tail s p ps : Lexes s (p :: ps) -> (exists r, Lexes r ps) /\ (forall w, p = POpen w -> ps = []).
Proof.
  intros L. inversion L; subst; (split; [try (eexists; eassumption); exists []; constructor|intros v Q; try discriminate Q; reflexivity]).
Qed.
Lemma alike_same ps qs : Forall2 alike ps qs -> forall s l c k d, Lexes s ps ->
  map tok_v (filter is_value (fst (layout l c ps))) = map tok_v (filter is_value (fst (layout k d qs))) -> ps = qs.
Proof.
  induction 1 as [|p q ps qs H F IH]; intros s l c k d L E; [reflexivity|]. destruct (lexes_tail _ _ _ L) as [[r L'] O].
  destruct H as [<-|(w & w' & -> & ->)].
  - f_equal. destruct p; cbn [layout fst filter is_value tok_t map] in E; try (eapply IH; [exact L'|exact E]); try (injection E as E; eapply IH; [exact L'|exact E]).
    rewrite (O _ eq_refl) in F. inversion F. apply (O _ eq_refl).
  - cbn [layout fst filter is_value tok_t map tok_v] in E. injection E as <- E. f_equal. eapply IH; [exact L'|exact E].
Qed.

(* ------------------------------------------------------------------------------------------ *)
(* the document *)
Lemma edits_fit en src ps r es : Lexes src ps -> process en src = Ret r -> Forall (on_token (r_tokens r)) es ->
  fits es 0 0 ps /\ fst (layout 0 0 ps) = r_tokens r.
Proof.
  intros L P E. destruct (process_result en src r P) as [ts [errs [raw [lds [T [Li [_ R]]]]]]].
  rewrite (ro_tokens _ _ _ _ _ _ _ R) in *. rewrite (tokenize_spec _ _ L) in T. injection T as T.
  assert (Q : fst (layout 0 0 ps) = ts) by (rewrite T; reflexivity). split; [|exact Q].
  eapply Forall_impl; [|exact E]. cbn. intros e H. right. apply (target_token e src ps L 0 0). rewrite Q. exact H.
Qed.
Lemma prefix_word a b : a <> [] -> is_word (a ++ b) = true -> is_word a = true.
Proof.
  destruct a as [|c a]; [congruence|]. intros _. unfold is_word. cbn [app forallb]. rewrite forallb_app.
  rewrite !andb_true_iff, !negb_true_iff, !andb_false_iff. intros [[[D A] Q] S]. repeat split; try tauto.
  destruct S as [S|S]; [left; exact S|]. destruct a as [|d a]; [right; reflexivity|right; exact S].
Qed.

Section back.
Variables (en : env) (src : str) (ps : list piece) (r r' : presult) (old new : str).
Hypothesis HL : Lexes src ps.
Hypothesis HO : strings_on_one_line ps.
Hypothesis HP : process en src = Ret r.
Hypothesis HQ : Forall (fun t => starts_quote (tok_v t) = false) (r_refs r).
Hypothesis HW : is_word new = true.
Hypothesis HV : is_word old = true.
Hypothesis HS : ~ In new (map sy_name (r_syms r)).
Hypothesis HR : ~ In new (map tok_v (r_refs r)).
Let es := all_edits r old new.
Let src' := apply_edits es src.
Hypothesis HP' : process en src' = Ret r'.
Let es' := all_edits r' new old.

Lemma quotes_back : Forall (fun t => starts_quote (tok_v t) = false) (r_refs r').
Proof.
  destruct (rename_listing en src r HP HQ old new HW ps HL HO r' HP') as [_ [B _]].
  assert (G : Forall (fun v => starts_quote v = false) (map tok_v (r_refs r'))).
  { rewrite B. apply Forall_map, Forall_map. eapply Forall_impl; [|exact HQ]. cbn. intros t Q. unfold ren. destruct (seqb (tok_v t) old); [|exact Q].
    destruct new as [|c w]; [discriminate HW|]. unfold is_word in HW. apply andb_prop in HW. destruct HW as [W _]. apply andb_prop in W. destruct W as [_ W]. apply negb_true_iff in W. exact W. }
  rewrite Forall_map in G. exact G.
Qed.

Lemma texts_word e rr o n : is_word n = true -> In e (all_edits rr o n) -> exists c w, te_text e = c :: w /\ c <> c_quote.
Proof.
  intros W I. assert (te_text e = n) as ->.
  { unfold all_edits in I. apply in_app_or in I. destruct I as [I|I]; apply in_map_iff in I; destruct I as [t [<- _]]; reflexivity. }
  destruct (word_chars n W) as (c & w & -> & Q & _). eauto.
Qed.

Lemma ren_back n : n <> new -> ren new old (ren old new n) = n.
Proof.
  intros N. unfold ren. destruct (seqb n old) eqn:E.
  - rewrite (proj2 (seqb_eq new new) eq_refl). symmetry. apply seqb_eq. exact E.
  - destruct (seqb n new) eqn:F; [apply seqb_eq in F; contradiction|reflexivity].
Qed.

Lemma lines_back ls ls' ls'' : incl ls (r_lines r) -> incl ls' (r_lines r') ->
  Forall2 (Forall2 (edited_tok es)) ls ls' -> Forall2 (Forall2 (edited_tok es')) ls' ls'' ->
  map tok_v (filter is_value (concat ls)) = map tok_v (filter is_value (concat ls'')).
Proof.
  intros I I' F. revert ls'' I'. induction F as [|l l' ls ls' H F IH]; intros ls'' I' G; inversion G as [|? l'' ? k'' H' G']; subst; [reflexivity|].
  cbn [concat]. rewrite !filter_app, !map_app. rewrite (IH (fun x X => I x (or_intror X)) k'' (fun x X => I' x (or_intror X)) G'). f_equal.
  assert (Il : In l (r_lines r)) by (apply I; left; reflexivity). assert (Il' : In l' (r_lines r')) by (apply I'; left; reflexivity).
  pose proof (line_texts en src r HP HQ old new HW l l' Il H) as E1.
  pose proof (line_texts en src' r' HP' quotes_back new old HV l' l'' Il' H') as E2.
  destruct (symbols_complete _ _ _ HP) as [S1 [S2 _]].
  rewrite (respell_back (ren old new) (ren new old) l l') in E2.
  - clear - H H' E2. revert l'' H' E2. induction H as [|t t' l l' [A _] H IH]; intros l'' H' E2; inversion H' as [|? t'' ? k [B _] K]; subst; [reflexivity|].
    unfold texts in E2. cbn [map] in E2. injection E2 as E E2. cbn [filter]. replace (is_value t'') with (is_value t) by (unfold is_value; rewrite B, A; reflexivity).
    destruct (is_value t); cbn [map]; rewrite (IH k K E2), ?E; reflexivity.
  - clear - H. induction H as [|t t' l l' [A _] H IH]; constructor; assumption.
  - exact E1.
  - intros n In_. assert (Nn : n <> new).
    { intros ->. apply HS. apply (f_equal (map (fun x => fst (fst (fst x))))) in S1. rewrite !map_map in S1. cbn [fst] in S1.
      change (map (fun s => sy_name s) (r_syms r)) with (map sy_name (r_syms r)) in S1. rewrite S1.
      apply in_map_iff in In_. destruct In_ as [d [Ed Id]]. apply in_map_iff. exists d. split; [exact Ed|]. apply in_flat_map. exists l. auto. }
    split; [|exact (ren_back n Nn)]. unfold ren. destruct (seqb n old); [intros ->; discriminate HW|]. intros ->. 
    apply in_map_iff in In_. destruct In_ as [d [Ed Id]]. unfold defines in Id. destruct l as [|t w]; [destruct Id|]. destruct (kind_of (t :: w)) as [| |[|c m]| | |]; try destruct Id as []. subst d. discriminate Ed.
    destruct H0.
  - intros n In_. apply ren_back. intros ->. apply HR. rewrite S2. apply in_map_iff in In_. destruct In_ as [t [Et It]]. apply in_map_iff. exists t. split; [exact Et|].
    apply in_flat_map. exists l. auto.
Qed.

Theorem rename_undone : apply_edits es' src' = src.
Proof.
  pose proof (es_nodup en src r HP HQ old new HW) as N. pose proof (es_tokens en src r HP HQ old new HW) as Tk.
  pose proof (es_nodup en src' r' HP' quotes_back new old HV) as N'. pose proof (es_tokens en src' r' HP' quotes_back new old HV) as Tk'.
  fold (all_edits r old new) in N, Tk. fold es in N, Tk. fold (all_edits r' new old) in N', Tk'. fold es' in N', Tk'.
  destruct (edits_fit en src ps r es HL HP Tk) as [Fi Y].
  destruct (lexes_change es src ps HL HO N 0 0 Fi) as [L1 O1]. pose proof (edited_change es src ps HL HO N 0 0 Fi) as X1.
  change (edited es 0 0 None src) with src' in X1. change (concat (map piece_text (change es 0 0 ps))) with (texts_of (change es 0 0 ps)) in X1. rewrite <- X1 in L1.
  destruct (edits_fit en src' _ r' es' L1 HP' Tk') as [Fi' Y'].
  destruct (lexes_change es' src' _ L1 O1 N' 0 0 Fi') as [L2 O2]. pose proof (edited_change es' src' _ L1 O1 N' 0 0 Fi') as X2.
  change (edited es' 0 0 None src') with (apply_edits es' src') in X2.
  match type of X2 with _ = concat (map piece_text ?q) => change (concat (map piece_text q)) with (texts_of q) in X2 end. rewrite <- X2 in L2.
  destruct (edit_lines en src' _ r' es' L1 O1 HP' N' Tk') as [ts2 [errs2 [raw2 [T2 [Li2 F2]]]]].
  pose proof (edit_result en src ps r es r' HL HO HP N Tk HP') as F1.
  rewrite X2. replace (change es' 0 0 (change es 0 0 ps)) with ps; [exact (lexes_text _ _ HL)|].
  apply (fun A => alike_same ps _ A src 0 0 0 0 HL).
  - eapply alike_trans; apply change_alike; apply Forall_forall; intros e I; eapply texts_word; [exact HW|exact I|exact HV|exact I].
  - rewrite (tokenize_spec _ _ L2) in T2. injection T2 as T2.
    assert (E2 : fst (layout 0 0 (change es' 0 0 (change es 0 0 ps))) = ts2) by (rewrite T2; reflexivity).
    pose proof (tidy_layout _ _ L2 0 0) as Ti2. rewrite E2 in Ti2. rewrite E2, (values_lines _ _ Li2 Ti2).
    destruct (process_result en src r HP) as [ts [errs [raw [lds [T [Li [_ R]]]]]]].
    pose proof (tidy_layout _ _ HL 0 0) as Ti. rewrite Y, (ro_tokens _ _ _ _ _ _ _ R) in *. rewrite (values_lines _ _ Li Ti), <- (ro_lines _ _ _ _ _ _ _ R).
    exact (lines_back _ _ _ (incl_refl _) (incl_refl _) F1 F2).
Qed.
End back.
