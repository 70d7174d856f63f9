(* Proofs about spacing. *)
From Verif Require Import Base LexSpec Lexer LexerProofs LexerThms Expr Linter Fields Literals Codec OpTable Print Process ProcessSpec ProcessDoc ProcessThms
  RoundTripSpec RoundTripLex DocProofs EditProofs FixLines ErrorSpec ErrorProofs DiagSpec DiagProofs InsertDoc SpacingSpec.
From Verif Require RoundTripExact.
From Coq Require Import Lia.

Lemma bare_line x : Forall (fun p => is_peol p = false) x ->
  (forall l c l' c', Forall2 same_tok (code_of (fst (layout l c x))) (fst (layout l' c' (bare AtStart x)))) /\
  (forall l c l' c', Forall2 same_tok (until_comment (fst (layout l c x))) (fst (layout l' c' (bare InCode x)))) /\
  (forall l c, fst (layout l c (bare Behind x)) = []).
Proof.
  induction 1 as [|p x N F (IH1 & IH2 & IH3)]; [repeat split; intros; constructor|].
  destruct p; try discriminate; cbn [bare layout fst code_of until_comment].
  - split; [|split]; intros; [apply IH1|apply IH2|apply IH3].
  - split; [|split]; intros.
    + constructor; [split; reflexivity|apply IH2].
    + cbn. rewrite IH3. constructor.
    + apply IH3.
  - split; [|split]; intros.
    + constructor; [split; reflexivity|apply IH2].
    + cbn [layout fst until_comment is_comment tok_t]. constructor; [split; reflexivity|apply IH2].
    + apply IH3.
  - split; [|split]; intros.
    + constructor; [split; reflexivity|apply IH2].
    + cbn [layout fst until_comment is_comment tok_t]. constructor; [split; reflexivity|apply IH2].
    + apply IH3.
  - split; [|split]; intros.
    + constructor.
    + constructor.
    + reflexivity.
Qed.

Lemma bare_no_eol x : Forall (fun p => is_peol p = false) x -> forall s, Forall (fun p => is_peol p = false) (bare s x).
Proof.
  induction 1 as [|p x N F IH]; intros s; [constructor|]. destruct p; try discriminate; cbn [bare]; try apply IH; destruct s; try (constructor; [reflexivity|]); try apply IH; constructor.
Qed.
Definition is_open (p : piece) : bool := match p with POpen _ => true | _ => false end.
Lemma bare_no_open x : Forall (fun p => is_open p = false) x -> forall s, Forall (fun p => is_open p = false) (bare s x).
Proof.
  induction 1 as [|p x N F IH]; intros s; [constructor|]. destruct p; try discriminate; cbn [bare]; try apply IH; try (constructor; [reflexivity|apply IH]); destruct s; try (constructor; [reflexivity|]); apply IH.
Qed.
Lemma bare_split w r x : Forall (fun p => is_open p = false) x -> Forall (fun p => is_peol p = false) x ->
  forall s, bare s (x ++ PEol w :: r) = bare s x ++ PEol [c_lf] :: bare AtStart r.
Proof.
  induction 1 as [|p x N F IH]; intros G s; [reflexivity|]. inversion_clear G as [|? ? G1 G2]. specialize (IH G2).
  destruct p; try discriminate; cbn [bare app]; try apply IH; destruct s; try apply IH; rewrite IH; reflexivity.
Qed.
(* where an open string leaves off *)
Lemma bare_open w x : Forall (fun p => is_open p = false) x -> forall s,
  exists y, bare s (x ++ [POpen w]) = y ++ [POpen w] /\ eols y = eols x.
Proof.
  induction 1 as [|p x N F IH]; intros s; [exists []; split; reflexivity|].
  destruct p; try discriminate; cbn [bare app]; destruct s;
    match goal with |- exists y, ?p :: bare ?s _ = _ /\ _ => destruct (IH s) as (y & -> & E); exists (p :: y); split; [reflexivity|unfold eols in *; cbn; congruence]
    | |- exists y, bare ?s _ = _ /\ _ => destruct (IH s) as (y & -> & E); exists y; split; [reflexivity|exact E] end.
Qed.

Lemma tokens_no_eol x : Forall (fun p => is_peol p = false) x -> forall l c, existsb is_eol (fst (layout l c x)) = false.
Proof. induction 1 as [|p x N F IH]; intros l c; [reflexivity|]. destruct p; try discriminate; cbn [layout fst existsb]; try apply IH. reflexivity. Qed.

Lemma same_tok_none (a b : list token) : Forall2 same_tok (code_of a) b -> (a = [] <-> b = []).
Proof. intros F. destruct a; cbn [code_of] in F; inversion F; subst; split; congruence. Qed.

Lemma cut_eol ps : Forall (fun p => is_peol p = false) ps \/ exists x w r, ps = x ++ PEol w :: r /\ Forall (fun p => is_peol p = false) x.
Proof.
  induction ps as [|p ps [IH|(x & w & r & -> & F)]]; [left; constructor| |].
  - destruct (is_peol p) eqn:E; [|left; constructor; assumption]. destruct p; try discriminate. right. exists [], w, ps. split; [reflexivity|constructor].
  - right. destruct (is_peol p) eqn:E; [destruct p; try discriminate; exists [], w0, (x ++ PEol w :: r); split; [reflexivity|constructor]|].
    exists (p :: x), w, r. split; [reflexivity|constructor; assumption].
Qed.
Definition open_last (ps : list piece) : Prop := forall a w b, ps = a ++ POpen w :: b -> b = [].
Lemma open_last_lexes s ps : Lexes s ps -> open_last ps.
Proof.
  induction 1 as [|c r ps B L IH|r ps L IH|r ps L IH|r ps N L IH|w r ps F B L IH|w r ps Q N L IH|w Q|c w r ps N M F B L IH]; intros [|y a] v b E; cbn [app] in E;
    try discriminate; try (injection E as _ E; exact (IH _ _ _ E)).
  - injection E as _ E. congruence.
  - injection E as _ E. destruct a; discriminate.
Qed.
Lemma open_last_free x p r : open_last (x ++ p :: r) -> Forall (fun q => is_open q = false) x.
Proof.
  intros O. apply Forall_forall. intros q I. destruct q; try reflexivity. apply in_split in I as (a & b & ->).
  rewrite <- app_assoc in O. cbn [app] in O. specialize (O _ _ _ eq_refl). destruct b; discriminate.
Qed.
Lemma free_not x : Forall (fun q => is_open q = false) x -> forall w, ~ In (POpen w) x.
Proof. rewrite Forall_forall. intros F w I. discriminate (F _ I). Qed.

Lemma bare_lines n : forall ps, length ps <= n -> open_last ps -> forall l c l' c' raw, Lines (fst (layout l c ps)) raw ->
  exists rawN, Lines (fst (layout l' c' (bare AtStart ps))) rawN /\ Forall2 (Forall2 same_tok) (map code_of raw) rawN.
Proof.
  induction n as [|n IH]; intros ps H O l c l' c' raw L.
  - destruct ps; [|cbn in H; lia]. cbn in *. inversion L; subst; try congruence; [|destruct l0; discriminate]. exists []. split; constructor.
  - destruct (cut_eol ps) as [F|(x & w & r & -> & F)].
    + pose proof (tokens_no_eol ps F l c) as E. destruct (bare_line ps F) as (B & _). specialize (B l c l' c').
      pose proof (tokens_no_eol _ (bare_no_eol ps F AtStart) l' c') as E'. pose proof (same_tok_none _ _ B) as Z.
      destruct (fst (layout l c ps)) as [|t ts] eqn:T.
      * rewrite (proj1 Z eq_refl). assert (raw = []) as -> by exact (Lines_fun _ _ L _ Lines_none). exists []. split; constructor.
      * assert (raw = [t :: ts]) as -> by (refine (Lines_fun _ _ L _ (Lines_last _ _ E)); discriminate).
        exists [fst (layout l' c' (bare AtStart ps))]. split; [constructor; [|exact E']; intros Q; apply Z in Q; discriminate|]. constructor; [exact B|constructor].
    + pose proof (open_last_free _ _ _ O) as Ox. pose proof (free_not _ Ox) as Nx.
      destruct (layout_app x Nx l c (PEol w :: r)) as (c1 & A & _). cbn [layout fst] in A.
      rewrite (bare_split w r x Ox F AtStart).
      destruct (layout_app _ (free_not _ (bare_no_open x Ox AtStart)) l' c' (PEol [c_lf] :: bare AtStart r)) as (c2 & A' & _). cbn [layout fst] in A'.
      rewrite A in L. rewrite A'.
      destruct (bare_line x F) as (B & _). specialize (B l c l' c').
      destruct (lines_exist (fst (layout (S (end_line l x)) 0 r))) as [rr Lr].
      assert (raw = fst (layout l c x) :: rr) as ->.
      { refine (Lines_fun _ _ L _ (Lines_eol _ _ _ _ (tokens_no_eol x F l c) _ Lr)). reflexivity. }
      destruct (IH r) with (l := S (end_line l x)) (c := 0) (l' := S (end_line l' (bare AtStart x))) (c' := 0) (raw := rr) as (rn & Ln & Fn).
      * rewrite app_length in H. cbn in H. lia.
      * intros a v b E. apply (O (x ++ PEol w :: a) v b). rewrite E, <- app_assoc. reflexivity.
      * exact Lr.
      * exists (fst (layout l' c' (bare AtStart x)) :: rn). split; [apply Lines_eol; [apply tokens_no_eol; apply bare_no_eol; exact F|reflexivity|exact Ln]|].
        cbn [map]. constructor; [exact B|exact Fn].
Qed.

Lemma same_tok_sym t t' : same_tok t t' -> same_tok t' t.
Proof. intros [A B]. split; congruence. Qed.
Lemma same_tok_join (a b c : list token) : Forall2 same_tok a c -> Forall2 same_tok b c -> Forall2 same_tok a b.
Proof.
  intros F. revert b. induction F as [|x z a c H F IH]; intros b G; inversion G as [|y ? b' ? H' G']; subst; constructor; [|exact (IH _ G')].
  destruct H, H'. split; congruence.
Qed.

Lemma respaced_lines ps ps' raw raw' : open_last ps -> open_last ps' -> bare AtStart ps = bare AtStart ps' ->
  Lines (fst (layout 0 0 ps)) raw -> Lines (fst (layout 0 0 ps')) raw' -> Forall2 (Forall2 same_tok) (map code_of raw) (map code_of raw').
Proof.
  intros O O' E L L'. destruct (bare_lines _ ps (le_n _) O 0 0 0 0 raw L) as (n & Ln & F). destruct (bare_lines _ ps' (le_n _) O' 0 0 0 0 raw' L') as (n' & Ln' & F').
  rewrite <- E in Ln'. rewrite (Lines_fun _ _ Ln' _ Ln) in F'. clear - F F'. revert F'. generalize (map code_of raw'). induction F as [|x z a c H F IH]; intros b G; inversion G as [|y ? b' ? H' G']; subst; constructor; [|exact (IH _ G')].
  exact (same_tok_join _ _ _ H H').
Qed.

(* ------------------------------------------------------------------------------------------ *)
(* strings without an end *)
Lemma no_errors x : Forall (fun p => is_open p = false) x -> forall l c, snd (layout l c x) = [].
Proof. induction 1 as [|p x N F IH]; intros l c; [reflexivity|]. destruct p; try discriminate; cbn [layout snd]; apply IH. Qed.
Lemma one_error w x : Forall (fun p => is_open p = false) x -> forall l c, exists c', snd (layout l c (x ++ [POpen w])) = [LexErr (l + eols x) c' IncompleteString].
Proof.
  induction 1 as [|p x N F IH]; intros l c.
  - eexists. cbn. rewrite Nat.add_0_r. reflexivity.
  - destruct p; try discriminate; cbn [app layout snd]; unfold eols; cbn [filter is_peol length]; fold (eols x); try apply IH.
    rewrite <- plus_n_Sm. change (S (l + eols x)) with (S l + eols x). apply IH.
Qed.
Lemma open_or_not ps : open_last ps -> Forall (fun p => is_open p = false) ps \/ exists x w, ps = x ++ [POpen w] /\ Forall (fun p => is_open p = false) x.
Proof.
  intros O. destruct (existsb is_open ps) eqn:E.
  - apply existsb_exists in E as (p & I & E). destruct p; try discriminate. apply in_split in I as (a & b & ->). right.
    pose proof (O _ _ _ eq_refl) as ->. exists a, w. split; [reflexivity|]. exact (open_last_free _ _ _ O).
  - left. apply Forall_forall. intros p I. destruct (is_open p) eqn:Q; [|reflexivity]. rewrite <- E. symmetry. apply existsb_exists. eauto.
Qed.
Lemma respaced_errors ps ps' : open_last ps -> open_last ps' -> bare AtStart ps = bare AtStart ps' ->
  Forall2 (fun e e' => le_l e = le_l e' /\ le_msg e = le_msg e') (snd (layout 0 0 ps)) (snd (layout 0 0 ps')).
Proof.
  intros O O' E. destruct (open_or_not _ O) as [F|(x & w & -> & F)], (open_or_not _ O') as [F'|(x' & w' & -> & F')].
  - rewrite !no_errors by assumption. constructor.
  - exfalso. destruct (bare_open w' x' F' AtStart) as (y & Y & _). rewrite Y in E. pose proof (bare_no_open _ F AtStart) as G. rewrite E in G.
    apply (free_not _ G w'). apply in_or_app. right. left. reflexivity.
  - exfalso. destruct (bare_open w x F AtStart) as (y & Y & _). rewrite Y in E. pose proof (bare_no_open _ F' AtStart) as G. rewrite <- E in G.
    apply (free_not _ G w). apply in_or_app. right. left. reflexivity.
  - destruct (bare_open w x F AtStart) as (y & Y & C), (bare_open w' x' F' AtStart) as (y' & Y' & C'). rewrite Y, Y' in E. apply app_inj_tail in E as [-> _].
    destruct (one_error w x F 0 0) as [c ->], (one_error w' x' F' 0 0) as [c' ->]. constructor; [|constructor]. cbn. split; [congruence|reflexivity].
Qed.

(* ------------------------------------------------------------------------------------------ *)
(* complaints about lines *)
Lemma kind_same l l' : Forall2 same_tok l l' -> kind_of l = kind_of l'.
Proof.
  intros F. apply same_kind. unfold same_texts. induction F as [|t t' x x' [T V] F IH]; [reflexivity|]. cbn [map]. rewrite IH. f_equal. unfold is_comment. rewrite T, V. reflexivity.
Qed.
Lemma length_same l l' : Forall2 same_tok l l' -> length l = length l'.
Proof. induction 1; cbn; congruence. Qed.
Lemma fault_same en v l l' : Forall2 same_tok l l' -> line_fault en v l = line_fault en v l'.
Proof.
  intros F. unfold line_fault. rewrite (kind_same _ _ F), (length_same _ _ F). destruct F as [|t t' x x' [_ V] F]; [reflexivity|]. rewrite V. reflexivity.
Qed.
Lemma nth_same {A} (R : A -> A -> Prop) l l' i x : Forall2 R l l' -> nth_error l i = Some x -> exists y, nth_error l' i = Some y /\ R x y.
Proof. intros F. revert i. induction F as [|a b l l' H F IH]; intros [|i] E; try discriminate; [injection E as ->; exists b; auto|exact (IH i E)]. Qed.

Definition marked (L L' : list (list token)) (d d' : diagnostic) : Prop :=
  dg_line d = dg_line d' /\ dg_kind d = dg_kind d' /\
  exists l l', nth_error L (dg_line d) = Some l /\ nth_error L' (dg_line d) = Some l' /\
    ((l = [] /\ l' = [] /\ dg_b d = 0 /\ dg_e d = 0 /\ dg_b d' = 0 /\ dg_e d' = 0) \/ exists x y, marks_tokens l d x y /\ marks_tokens l' d' x y).

Lemma token_marked L L' i l l' k t t' kd : nth_error L i = Some l -> nth_error L' i = Some l' -> nth_error l k = Some t -> nth_error l' k = Some t' ->
  tok_l t = i -> tok_l t' = i -> marked L L' (Diag (tok_l t) (tok_b t) (tok_e t) kd) (Diag (tok_l t') (tok_b t') (tok_e t') kd).
Proof.
  intros N N' K K' E E'. split; [cbn; congruence|]. split; [reflexivity|]. cbn [dg_line]. rewrite E. exists l, l'. split; [exact N|]. split; [exact N'|]. right.
  exists k, k. split; [exists t, t; auto|exists t', t'; auto].
Qed.

Lemma gate_marked L L' i l l' m v : nth_error L i = Some l -> nth_error L' i = Some l' -> Forall2 same_tok l l' ->
  Forall (fun t => tok_l t = i) l -> Forall (fun t => tok_l t = i) l' -> Forall2 (marked L L') (gate m v l) (gate m v l').
Proof.
  intros N N' F A A'. pose proof (kind_same _ _ F) as K. destruct F as [|t t' x x' H F]; [constructor|]. unfold gate. rewrite <- K.
  inversion_clear A as [|? ? A1 _]. inversion_clear A' as [|? ? A1' _].
  destruct (kind_of (t :: x)) as [| | | |p args|]; try constructor. apply Forall2_app.
  - destruct (_ =? 0)%N; [|constructor]. constructor; [|constructor]. apply (token_marked L L' i (t :: x) (t' :: x') 0); auto.
  - destruct (_ <? _)%N; [|constructor]. constructor; [|constructor]. apply (token_marked L L' i (t :: x) (t' :: x') 0); auto.
Qed.
Lemma errors_marked L L' en i l l' v ds ds' : nth_error L i = Some l -> nth_error L' i = Some l' -> Forall2 same_tok l l' ->
  Forall (fun t => tok_l t = i) l -> Forall (fun t => tok_l t = i) l' -> line_errors en v l ds -> line_errors en v l' ds' -> Forall2 (marked L L') ds ds'.
Proof.
  intros N N' F A A' E E'. apply errors_fault in E. apply errors_fault in E'. rewrite <- (fault_same en v _ _ F) in E'.
  destruct (line_fault en v l) as [f|]; [|subst; constructor]. destruct E as (t & -> & _ & M), E' as (t' & -> & _ & M').
  constructor; [|constructor]. rewrite <- (length_same _ _ F) in M'. rewrite Forall_forall in A, A'.
  apply (token_marked L L' i l l' (length l - S (fst f)) t t'); auto; [apply A|apply A']; eapply nth_error_In; eassumption.
Qed.
Lemma after_same m v l l' : Forall2 same_tok l l' -> mode_after m l = mode_after m l' /\ version_after v l = version_after v l'.
Proof. intros F. unfold mode_after, version_after. rewrite (kind_same _ _ F). auto. Qed.

Lemma all_marked L L' en ls ls' : Forall2 (Forall2 same_tok) ls ls' -> forall i m v ds ds',
  (forall j l, nth_error ls j = Some l -> nth_error L (i + j) = Some l) -> (forall j l, nth_error ls' j = Some l -> nth_error L' (i + j) = Some l) ->
  lines_at i ls -> lines_at i ls' -> all_errors en m v ls ds -> all_errors en m v ls' ds' -> Forall2 (marked L L') ds ds'.
Proof.
  induction 1 as [|l l' ls ls' H F IH]; intros i m v ds ds' N N' A A' E E'; cbn [all_errors lines_at] in *; [subst; constructor|].
  destruct E as (a & b & -> & E1 & E2), E' as (a' & b' & -> & E1' & E2'), A as [[A1 _] A2], A' as [[A1' _] A2'].
  pose proof (N 0 l eq_refl) as Ni. pose proof (N' 0 l' eq_refl) as Ni'. rewrite Nat.add_0_r in Ni, Ni'.
  apply Forall2_app; [exact (gate_marked L L' i l l' m v Ni Ni' H A1 A1')|]. apply Forall2_app; [exact (errors_marked L L' en i l l' v a a' Ni Ni' H A1 A1' E1 E1')|].
  destruct (after_same m v _ _ H) as [Em Ev]. rewrite <- Em, <- Ev in E2'. apply (IH (S i) (mode_after m l) (version_after v l) b b'); try assumption.
  - intros j x Q. replace (S i + j) with (i + S j) by lia. apply N. exact Q.
  - intros j x Q. replace (S i + j) with (i + S j) by lia. apply N'. exact Q.
Qed.

Lemma lint_marked L L' es : Forall2 (Forall2 same_tok) L L' -> forall ds ds', lint_diags L es = Ret ds -> lint_diags L' es = Ret ds' -> Forall2 (marked L L') ds ds'.
Proof.
  intros F ds ds' E E'. apply lint_diags_range in E. apply lint_diags_range in E'. revert ds' E'.
  induction E as [|e d es ds (l & N & ->) E IH]; intros ds' E'; inversion E' as [|? d' ? ds1 (l' & N' & ->) E1]; subst; constructor; [|exact (IH _ E1)].
  split; [reflexivity|]. split; [reflexivity|]. cbn [dg_line dg_b dg_e]. exists l, l'. split; [exact N|]. split; [exact N'|].
  destruct (nth_same _ _ _ _ _ F N) as (l2 & N2 & S). rewrite N' in N2. injection N2 as <-. pose proof (length_same _ _ S) as Len.
  destruct S as [|t t' x x' T S]; [left; repeat split; reflexivity|]. right. exists 0, (length x).
  unfold marks_tokens. cbn [dg_b dg_e].
  assert (Q : forall (z : token) y, exists w, nth_error (z :: y) (length y) = Some w /\ line_end (z :: y) = tok_e w).
  { intros z y. destruct (nth_error (z :: y) (length y)) as [w|] eqn:W.
    - exists w. split; [reflexivity|]. unfold line_end. replace (length (z :: y) - 1) with (length y) by (cbn; lia). rewrite W. reflexivity.
    - apply nth_error_None in W. cbn in W. lia. }
  cbn [length] in Len. injection Len as Len. split.
  - destruct (Q t x) as (w & W & Ew). exists t, w. auto.
  - destruct (Q t' x') as (w & W & Ew). exists t', w. rewrite Len. auto.
Qed.

Theorem respaced_same en s s' r : respaced s s' -> process en s = Ret r ->
  exists r', process en s' = Ret r' /\ Forall2 (alike r r') (r_diag r) (r_diag r') /\
    r_listing r' = r_listing r /\ r_version r' = r_version r /\ r_mode r' = r_mode r.
Proof.
  intros (ps & ps' & Lx & Lx' & B) P. pose proof (open_last_lexes _ _ Lx) as O. pose proof (open_last_lexes _ _ Lx') as O'.
  destruct (process_result _ _ _ P) as (ts & errs & raw & lds & T & Ln & A & R). rewrite (tokenize_spec _ _ Lx) in T. injection T as T.
  destruct (process_outcome en s') as (ts' & errs' & raw' & T' & Ln' & C). rewrite (tokenize_spec _ _ Lx') in T'. injection T' as T'.
  assert (F : Forall2 (Forall2 same_tok) (map code_of raw) (map code_of raw')).
  { apply (respaced_lines ps ps'); try assumption; [rewrite T; exact Ln|rewrite T'; exact Ln']. }
  assert (F1 : Forall2 same_texts (map code_of raw) (map code_of raw')).
  { clear - F. induction F as [|l l' ls ls' H F IH]; constructor; [|exact IH]. clear - H. unfold same_texts.
    induction H as [|t t' x x' [E V] F IH]; [reflexivity|]. cbn [map]. rewrite IH. f_equal. unfold is_comment. rewrite E, V. reflexivity. }
  destruct (same_all_entries en _ _ F1 1%N) as [Eg Ev].
  assert (Len : length raw = length raw').
  { rewrite <- (map_length code_of raw), <- (map_length code_of raw'). clear - F. induction F; cbn; congruence. }
  assert (Em : forall m, last_mode m (map code_of raw) = last_mode m (map code_of raw')).
  { clear - F. induction F as [|l l' ls ls' H F IH]; intros m; [reflexivity|]. cbn [last_mode]. rewrite (proj1 (after_same m 0%N _ _ H)). apply IH. }
  pose proof (ro_lines _ _ _ _ _ _ _ R) as Rl. pose proof (ro_listing _ _ _ _ _ _ _ R) as Rg. pose proof (ro_lint _ _ _ _ _ _ _ R) as Rd.
  destruct C as [[r' P']|(_ & e & I & H)].
  2: { exfalso. rewrite Rg, Rl, Eg in Rd. apply lint_diags_range in Rd. clear - Rd I H Len.
       assert (exists l, nth_error (map code_of raw) (le_line e) = Some l) as [l N].
       { induction Rd as [|x d es ds (l & N & _) Q IH]; [destruct I|]. destruct I as [->|I]; [eauto|exact (IH I)]. }
       assert (le_line e < length (map code_of raw)) by (apply nth_error_Some; congruence). rewrite map_length in *. lia. }
  exists r'. split; [exact P'|].
  destruct (process_result _ _ _ P') as (ts2 & errs2 & raw2 & lds2 & T2 & Ln2 & A2 & R2). rewrite (tokenize_spec _ _ Lx') in T2. injection T2 as T2.
  assert (E12 : (ts2, errs2) = (ts', errs')) by congruence. injection E12 as -> ->. rewrite (Lines_fun _ _ Ln2 _ Ln') in *. clear Ln2 raw2.
  pose proof (ro_lines _ _ _ _ _ _ _ R2) as Rl2. pose proof (ro_listing _ _ _ _ _ _ _ R2) as Rg2. pose proof (ro_lint _ _ _ _ _ _ _ R2) as Rd2.
  split; [|split; [|split]].
  2: { rewrite Rg, Rg2, Rl, Rl2. symmetry. exact Eg. }
  2: { rewrite (ro_version _ _ _ _ _ _ _ R), (ro_version _ _ _ _ _ _ _ R2), Rl, Rl2. symmetry. exact Ev. }
  2: { rewrite (ro_mode _ _ _ _ _ _ _ R), (ro_mode _ _ _ _ _ _ _ R2), Rl, Rl2. symmetry. apply Em. }
  destruct (ro_diag _ _ _ _ _ _ _ R) as (ds & -> & Hd), (ro_diag _ _ _ _ _ _ _ R2) as (ds2 & -> & Hd2).
  rewrite Rl in Hd, Rd. rewrite Rl2 in Hd2, Rd2. rewrite Rg2, Rl2, <- Eg in Rd2. rewrite Rg, Rl in Rd.
  assert (X : forall a b, Forall2 (marked (map code_of raw) (map code_of raw')) a b -> Forall2 (alike r r') a b).
  { induction 1 as [|d d' a b (H1 & H2 & H3) Q IH]; constructor; [|exact IH]. constructor; [exact H1|exact H2|]. rewrite Rl, Rl2. destruct (dg_kind d); [exact I|exact H3..]. }
  apply Forall2_app; [|apply Forall2_app].
  - pose proof (respaced_errors _ _ O O' B) as Q. rewrite T, T' in Q. cbn [snd] in Q. clear - Q. induction Q as [|e e' a b [E1 E2] Q IH]; cbn [map]; constructor; [|exact IH].
    constructor; [exact E1|cbn; congruence|exact I].
  - apply X. apply (all_marked _ _ en _ _ F 0 ModeApp 1%N); auto.
  - apply X. exact (lint_marked _ _ _ F _ _ Rd Rd2).
Qed.
