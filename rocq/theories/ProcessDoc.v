(* the lines of a document, and all of them through Process *)
From Verif Require Import Base LexSpec Lexer LexerProofs LexerThms Expr Linter Fields Strconv Literals Codec OpTable Process ProcessSpec ProcessProofs ProcessRun ProcessLine.
From Coq Require Import ZifyBool ZifyNat ZifyN.

(* ------------------------------------------------------------------------------------------ *)
(* what the lexer guarantees about its tokens, from line l, column c *)
Definition eol_next (ts : list token) : Prop := match ts with [] => True | t :: _ => tok_t t = TokEol end.
Fixpoint good (l c : nat) (ts : list token) : Prop :=
  match ts with
  | [] => True
  | t :: r =>
      tok_l t = l /\ c <= tok_b t <= tok_e t /\
      match tok_t t with
      | TokEol => good (S l) 0 r
      | TokValue => tok_v t <> [] /\ good l (tok_e t) r
      | TokComment => eol_next r /\ good l (tok_e t) r
      end
  end.

Lemma good_weaken ts : forall l c c', c' <= c -> good l c ts -> good l c' ts.
Proof.
  destruct ts as [|t r]; [auto|]. intros l c c' H [E [B G]]. cbn [good]. repeat split; try tauto; lia.
Qed.

Lemma good_layout s ps : Lexes s ps -> forall l c, good l c (fst (layout l c ps)).
Proof.
  induction 1; intros l0 c0; cbn [layout fst good tok_l tok_b tok_e tok_t tok_v]; auto.
  - eapply good_weaken; [|apply IHLexes]. lia.
  - split; [reflexivity|]. split; [lia|]. apply IHLexes.
  - split; [reflexivity|]. split; [lia|]. apply IHLexes.
  - split; [reflexivity|]. split; [lia|]. apply IHLexes.
  - split; [reflexivity|]. split; [lia|]. split; [|apply IHLexes].
    destruct H1; cbn [layout fst eol_next tok_t]; auto.
    + cbn in H0. destruct H0 as [-> | ->], H1 as [E|E]; discriminate E.
    + cbn in H0. destruct H0 as [E|E]; discriminate E.
    + cbn in H0. destruct H0 as [E|E]; discriminate E.
    + cbn in H0. exfalso. match goal with F : Forall _ (_ :: _) |- _ => inversion F as [|? ? Nd _]; subst end. apply Nd. right. exact H0.
  - split; [reflexivity|]. split; [lia|]. split; [discriminate|]. apply IHLexes.
  - split; [reflexivity|]. split; [lia|]. split; [discriminate|]. apply IHLexes.
Qed.

Lemma good_tokenize src ts errs : tokenize src = Ret (ts, errs) -> good 0 0 ts.
Proof.
  intros E. destruct (lexes_exists src) as [ps L]. rewrite (tokenize_spec _ _ L) in E.
  injection E as E. pose proof (good_layout _ _ L 0 0) as G. rewrite E in G. exact G.
Qed.

(* ------------------------------------------------------------------------------------------ *)
Lemma split_lines_spec ts : forall acc, existsb is_eol acc = false ->
  ts <> [] \/ acc = [] -> Lines (acc ++ ts) (split_lines ts acc).
Proof.
  induction ts as [|t r IH]; intros acc A H.
  - destruct H as [H| ->]; [congruence|]. constructor.
  - cbn [split_lines]. destruct (tok_t t) eqn:T.
    + constructor; [exact A|unfold is_eol; rewrite T; reflexivity|]. apply (IH [] eq_refl). right. reflexivity.
    + assert (A' : existsb is_eol (acc ++ [t]) = false).
      { rewrite existsb_app, A. cbn. unfold is_eol. rewrite T. reflexivity. }
      destruct r as [|t' r'].
      * apply Lines_last; [destruct acc; discriminate|exact A'].
      * change (acc ++ t :: t' :: r') with (acc ++ [t] ++ (t' :: r')). rewrite app_assoc. apply IH; [exact A'|left; discriminate].
    + assert (A' : existsb is_eol (acc ++ [t]) = false).
      { rewrite existsb_app, A. cbn. unfold is_eol. rewrite T. reflexivity. }
      destruct r as [|t' r'].
      * apply Lines_last; [destruct acc; discriminate|exact A'].
      * change (acc ++ t :: t' :: r') with (acc ++ [t] ++ (t' :: r')). rewrite app_assoc. apply IH; [exact A'|left; discriminate].
Qed.

Lemma lines_count ts ls : Lines ts ls -> 
  length ls = length (filter is_eol ts) + (match rev ts with t :: _ => if is_eol t then 0 else 1 | [] => 0 end).
Proof.
  induction 1.
  - reflexivity.
  - assert (F : filter is_eol l = []).
    { clear H. induction l as [|t l IH]; [reflexivity|]. cbn in *. destruct (is_eol t); [discriminate|apply IH; assumption]. }
    rewrite F. destruct (exists_last H) as [l' [t ->]]. rewrite rev_app_distr. cbn.
    rewrite existsb_app in H0. apply orb_false_iff in H0. destruct H0 as [_ E]. cbn in E.
    rewrite orb_false_r in E. rewrite E. reflexivity.
  - rewrite filter_app, app_length. cbn [filter length]. rewrite H0. cbn [length]. rewrite IHLines.
    assert (F : filter is_eol l = []).
    { clear - H. induction l as [|t l IH]; [reflexivity|]. cbn in *. destruct (is_eol t); [discriminate|apply IH; assumption]. }
    rewrite F. cbn [length]. rewrite rev_app_distr. cbn [rev].
    destruct r as [|x r'] using rev_ind; [cbn; rewrite H0; reflexivity|].
    rewrite !rev_app_distr. cbn. lia.
Qed.

(* one line out of a good stream *)
Fixpoint line_good (l c : nat) (ts : list token) : Prop :=
  match ts with
  | [] => True
  | t :: r =>
      tok_l t = l /\ c <= tok_b t <= tok_e t /\
      match tok_t t with
      | TokEol => False
      | TokValue => tok_v t <> [] /\ line_good l (tok_e t) r
      | TokComment => r = []
      end
  end.

Lemma good_line w : forall l c t r, existsb is_eol w = false -> is_eol t = true -> good l c (w ++ t :: r) ->
  line_good l c w /\ good (S l) 0 r.
Proof.
  induction w as [|x w IH]; intros l c t r E T G.
  - cbn in G. unfold is_eol in T. destruct (tok_t t); try discriminate. split; [exact I|tauto].
  - cbn in E. apply orb_false_iff in E. destruct E as [Ex E]. cbn [app good line_good] in *.
    unfold is_eol in Ex. destruct G as [G1 [G2 G]]. destruct (tok_t x); try discriminate.
    + destruct G as [G3 G]. destruct (IH _ _ _ _ E T G) as [A B]. tauto.
    + destruct G as [G3 G]. destruct w as [|y w].
      * cbn [app] in G. destruct (IH _ _ _ _ E T G) as [A B]. tauto.
      * exfalso. cbn in G3, E. unfold is_eol in E. rewrite G3 in E. discriminate.
Qed.

Lemma good_last w : forall l c, existsb is_eol w = false -> good l c w -> line_good l c w.
Proof.
  induction w as [|x w IH]; intros l c E G; [exact I|].
  cbn in E. apply orb_false_iff in E. destruct E as [Ex E]. cbn [app good line_good] in *.
  unfold is_eol in Ex. destruct G as [G1 [G2 G]]. destruct (tok_t x); try discriminate.
  - destruct G as [G3 G]. specialize (IH _ _ E G). tauto.
  - destruct G as [G3 G]. destruct w as [|y w]; [tauto|].
    exfalso. cbn in G3, E. unfold is_eol in E. rewrite G3 in E. discriminate.
Qed.

Fixpoint lines_good (i : nat) (ls : list (list token)) : Prop :=
  match ls with [] => True | l :: r => line_good i 0 l /\ lines_good (S i) r end.

Lemma good_lines ts ls : Lines ts ls -> forall i, good i 0 ts -> lines_good i ls.
Proof.
  induction 1; intros i G.
  - exact I.
  - split; [apply good_last; assumption|exact I].
  - destruct (good_line _ _ _ _ _ H H0 G) as [A B]. split; [exact A|apply IHLines; exact B].
Qed.

(* cutting the comment off *)
Lemma cut_from_none l : forall i, existsb is_comment l = false -> cut_from i l = None.
Proof.
  induction l as [|t l IH]; intros i E; [reflexivity|]. cbn in *. apply orb_false_iff in E. destruct E as [E1 E2].
  rewrite (IH _ E2), E1. reflexivity.
Qed.

Lemma line_good_tail l : forall i c, line_good i c l ->
  (existsb is_comment l = false /\ until_comment l = l) \/
  (exists w t, l = w ++ [t] /\ is_comment t = true /\ existsb is_comment w = false /\ until_comment l = w).
Proof.
  induction l as [|t l IH]; intros i c G; [left; split; reflexivity|].
  cbn [line_good] in G. destruct G as [_ [_ G]]. cbn [existsb until_comment].
  destruct (tok_t t) eqn:T; [destruct G| |]; replace (is_comment t) with (match tok_t t with TokComment => true | _ => false end) by reflexivity; rewrite T; cbn [orb].
  - destruct G as [_ G]. destruct (IH _ _ G) as [[A B]|[w [x [-> [B [C D]]]]]].
    + left. split; [exact A|rewrite B; reflexivity].
    + right. exists (t :: w), x. split; [reflexivity|]. split; [exact B|]. split; [|rewrite D; reflexivity].
      cbn. rewrite C. unfold is_comment. rewrite T. reflexivity.
  - subst l. right. exists [], t. repeat split. unfold is_comment. rewrite T. reflexivity.
Qed.

Lemma cut_from_last w t : forall i, is_comment t = true -> existsb is_comment w = false -> cut_from i (w ++ [t]) = Some (i + length w).
Proof.
  induction w as [|x w IH]; intros i T E; cbn in *.
  - rewrite T. f_equal. lia.
  - apply orb_false_iff in E. destruct E as [E1 E2]. rewrite (IH _ T E2). f_equal. lia.
Qed.

Lemma line_good_rest i c t l : line_good i c (t :: l) -> exists c', line_good i c' l.
Proof.
  cbn [line_good]. intros [_ [_ G]]. destruct (tok_t t); [destruct G|exists (tok_e t); tauto|].
  subst l. exists 0. exact I.
Qed.

Lemma cut_line_code i c l : line_good i c l -> cut_line l = code_of l.
Proof.
  destruct l as [|t r]; [reflexivity|]. intros G. destruct (line_good_rest _ _ _ _ G) as [c' G'].
  unfold cut_line, code_of. destruct (line_good_tail _ _ _ G') as [[A B]|[w [x [-> [B [C D]]]]]].
  - rewrite (cut_from_none _ _ A), B. reflexivity.
  - rewrite (cut_from_last _ _ _ B C), D. cbn [plus firstn]. rewrite firstn_app, firstn_all, Nat.sub_diag.
    cbn [firstn]. rewrite app_nil_r. reflexivity.
Qed.

Lemma until_good i c l : line_good i c l -> line_good i c (until_comment l) /\ Forall (fun t => tok_v t <> []) (until_comment l).
Proof.
  revert c. induction l as [|t l IH]; intros c G; [split; constructor|].
  cbn [line_good until_comment] in *. unfold is_comment. destruct G as [G1 [G2 G]].
  destruct (tok_t t) eqn:T; [destruct G| |split; constructor].
  destruct G as [G3 G]. destruct (IH _ G) as [A B]. split; [|constructor; assumption].
  cbn [line_good]. rewrite T. tauto.
Qed.

Lemma code_good i c l : line_good i c l -> line_good i c (code_of l) /\ line_ok (code_of l).
Proof.
  destruct l as [|t r]; [split; exact I|]. intros G. cbn [code_of].
  cbn [line_good line_ok] in *. destruct G as [G1 [G2 G]]. destruct (tok_t t); [destruct G| |].
  - destruct G as [G3 G]. destruct (until_good _ _ _ G) as [A B]. tauto.
  - subst r. cbn [until_comment]. repeat split; auto; try tauto.
Qed.

Lemma good_at i l : forall c, line_good i c l -> Forall (fun t => tok_l t = i) l /\ sorted_from c l.
Proof.
  induction l as [|t l IH]; intros c G; [split; constructor|].
  cbn [line_good sorted_from] in *. destruct G as [G1 [G2 G]].
  destruct (tok_t t); [destruct G| |].
  - destruct G as [_ G]. destruct (IH _ G) as [A B]. repeat split; [constructor|tauto|tauto|]; assumption.
  - subst l. repeat split; [repeat constructor; assumption|lia|lia].
Qed.

(* the lines Process works on *)
Theorem process_lines_of src ts errs : tokenize src = Ret (ts, errs) ->
  exists raw, Lines ts raw /\ map cut_line (split_lines ts []) = map code_of raw /\
              Forall line_ok (map code_of raw) /\ lines_at 0 (map code_of raw).
Proof.
  intros E. exists (split_lines ts []).
  pose proof (split_lines_spec ts [] eq_refl (or_intror eq_refl)) as L. cbn [app] in L.
  pose proof (good_lines _ _ L 0 (good_tokenize _ _ _ E)) as G.
  split; [exact L|]. clear L E. revert G. generalize 0. induction (split_lines ts []) as [|l r IH]; intros i G.
  - repeat split. constructor.
  - cbn [map lines_good lines_at] in *. destruct G as [G1 G2]. destruct (IH _ G2) as [A [B C]].
    destruct (code_good _ _ _ G1) as [D1 D2]. rewrite A, (cut_line_code _ _ _ G1).
    split; [reflexivity|]. split; [constructor; assumption|]. split; [apply good_at; exact D1|exact C].
Qed.

(* ------------------------------------------------------------------------------------------ *)
(* all the lines of a document *)
Record doc_post (en : env) (ls : list (list token)) (c c' : pctx) : Prop := {
  dp_mode : p_mode c' = last_mode (p_mode c) ls;
  dp_version : p_version c' = last_version (p_version c) ls;
  dp_ops : p_ops c' = p_ops c ++ all_entries en (p_version c) ls;
  dp_lts : p_lts c' = p_lts c ++ ls;
  dp_refs : p_refs c' = p_refs c ++ flat_map names_labels ls;
  dp_refc : p_refc c' = p_refc c ++ flat_map uses (all_entries en (p_version c) ls);
  dp_syms : p_syms c' = p_syms c ++ all_symbols (p_comments c) ls;
  dp_diag : exists ds, p_diag c' = p_diag c ++ ds /\ all_errors en (p_mode c) (p_version c) ls ds;
  dp_optoks : p_optoks c' = p_optoks c ++ flat_map op_token ls;
  dp_vers : p_vers c' = p_vers c ++ all_needs (p_mode c) (p_version c) ls;
  dp_sig : (p_label c', p_protos c') = fold_left sig_step (all_entries en (p_version c) ls) (p_label c, p_protos c);
  dp_vtok : p_vtok c' = last_token (p_vtok c) ls;
  dp_nums : ext (concat ls) (p_nums c) (p_nums c');
  dp_strs : ext (concat ls) (p_strs c) (p_strs c');
  dp_keys : ext (concat ls) (p_keys c) (p_keys c');
  dp_mcrs : ext (concat ls) (p_mcrs c) (p_mcrs c')
}.

Lemma ext_join l m a b c : ext l a b -> ext m b c -> ext (l ++ m) a c.
Proof.
  intros [x [-> Hx]] [y [-> Hy]]. exists (x ++ y). rewrite app_assoc. split; [reflexivity|].
  apply incl_app; [apply incl_appl|apply incl_appr]; assumption.
Qed.

Lemma process_lines_spec en ls : Forall line_ok ls -> forall c, exists c', process_lines en ls c = Ret c' /\ doc_post en ls c c'.
Proof.
  induction 1 as [|l ls Hl _ IH]; intros c.
  - exists c. split; [reflexivity|]. constructor; try (cbn; rewrite ?app_nil_r; reflexivity); try apply ext_refl.
    exists []. rewrite app_nil_r. split; reflexivity.
  - destruct (line_spec en l c Hl) as [c1 [E1 P1]]. destruct (IH c1) as [c2 [E2 P2]].
    exists c2. cbn [process_lines bindr]. rewrite E1. cbn [bindr]. split; [exact E2|].
    destruct P1, P2. rewrite lp_mode, lp_version, lp_comments, lp_vtok in *.
    constructor; cbn [all_entries all_symbols all_needs all_errors last_mode last_version last_token flat_map concat].
    + exact dp_mode0.
    + exact dp_version0.
    + rewrite dp_ops0, lp_ops, app_assoc. reflexivity.
    + rewrite dp_lts0, lp_lts, <- app_assoc. reflexivity.
    + rewrite dp_refs0, lp_refs, <- app_assoc. reflexivity.
    + rewrite dp_refc0, lp_refc, flat_map_app, app_assoc. reflexivity.
    + rewrite dp_syms0, lp_syms, <- app_assoc. reflexivity.
    + destruct lp_diag as [a [Ea Ha]], dp_diag0 as [b [Eb Hb]].
      exists (gate (p_mode c) (p_version c) l ++ a ++ b). split.
      * rewrite Eb, Ea, <- !app_assoc. reflexivity.
      * exists a, b. auto.
    + rewrite dp_optoks0, lp_optoks, <- app_assoc. reflexivity.
    + rewrite dp_vers0, lp_vers, <- app_assoc. reflexivity.
    + rewrite fold_left_app, <- lp_sig. exact dp_sig0.
    + exact dp_vtok0.
    + eapply ext_join; eassumption.
    + eapply ext_join; eassumption.
    + eapply ext_join; eassumption.
    + eapply ext_join; eassumption.
Qed.

(* the result, apart from the linter *)
Record result_of (en : env) (src : str) (ts : list token) (errs : list lexer_error) (raw : list (list token))
                 (r : presult) (lint_ds : list diagnostic) : Prop := {
  ro_tokens : r_tokens r = ts;
  ro_lines : r_lines r = map code_of raw;
  ro_mode : r_mode r = last_mode ModeApp (r_lines r);
  ro_version : r_version r = last_version 1 (r_lines r);
  ro_listing : r_listing r = all_entries en 1 (r_lines r);
  ro_refs : r_refs r = flat_map names_labels (r_lines r);
  ro_refc : r_refc r = flat_map uses (r_listing r);
  ro_syms : exists ps, r_syms r = map (with_sig ps) (all_symbols [] (r_lines r)) /\
                       ps = snd (fold_left sig_step (r_listing r) (None, []));
  ro_miss : r_miss r = filter (fun t => negb (mem (tok_v t) (map sy_name (r_syms r)))) (r_refs r);
  ro_diag : exists ds, r_diag r = map lex_diag errs ++ ds ++ lint_ds /\ all_errors en ModeApp 1 (r_lines r) ds;
  ro_lint : lint_diags (r_lines r) (lint (r_listing r)) = Ret lint_ds;
  ro_ops : r_ops r = flat_map op_token (r_lines r);
  ro_vers : r_vers r = all_needs ModeApp 1 (r_lines r);
  ro_vtok : r_vtok r = last_token None (r_lines r);
  ro_nums : incl (r_nums r) (concat (r_lines r));
  ro_strs : incl (r_strs r) (concat (r_lines r));
  ro_keys : incl (r_keys r) (concat (r_lines r));
  ro_mcrs : incl (r_mcrs r) (concat (r_lines r));
  ro_reds : r_reds r = lint_redundant (r_listing r)
}.

Lemma ext_nil l b : ext l [] b -> incl b l.
Proof. intros [x [-> H]]. exact H. Qed.

Theorem process_spec en src : exists ts errs raw,
  tokenize src = Ret (ts, errs) /\ Lines ts raw /\ Forall line_ok (map code_of raw) /\ lines_at 0 (map code_of raw) /\
  match lint_diags (map code_of raw) (lint (all_entries en 1 (map code_of raw))) with
  | Ret lint_ds => exists r, process en src = Ret r /\ result_of en src ts errs raw r lint_ds
  | Panic => process en src = Panic
  | OutOfFuel => process en src = OutOfFuel
  end.
Proof.
  destruct (tokenize_total src) as [ts [errs [E _]]]. exists ts, errs.
  destruct (process_lines_of src ts errs E) as [raw [L [Em [W A]]]]. exists raw.
  split; [exact E|]. split; [exact L|]. split; [exact W|]. split; [exact A|].
  unfold process. rewrite E. cbn [bindr]. rewrite Em.
  destruct (process_lines_spec en (map code_of raw) W (ctx0 (map lex_diag errs))) as [c [Ec Pc]].
  rewrite Ec. cbn [bindr]. unfold finish. destruct Pc.
  cbn [p_ops p_lts p_version p_mode ctx0 p_refs p_refc p_syms p_diag p_optoks p_vers p_label p_protos p_nums p_strs p_keys p_mcrs p_comments p_vtok app] in *.
  rewrite dp_ops0, dp_lts0.
  destruct (lint_diags (map code_of raw) (lint (all_entries en 1 (map code_of raw)))) as [lds| |] eqn:Ld;
    cbn [bindr]; try reflexivity.
  eexists. split; [reflexivity|]. constructor; cbn [r_tokens r_lines r_mode r_version r_listing r_refs r_refc r_syms r_miss r_diag r_ops r_vers r_nums r_strs r_keys r_mcrs r_reds r_vtok];
    try congruence; try (apply ext_nil; assumption).
  - exists (p_protos c). rewrite dp_syms0. split; [reflexivity|]. rewrite <- dp_sig0. reflexivity.
  - rewrite map_map. cbn [sy_name with_sig]. rewrite dp_refs0. reflexivity.
  - destruct dp_diag0 as [ds [Ed Hd]]. exists ds. rewrite Ed, <- app_assoc. auto.
Qed.
