(* theorems about whole documents *)
From Verif Require Import Base LexSpec Lexer LexerProofs LexerThms Expr Linter LinterThms Fields Strconv Literals Codec OpTable Process ProcessSpec ProcessProofs ProcessRun ProcessLine ProcessDoc.
From Coq Require Import ZifyBool ZifyNat ZifyN.

(* ------------------------------------------------------------------------------------------ *)
(* entries and lines *)
Lemma entries_length en v l : length (entries en v l) = 1 + (if surplus en v l then 1 else 0).
Proof.
  unfold entries, surplus. destruct (kind_of l) as [| |n|args|p args|]; try reflexivity.
  - destruct n; reflexivity.
  - destruct (pragma_version args); reflexivity.
  - destruct (assemble en v p args) as [[e [|]]|]; reflexivity.
Qed.

Lemma all_entries_length en ls : forall v, length (all_entries en v ls) = length ls + all_surplus en v ls.
Proof.
  induction ls as [|l ls IH]; intros v; [reflexivity|]. cbn [all_entries all_surplus length].
  rewrite app_length, entries_length, IH. lia.
Qed.

Lemma all_entries_app en a : forall v b,
  all_entries en v (a ++ b) = all_entries en v a ++ all_entries en (last_version v a) b.
Proof.
  induction a as [|l a IH]; intros v b; [reflexivity|]. cbn [app all_entries last_version].
  rewrite IH, app_assoc. reflexivity.
Qed.

Lemma all_entries_nth en ls : forall v i l, all_surplus en v ls = 0 -> nth_error ls i = Some l ->
  exists e, nth_error (all_entries en v ls) i = Some e /\ entries en (last_version v (firstn i ls)) l = [e].
Proof.
  induction ls as [|x ls IH]; intros v i l H E; [destruct i; discriminate|].
  cbn [all_surplus all_entries] in *. destruct (surplus en v x) eqn:S1; [lia|].
  pose proof (entries_length en v x) as L. rewrite S1 in L.
  destruct (entries en v x) as [|e [|? ?]] eqn:Ee; cbn in L; try lia.
  destruct i as [|i].
  - injection E as <-. exists e. split; [reflexivity|exact Ee].
  - cbn in E. destruct (IH (version_after v x) i l H E) as [e' [A B]]. exists e'. split; [exact A|exact B].
Qed.

(* ------------------------------------------------------------------------------------------ *)
(* C07 *)
Lemma lint_diags_total ls es : (forall e, In e es -> le_line e < length ls) -> exists ds, lint_diags ls es = Ret ds.
Proof.
  induction es as [|e es IH]; intros H; [exists []; reflexivity|].
  destruct IH as [ds E]; [intros; apply H; right; assumption|].
  cbn [lint_diags]. unfold lint_diag, index.
  destruct (nth_error ls (le_line e)) as [l|] eqn:N.
  - cbn [bindr]. rewrite E. cbn [bindr]. eauto.
  - apply nth_error_None in N. specialize (H e (or_introl eq_refl)). lia.
Qed.

Lemma lint_diags_cases ls es :
  (exists ds, lint_diags ls es = Ret ds) \/
  (lint_diags ls es = Panic /\ exists e, In e es /\ length ls <= le_line e).
Proof.
  induction es as [|e es IH]; [left; exists []; reflexivity|].
  cbn [lint_diags]. unfold lint_diag, index.
  destruct (nth_error ls (le_line e)) as [l|] eqn:N; cbn [bindr].
  - destruct IH as [[ds ->]|[-> [x [I L]]]]; cbn [bindr]; [left; eauto|].
    right. split; [reflexivity|]. exists x. split; [right; exact I|exact L].
  - right. split; [reflexivity|]. exists e. split; [left; reflexivity|]. apply nth_error_None. exact N.
Qed.

Lemma lint_diags_range ls es : forall ds, lint_diags ls es = Ret ds ->
  Forall2 (fun e d => exists l, nth_error ls (le_line e) = Some l /\ d = Diag (le_line e) (line_begin l) (line_end l) (KLint e)) es ds.
Proof.
  induction es as [|e es IH]; intros ds E; cbn [lint_diags] in E.
  - injection E as <-. constructor.
  - unfold lint_diag, index in E. destruct (nth_error ls (le_line e)) as [l|] eqn:N; [|discriminate].
    cbn [bindr] in E. destruct (lint_diags ls es) as [ds'| |]; try discriminate. injection E as <-.
    constructor; [exists l; auto|apply IH; reflexivity].
Qed.

(* the outcome, exactly *)
Theorem process_outcome en src : exists ts errs raw,
  tokenize src = Ret (ts, errs) /\ Lines ts raw /\
  ((exists r, process en src = Ret r) \/
   (process en src = Panic /\
    exists e, In e (lint (all_entries en 1 (map code_of raw))) /\ length raw <= le_line e)).
Proof.
  destruct (process_spec en src) as [ts [errs [raw [E [L [_ [_ P]]]]]]]. exists ts, errs, raw.
  split; [exact E|]. split; [exact L|].
  destruct (lint_diags_cases (map code_of raw) (lint (all_entries en 1 (map code_of raw)))) as [[ds Q]|[Q [e [I Le]]]];
    rewrite Q in P.
  - left. destruct P as [r [Er _]]. eauto.
  - right. split; [exact P|]. exists e. rewrite map_length in Le. auto.
Qed.

Theorem process_returns en src ts errs raw : tokenize src = Ret (ts, errs) -> Lines ts raw ->
  all_surplus en 1 (map code_of raw) = 0 -> exists r, process en src = Ret r.
Proof.
  intros E L H. destruct (process_spec en src) as [ts' [errs' [raw' [E' [L' [_ [_ P]]]]]]].
  rewrite E in E'. injection E' as <- <-.
  assert (raw' = raw) as ->.
  { clear - L L'. revert raw' L'. induction L as [|l Hl Nl|l t r ls Nl T L IH]; intros raw' L'.
    - inversion L' as [|l H N|l t r ls N T L0]; subst; [reflexivity|congruence|]. destruct l; discriminate.
    - inversion L' as [|l' H N|l' t r ls N T L0]; subst; [congruence|reflexivity|].
      rewrite existsb_app in Nl. cbn in Nl. rewrite T, orb_true_r in Nl. discriminate.
    - inversion L' as [E|l' H N E|l' t' r' ls' N T' L0 E]; subst.
      + destruct l; discriminate.
      + rewrite existsb_app in N. cbn in N. rewrite T, orb_true_r in N. discriminate.
      + assert (l' = l /\ r' = r) as [-> ->].
        { clear - E Nl N T T'. revert l' E N. induction l as [|x l IH]; intros [|y l'] E N; cbn in E; injection E as Ex E.
          - subst. auto.
          - subst. cbn in N. rewrite T in N. discriminate.
          - subst. cbn in Nl. rewrite T' in Nl. discriminate.
          - subst. cbn in Nl, N. apply orb_false_iff in Nl. apply orb_false_iff in N.
            destruct (IH (proj2 Nl) l' E (proj2 N)) as [-> ->]. auto. }
        f_equal. apply IH. exact L0. }
  destruct (lint_diags_total (map code_of raw) (lint (all_entries en 1 (map code_of raw)))) as [ds Q].
  { intros e I. apply lint_line_in_range in I. rewrite all_entries_length, H in I. lia. }
  rewrite Q in P. destruct P as [r [Er _]]. eauto.
Qed.

(* ------------------------------------------------------------------------------------------ *)
(* the diagnostics of the lines *)
Definition is_surplus_diag (d : diagnostic) : bool :=
  match dg_kind d with KParse RTooMany => true | _ => false end.
Definition is_gate_diag (d : diagnostic) : bool :=
  match dg_kind d with KMode _ | KVersion _ _ => true | _ => false end.

Lemma gate_no_surplus m v l : filter is_surplus_diag (gate m v l) = [].
Proof.
  unfold gate. destruct l as [|t r]; [reflexivity|]. destruct (kind_of (t :: r)); try reflexivity.
  destruct (_ =? 0)%N, (_ <? _)%N; reflexivity.
Qed.
Lemma gate_all_gate m v l : filter is_gate_diag (gate m v l) = gate m v l.
Proof.
  unfold gate. destruct l as [|t r]; [reflexivity|]. destruct (kind_of (t :: r)); try reflexivity.
  destruct (_ =? 0)%N, (_ <? _)%N; reflexivity.
Qed.

(* the mistakes in operands *)
Definition operand_reason (r : reason) : Prop :=
  match r with RMissing _ | RValue => True | _ => False end.
Lemma byte_fault_reason a r : operand_reason (snd (byte_fault a r)).
Proof. unfold byte_fault. destruct (encoding a); [destruct r|]; exact I. Qed.
Lemma ints_fault_reason l : operand_reason (snd (ints_fault l)).
Proof. induction l as [|a r IH]; [exact I|]. cbn [ints_fault]. destruct (parse_uint a 0 64); [exact IH|exact I]. Qed.
Lemma bytes_fault_reason en n : forall l, operand_reason (snd (bytes_fault en n l)).
Proof.
  induction n as [|n IH]; intros [|a r]; try exact I. cbn [bytes_fault].
  destruct (byte_operand en a r); [apply IH|apply byte_fault_reason].
Qed.
Lemma prog_fault_reason en v p : forall args, operand_reason (snd (prog_fault en v p args)).
Proof.
  induction p as [e|x p IH|m x p IH|k n f IH|n f IH|n f IH|n f IH|n f IH]; intros args; cbn [prog_fault].
  - exact I.
  - apply IH.
  - apply IH.
  - destruct args as [|a r]; [exact I|]. destruct (operand en v k a r) as [y|]; [apply IH|].
    destruct k; try exact I. apply byte_fault_reason.
  - destruct args as [|a r]; [apply IH|]. destruct (read_uint8 a); [apply IH|exact I].
  - destruct (all_ints args); [apply IH|apply ints_fault_reason].
  - destruct (all_bytes en (length args) args); [apply IH|apply bytes_fault_reason].
  - apply IH.
Qed.
Lemma pragma_fault_reason args :
  match snd (pragma_fault args) with RMissing _ | RValue | RPragmaName _ | RPragmaValue => True | _ => False end.
Proof.
  unfold pragma_fault. destruct args as [|a [|b r]]; [exact I| |]; (destruct (seqb a (bs "version")); [|exact I]); [exact I|].
  cbn [snd]. destruct (parse_uint b 0 64); exact I.
Qed.

Lemma line_errors_surplus en v l ds : line_errors en v l ds ->
  length (filter is_surplus_diag ds) = if surplus en v l then 1 else 0.
Proof.
  unfold line_errors, surplus. destruct l as [|t r].
  - cbn. intros ->. reflexivity.
  - destruct (kind_of (t :: r)) as [| |n|args|p args|].
    + intros ->. reflexivity.
    + intros ->. reflexivity.
    + destruct n; intros ->; reflexivity.
    + destruct (pragma_version args); [intros ->; reflexivity|]. intros [x [-> _]].
      pose proof (pragma_fault_reason args) as H. destruct (snd (pragma_fault args)); try destruct H; reflexivity.
    + destruct (assemble en v p args) as [[e [|s ss]]|].
      * intros ->. reflexivity.
      * intros [x [-> _]]. reflexivity.
      * intros [x [-> _]]. pose proof (prog_fault_reason en v p args) as H.
        destruct (snd (prog_fault en v p args)); try destruct H; reflexivity.
    + intros ->. reflexivity.
Qed.

Lemma line_errors_gate en v l ds : line_errors en v l ds -> filter is_gate_diag ds = [].
Proof.
  unfold line_errors. destruct l as [|t r].
  - cbn. intros ->. reflexivity.
  - destruct (kind_of (t :: r)) as [| |n|args|p args|].
    + intros ->. reflexivity.
    + intros ->. reflexivity.
    + destruct n; intros ->; reflexivity.
    + destruct (pragma_version args); [intros ->; reflexivity|]. intros [x [-> _]]. reflexivity.
    + destruct (assemble en v p args) as [[e [|s ss]]|].
      * intros ->. reflexivity.
      * intros [x [-> _]]. reflexivity.
      * intros [x [-> _]]. reflexivity.
    + intros ->. reflexivity.
Qed.

Lemma all_errors_surplus en ls : forall m v ds, all_errors en m v ls ds ->
  length (filter is_surplus_diag ds) = all_surplus en v ls.
Proof.
  induction ls as [|l ls IH]; intros m v ds H; cbn [all_errors all_surplus] in *.
  - subst. reflexivity.
  - destruct H as [a [b [-> [Ha Hb]]]]. rewrite !filter_app, gate_no_surplus. cbn [app]. rewrite app_length.
    rewrite (line_errors_surplus _ _ _ _ Ha), (IH _ _ _ Hb). reflexivity.
Qed.

Lemma all_errors_gates en ls : forall m v ds, all_errors en m v ls ds -> filter is_gate_diag ds = all_gates m v ls.
Proof.
  induction ls as [|l ls IH]; intros m v ds H; cbn [all_errors all_gates] in *.
  - subst. reflexivity.
  - destruct H as [a [b [-> [Ha Hb]]]]. rewrite !filter_app, gate_all_gate.
    rewrite (line_errors_gate _ _ _ _ Ha), (IH _ _ _ Hb). reflexivity.
Qed.

Lemma lex_no_surplus errs : filter is_surplus_diag (map lex_diag errs) = [].
Proof. induction errs; cbn; auto. Qed.
Lemma lex_no_gate errs : filter is_gate_diag (map lex_diag errs) = [].
Proof. induction errs; cbn; auto. Qed.
Lemma lint_no_surplus ls es ds : lint_diags ls es = Ret ds -> filter is_surplus_diag ds = [] /\ filter is_gate_diag ds = [].
Proof.
  intros E. apply lint_diags_range in E. induction E as [|e d es ds [l [_ ->]] _ IH]; [auto|]. exact IH.
Qed.

(* a result, unpacked *)
Lemma process_result en src r : process en src = Ret r ->
  exists ts errs raw lds, tokenize src = Ret (ts, errs) /\ Lines ts raw /\ lines_at 0 (map code_of raw) /\
    result_of en src ts errs raw r lds.
Proof.
  intros E. destruct (process_spec en src) as [ts [errs [raw [E' [L [_ [A P]]]]]]].
  destruct (lint_diags (map code_of raw) (lint (all_entries en 1 (map code_of raw)))) as [lds| |]; try congruence.
  destruct P as [r' [Er R]]. rewrite E in Er. injection Er as <-. exists ts, errs, raw, lds. auto.
Qed.

Lemma result_surplus en src r : process en src = Ret r ->
  length (filter is_surplus_diag (r_diag r)) = all_surplus en 1 (r_lines r) /\
  filter is_gate_diag (r_diag r) = all_gates ModeApp 1 (r_lines r).
Proof.
  intros E. destruct (process_result en src r E) as [ts [errs [raw [lds [_ [_ [_ R]]]]]]].
  destruct (ro_diag _ _ _ _ _ _ _ R) as [ds [Ed Hd]].
  destruct (lint_no_surplus _ _ _ (ro_lint _ _ _ _ _ _ _ R)) as [A B].
  rewrite Ed, !filter_app, lex_no_surplus, lex_no_gate, A, B, !app_nil_r. cbn [app].
  split; [eapply all_errors_surplus|eapply all_errors_gates]; eassumption.
Qed.

(* C08 *)
Theorem listing_length en src r : process en src = Ret r ->
  length (r_listing r) = length (r_lines r) + length (filter is_surplus_diag (r_diag r)).
Proof.
  intros E. destruct (result_surplus _ _ _ E) as [-> _].
  destruct (process_result en src r E) as [ts [errs [raw [lds [_ [_ [_ R]]]]]]].
  rewrite (ro_listing _ _ _ _ _ _ _ R). apply all_entries_length.
Qed.

Theorem listing_lines en src r : process en src = Ret r -> filter is_surplus_diag (r_diag r) = [] ->
  length (r_listing r) = length (r_lines r) /\
  forall i l, nth_error (r_lines r) i = Some l ->
    exists e, nth_error (r_listing r) i = Some e /\ entries en (last_version 1 (firstn i (r_lines r))) l = [e].
Proof.
  intros E F. pose proof (listing_length _ _ _ E) as L. rewrite F in L. split; [cbn in L; lia|].
  intros i l N. destruct (result_surplus _ _ _ E) as [S0 _]. rewrite F in S0.
  destruct (process_result en src r E) as [ts [errs [raw [lds [_ [_ [_ R]]]]]]].
  rewrite (ro_listing _ _ _ _ _ _ _ R). apply all_entries_nth; [symmetry; exact S0|exact N].
Qed.

(* ------------------------------------------------------------------------------------------ *)
(* C09 *)
Lemma lines_at_nth ls : forall i k l, lines_at i ls -> nth_error ls k = Some l -> line_at (i + k) l.
Proof.
  induction ls as [|x ls IH]; intros i [|k] l A E; try discriminate; cbn in A, E.
  - injection E as <-. rewrite Nat.add_0_r. tauto.
  - rewrite Nat.add_succ_r. exact (IH (S i) k l (proj2 A) E).
Qed.

Lemma sorted_in l : forall c t, sorted_from c l -> In t l -> c <= tok_b t <= tok_e t.
Proof.
  induction l as [|x l IH]; intros c t; [intros _ []|]. intros [H1 H2] [<-|I]; [exact H1|]. specialize (IH _ _ H2 I). lia.
Qed.

Lemma sorted_ends l : forall c, sorted_from c l -> l <> [] ->
  exists t t', In t l /\ In t' l /\ line_begin l = tok_b t /\ line_end l = tok_e t' /\ tok_b t <= tok_e t'.
Proof.
  intros c S1 Ne. destruct (exists_last Ne) as [w [y E]]. destruct l as [|x l']; [congruence|].
  exists x, y. split; [left; reflexivity|]. assert (Iy : In y (x :: l')) by (rewrite E; apply in_or_app; right; left; reflexivity).
  split; [exact Iy|]. split; [reflexivity|].
  split.
  - unfold line_end. rewrite E, app_length. cbn [length]. replace (length w + 1 - 1) with (length w) by lia.
    rewrite nth_error_app2, Nat.sub_diag by lia. reflexivity.
  - destruct Iy as [<-|Iy]; destruct S1 as [A B]; [lia|]. pose proof (sorted_in _ _ _ B Iy). lia.
Qed.

Lemma gate_at m v l d : In d (gate m v l) -> exists t r k, l = t :: r /\ d = Diag (tok_l t) (tok_b t) (tok_e t) k.
Proof.
  unfold gate. destruct l as [|t r]; [intros []|]. destruct (kind_of (t :: r)); try (intros []).
  rewrite in_app_iff. intros [I|I].
  - destruct (_ =? 0)%N; [|destruct I]. destruct I as [<-|[]]. eauto.
  - destruct (_ <? _)%N; [|destruct I]. destruct I as [<-|[]]. eauto.
Qed.

Lemma line_errors_at en v l ds d : line_errors en v l ds -> In d ds ->
  exists t k, In t l /\ d = Diag (tok_l t) (tok_b t) (tok_e t) k.
Proof.
  unfold line_errors. destruct l as [|t r].
  - cbn. intros -> [].
  - destruct (kind_of (t :: r)) as [| |n|args|p args|].
    + intros -> [].
    + intros -> [].
    + destruct n; intros ->; [|intros []]. intros [<-|[]]. exists t, (KParse RLabelName). split; [left|]; reflexivity.
    + destruct (pragma_version args); [intros -> []|]. intros [x [-> I]] [<-|[]].
      apply nth_error_In in I. eexists x, _. split; [exact I|reflexivity].
    + destruct (assemble en v p args) as [[e [|s ss]]|].
      * intros -> [].
      * intros [x [-> I]] [<-|[]]. apply nth_error_In in I. exists x, (KParse RTooMany). auto.
      * intros [x [-> I]] [<-|[]]. apply nth_error_In in I. eexists x, _. split; [exact I|reflexivity].
    + intros -> [<-|[]]. exists t, (KParse (RUnknownOp (tok_v t))). split; [left|]; reflexivity.
Qed.

Lemma covers_token i l t k : line_at i l -> In t l ->
  dg_line (Diag (tok_l t) (tok_b t) (tok_e t) k) = i /\ covers l (Diag (tok_l t) (tok_b t) (tok_e t) k).
Proof.
  intros [L S1] I. split; [exact (proj1 (Forall_forall _ _) L t I)|].
  split; [exact (proj2 (sorted_in _ _ _ S1 I))|]. right. exists t, t. auto.
Qed.

Lemma all_errors_at en ls : forall m v ds i d, all_errors en m v ls ds -> lines_at i ls -> In d ds ->
  exists k l, nth_error ls k = Some l /\ dg_line d = i + k /\ covers l d.
Proof.
  induction ls as [|l ls IH]; intros m v ds i d H A I; cbn [all_errors lines_at] in *.
  - subst. destruct I.
  - destruct H as [a [b [-> [Ha Hb]]]]. destruct A as [Al A]. rewrite !in_app_iff in I.
    assert (C : (exists t k, In t l /\ d = Diag (tok_l t) (tok_b t) (tok_e t) k) \/ In d b).
    { destruct I as [I|[I|I]]; [left|left|right; exact I].
      - apply gate_at in I. destruct I as [t [r [k [-> ->]]]]. exists t, k. split; [left|]; reflexivity.
      - eapply line_errors_at; eassumption. }
    destruct C as [[t [k [It ->]]]|C].
    + exists 0, l. rewrite Nat.add_0_r. split; [reflexivity|]. apply covers_token; assumption.
    + destruct (IH _ _ _ _ _ Hb A C) as [k [l' [N [E Cv]]]]. exists (S k), l'. rewrite Nat.add_succ_r. auto.
Qed.

Lemma layout_error ps s : Lexes s ps -> forall l c e, In e (snd (layout l c ps)) ->
  le_l e = l + length (filter is_eol (fst (layout l c ps))).
Proof.
  induction 1; intros l0 c0 e I; cbn [layout snd fst filter is_eol tok_t length] in *;
    try contradiction; try (rewrite (IHLexes _ _ _ I); cbn [length]; lia).
  destruct I as [<-|[]]. cbn. lia.
Qed.

Theorem diagnostics_on_lines en src r d : process en src = Ret r -> In d (r_diag r) ->
  match dg_kind d with
  | KLex _ => dg_line d = length (filter is_eol (r_tokens r)) /\ dg_b d = dg_e d
  | _ => exists l, nth_error (r_lines r) (dg_line d) = Some l /\ covers l d
  end.
Proof.
  intros E I. destruct (process_result en src r E) as [ts [errs [raw [lds [Et [L [A R]]]]]]].
  destruct (ro_diag _ _ _ _ _ _ _ R) as [ds [Ed Hd]]. rewrite Ed, !in_app_iff in I.
  destruct I as [I|[I|I]].
  - apply in_map_iff in I. destruct I as [e [<- Ie]]. cbn [dg_kind lex_diag]. rewrite (ro_tokens _ _ _ _ _ _ _ R).
    split; [|reflexivity]. destruct (lexes_exists src) as [ps Lx]. rewrite (tokenize_spec _ _ Lx) in Et.
    injection Et as Et. pose proof (layout_error _ _ Lx 0 0 e) as Q. rewrite Et in Q. exact (Q Ie).
  - rewrite <- (ro_lines _ _ _ _ _ _ _ R) in A.
    destruct (all_errors_at _ _ _ _ _ _ _ Hd A I) as [k [l [N [El C]]]].
    assert (dg_kind d <> dg_kind d \/ exists l, nth_error (r_lines r) (dg_line d) = Some l /\ covers l d) as [F|G]
      by (right; exists l; rewrite El; auto); [congruence|].
    assert (K : match dg_kind d with KLex _ => False | _ => True end).
    { clear - Hd I. revert Hd I. generalize ModeApp, 1%N. revert ds. induction (r_lines r) as [|x ls IH]; intros ds m v Hd I; cbn in Hd.
      - subst. destruct I.
      - destruct Hd as [a [b [-> [Ha Hb]]]]. rewrite !in_app_iff in I. destruct I as [I|[I|I]].
        + unfold gate in I. destruct x; [destruct I|]. destruct (kind_of (t :: x)); try (destruct I).
          rewrite in_app_iff in I. destruct (_ =? 0)%N, (_ <? _)%N; destruct I as [I|I]; try (destruct I); subst; try exact I; try (destruct H); exact Logic.I.
        + unfold line_errors in Ha. destruct x as [|t x]; [cbn in Ha; subst; destruct I|].
          destruct (kind_of (t :: x)) as [| |n|args|p args|]; try (subst; destruct I as [<-|[]]; exact Logic.I);
            try (subst; destruct I; fail).
          * destruct n; subst; [destruct I as [<-|[]]; exact Logic.I|destruct I].
          * destruct (pragma_version args); [subst; destruct I|]. destruct Ha as [? [-> _]]. destruct I as [<-|[]]. exact Logic.I.
          * destruct (assemble en v p args) as [[? [|? ?]]|]; [subst; destruct I| |].
            -- destruct Ha as [? [-> _]]. destruct I as [<-|[]]. exact Logic.I.
            -- destruct Ha as [? [-> _]]. destruct I as [<-|[]]. exact Logic.I.
        + eapply IH; eassumption. }
    destruct (dg_kind d); try exact G. destruct K.
  - pose proof (lint_diags_range _ _ _ (ro_lint _ _ _ _ _ _ _ R)) as F.
    assert (Q : exists e l, nth_error (r_lines r) (le_line e) = Some l /\ d = Diag (le_line e) (line_begin l) (line_end l) (KLint e)).
    { clear - F I. induction F as [|e x es xs [l [N ->]] F IH]; [destruct I|]. destruct I as [<-|I]; [eauto|auto]. }
    destruct Q as [e [l [N ->]]]. cbn [dg_kind dg_line]. exists l. split; [exact N|].
    rewrite <- (ro_lines _ _ _ _ _ _ _ R) in A. pose proof (lines_at_nth _ _ _ _ A N) as [_ S1].
    unfold covers. cbn [dg_b dg_e]. destruct l as [|t w].
    + split; [reflexivity|]. left. auto.
    + destruct (sorted_ends _ _ S1) as [x [y [Ix [Iy [Ex [Ey Le]]]]]]; [discriminate|].
      split; [rewrite Ex, Ey; exact Le|]. right. exists x, y. auto.
Qed.

(* ------------------------------------------------------------------------------------------ *)
(* C10 *)
Definition same_texts (l l' : list token) : Prop :=
  map (fun t => (is_comment t, tok_v t)) l = map (fun t => (is_comment t, tok_v t)) l'.

Lemma same_kind l l' : same_texts l l' -> kind_of l = kind_of l'.
Proof.
  unfold same_texts. destruct l as [|t r], l' as [|t' r']; try discriminate; [reflexivity|].
  cbn [map]. intros E. injection E as Ec Ev Er. unfold kind_of.
  assert (Et : texts r = texts r').
  { unfold texts. transitivity (map snd (map (fun t => (is_comment t, tok_v t)) r)); [rewrite map_map; reflexivity|].
    rewrite Er, map_map. reflexivity. }
  rewrite Et, Ev. unfold is_comment in Ec. destruct (tok_t t), (tok_t t'); try discriminate; reflexivity.
Qed.

Lemma same_entries en v l l' : same_texts l l' -> entries en v l = entries en v l' /\ version_after v l = version_after v l'.
Proof. intros H. apply same_kind in H. unfold entries, version_after. rewrite H. auto. Qed.

Lemma same_all_entries en ls ls' : Forall2 same_texts ls ls' -> forall v,
  all_entries en v ls = all_entries en v ls' /\ last_version v ls = last_version v ls'.
Proof.
  induction 1 as [|l l' ls ls' H _ IH]; intros v; [auto|]. cbn [all_entries last_version].
  destruct (same_entries en v _ _ H) as [-> ->]. destruct (IH (version_after v l')) as [-> ->]. auto.
Qed.

(* a line that does not begin with the pragma macro *)
Definition no_pragma (l : list token) : Prop := match l with [] => True | t :: _ => tok_v t <> bs "#pragma" end.
Lemma no_pragma_version v l : no_pragma l -> version_after v l = v.
Proof.
  unfold version_after, kind_of. destruct l as [|t r]; [reflexivity|]. cbn [no_pragma]. intros H.
  destruct (tok_t t); try reflexivity; destruct (label_name (tok_v t)); try reflexivity;
    (destruct (seqb_spec (tok_v t) (bs "#pragma")); [congruence|]); destruct (ops_get (tok_v t)); reflexivity.
Qed.
Lemma no_pragma_last ls : Forall no_pragma ls -> forall v, last_version v ls = v.
Proof. induction 1 as [|l ls H _ IH]; intros v; [reflexivity|]. cbn. rewrite no_pragma_version by exact H. apply IH. Qed.

Theorem lines_independent en s1 s2 r1 r2 a1 m1 b1 a2 m2 b2 :
  process en s1 = Ret r1 -> process en s2 = Ret r2 ->
  r_lines r1 = a1 ++ m1 ++ b1 -> r_lines r2 = a2 ++ m2 ++ b2 ->
  Forall2 same_texts a1 a2 -> Forall2 same_texts b1 b2 -> Forall no_pragma m1 -> Forall no_pragma m2 ->
  exists x y1 y2 z, r_listing r1 = x ++ y1 ++ z /\ r_listing r2 = x ++ y2 ++ z /\
    length x = length a1 + all_surplus en 1 a1 /\
    length y1 = length m1 + all_surplus en (last_version 1 a1) m1 /\
    length y2 = length m2 + all_surplus en (last_version 1 a1) m2.
Proof.
  intros E1 E2 L1 L2 A B N1 N2.
  destruct (process_result en s1 r1 E1) as [? [? [? [? [_ [_ [_ R1]]]]]]].
  destruct (process_result en s2 r2 E2) as [? [? [? [? [_ [_ [_ R2]]]]]]].
  pose proof (ro_listing _ _ _ _ _ _ _ R1) as Q1. pose proof (ro_listing _ _ _ _ _ _ _ R2) as Q2.
  rewrite L1, !all_entries_app in Q1. rewrite L2, !all_entries_app in Q2.
  destruct (same_all_entries en _ _ A 1) as [Ae Av]. rewrite <- Ae, <- Av in Q2.
  rewrite (no_pragma_last _ N1) in Q1. rewrite (no_pragma_last _ N2) in Q2.
  destruct (same_all_entries en _ _ B (last_version 1 a1)) as [Be _]. rewrite <- Be in Q2.
  eexists _, _, _, _. split; [exact Q1|]. split; [exact Q2|]. rewrite !all_entries_length. auto.
Qed.

(* C12 *)
Theorem symbols_complete en src r : process en src = Ret r ->
  (map (fun s => (sy_name s, sy_l s, sy_b s, sy_e s)) (r_syms r) =
   map (fun d => (snd d, tok_l (fst d), tok_b (fst d), tok_e (fst d))) (flat_map defines (r_lines r))) /\
  r_refs r = flat_map names_labels (r_lines r) /\
  (forall t, In t (r_miss r) <-> In t (r_refs r) /\ forall s, In s (r_syms r) -> sy_name s <> tok_v t) /\
  r_refc r = flat_map uses (r_listing r).
Proof.
  intros E. destruct (process_result en src r E) as [ts [errs [raw [lds [_ [_ [_ R]]]]]]].
  split; [|split; [exact (ro_refs _ _ _ _ _ _ _ R)|split; [|exact (ro_refc _ _ _ _ _ _ _ R)]]].
  - destruct (ro_syms _ _ _ _ _ _ _ R) as [ps [-> _]]. rewrite map_map. cbn [sy_name sy_l sy_b sy_e with_sig].
    generalize (@nil str). induction (r_lines r) as [|l ls IH]; intros cs; [reflexivity|].
    cbn [all_symbols flat_map]. rewrite !map_app, IH, map_map. reflexivity.
  - intros t. rewrite (ro_miss _ _ _ _ _ _ _ R), filter_In, negb_true_iff. split; intros [H1 H2]; (split; [exact H1|]).
    + intros s Is Es. rewrite <- Es in H2. assert (M : mem (sy_name s) (map sy_name (r_syms r)) = true).
      { apply mem_In. apply in_map. exact Is. }
      congruence.
    + destruct (mem (tok_v t) (map sy_name (r_syms r))) eqn:M; [|reflexivity]. apply mem_In in M.
      apply in_map_iff in M. destruct M as [s [Es Is]]. destruct (H2 s Is Es).
Qed.

(* ------------------------------------------------------------------------------------------ *)
(* C11 *)
Lemma gates_on_filter i ds : gates_on i ds = filter (fun d => Nat.eqb (dg_line d) i) (filter is_gate_diag ds).
Proof.
  unfold gates_on. induction ds as [|d ds IH]; [reflexivity|]. cbn [filter]. rewrite IH.
  replace (is_gate_diag d) with (match dg_kind d with KMode _ | KVersion _ _ => true | _ => false end) by reflexivity.
  destruct (dg_kind d); cbn [filter]; try reflexivity; destruct (Nat.eqb (dg_line d) i); reflexivity.
Qed.

Lemma gate_line_eq i m v l : line_at i l -> forall j,
  filter (fun d => Nat.eqb (dg_line d) j) (gate m v l) = if Nat.eqb i j then gate m v l else [].
Proof.
  intros [L _] j. unfold gate. destruct l as [|t r]; [destruct (Nat.eqb i j); reflexivity|].
  inversion L as [|? ? E _]; subst.
  destruct (kind_of (t :: r)); try (destruct (Nat.eqb _ j); reflexivity).
  destruct (_ =? 0)%N, (_ <? _)%N; cbn [app filter dg_line]; destruct (Nat.eqb (tok_l t) j); reflexivity.
Qed.

Lemma all_gates_later ls : forall i m v j, lines_at i ls -> j < i ->
  filter (fun d => Nat.eqb (dg_line d) j) (all_gates m v ls) = [].
Proof.
  induction ls as [|l ls IH]; intros i m v j A H; [reflexivity|]. cbn [all_gates lines_at] in *.
  rewrite filter_app, (gate_line_eq i) by tauto. rewrite (IH (S i)) by (tauto || lia).
  replace (Nat.eqb i j) with false by lia. reflexivity.
Qed.

Lemma all_gates_line ls : forall i m v k l, lines_at i ls -> nth_error ls k = Some l ->
  filter (fun d => Nat.eqb (dg_line d) (i + k)) (all_gates m v ls) = gate (last_mode m (firstn k ls)) (last_version v (firstn k ls)) l.
Proof.
  induction ls as [|x ls IH]; intros i m v k l A N; [destruct k; discriminate|].
  cbn [all_gates lines_at] in *. destruct A as [Ax A]. rewrite filter_app, (gate_line_eq i) by exact Ax.
  destruct k as [|k].
  - injection N as ->. rewrite Nat.add_0_r, Nat.eqb_refl, (all_gates_later _ (S i)) by (exact A || lia).
    rewrite app_nil_r. reflexivity.
  - replace (Nat.eqb i (i + S k)) with false by lia. cbn [app firstn last_mode last_version].
    rewrite Nat.add_succ_r. exact (IH (S i) _ _ k l A N).
Qed.

Theorem gates_of_line en src r i l : process en src = Ret r -> nth_error (r_lines r) i = Some l ->
  gates_on i (r_diag r) = gate (mode_at i (r_lines r)) (version_at i (r_lines r)) l.
Proof.
  intros E N. rewrite gates_on_filter. destruct (result_surplus _ _ _ E) as [_ ->].
  destruct (process_result en src r E) as [ts [errs [raw [lds [_ [_ [A R]]]]]]].
  rewrite <- (ro_lines _ _ _ _ _ _ _ R) in A. exact (all_gates_line _ 0 _ _ i l A N).
Qed.

(* ------------------------------------------------------------------------------------------ *)
(* C85 *)
(* the errors of line i among diagnostics *)
Definition is_parse_diag (d : diagnostic) : bool := match dg_kind d with KParse _ => true | _ => false end.
Definition on_line (i : nat) (d : diagnostic) : bool := Nat.eqb (dg_line d) i.

Lemma gate_no_parse m v l : filter is_parse_diag (gate m v l) = [].
Proof.
  unfold gate. destruct l as [|t r]; [reflexivity|]. destruct (kind_of (t :: r)); try reflexivity.
  destruct (_ =? 0)%N, (_ <? _)%N; reflexivity.
Qed.
Lemma line_errors_parse en v l ds : line_errors en v l ds -> filter is_parse_diag ds = ds.
Proof.
  unfold line_errors. destruct l as [|t r]; [cbn; intros ->; reflexivity|].
  destruct (kind_of (t :: r)) as [| |n|args|p args|]; try (intros ->; reflexivity).
  - destruct n; intros ->; reflexivity.
  - destruct (pragma_version args); [intros ->; reflexivity|]. intros [x [-> _]]. reflexivity.
  - destruct (assemble en v p args) as [[e [|s ss]]|]; try (intros [x [-> _]]; reflexivity). intros ->. reflexivity.
Qed.
Lemma line_errors_on en v l ds i j : line_errors en v l ds -> line_at i l ->
  filter (on_line j) ds = if Nat.eqb i j then ds else [].
Proof.
  intros H A. assert (F : Forall (fun d => dg_line d = i) ds).
  { apply Forall_forall. intros d I. destruct (line_errors_at _ _ _ _ _ H I) as [t [k [It ->]]].
    destruct A as [A _]. exact (proj1 (Forall_forall _ _) A t It). }
  clear H. induction F as [|d ds E F IH]; [destruct (Nat.eqb i j); reflexivity|].
  cbn [filter]. unfold on_line at 1. rewrite IH, E. destruct (Nat.eqb i j); reflexivity.
Qed.

Lemma all_errors_before en ls : forall i j m v ds, lines_at i ls -> j < i -> all_errors en m v ls ds ->
  filter (on_line j) (filter is_parse_diag ds) = [].
Proof.
  induction ls as [|l ls IH]; intros i j m v ds A H E; cbn [all_errors lines_at] in *.
  - subst. reflexivity.
  - destruct E as [a [b [-> [Ha Hb]]]]. destruct A as [Al A].
    rewrite !filter_app, gate_no_parse, (line_errors_parse _ _ _ _ Ha), (line_errors_on _ _ _ _ i j Ha Al).
    replace (Nat.eqb i j) with false by lia. cbn [app]. eapply (IH (S i)); eauto.
Qed.
Lemma all_errors_line en ls : forall i m v k l ds, lines_at i ls -> nth_error ls k = Some l -> all_errors en m v ls ds ->
  line_errors en (last_version v (firstn k ls)) l (filter (on_line (i + k)) (filter is_parse_diag ds)).
Proof.
  induction ls as [|x ls IH]; intros i m v k l ds A N E; [destruct k; discriminate|].
  cbn [all_errors lines_at] in *. destruct E as [a [b [-> [Ha Hb]]]]. destruct A as [Al A].
  rewrite !filter_app, gate_no_parse, (line_errors_parse _ _ _ _ Ha), (line_errors_on _ _ _ _ i _ Ha Al).
  destruct k as [|k].
  - injection N as ->. rewrite Nat.add_0_r, Nat.eqb_refl, (all_errors_before en ls (S i) i _ _ b A) by (exact Hb || lia).
    rewrite app_nil_r. exact Ha.
  - replace (Nat.eqb i (i + S k)) with false by lia. cbn [app firstn last_version].
    rewrite Nat.add_succ_r. exact (IH (S i) _ _ k l b A N Hb).
Qed.

Lemma lex_no_parse errs : filter is_parse_diag (map lex_diag errs) = [].
Proof. induction errs; [reflexivity|assumption]. Qed.
Lemma lint_no_parse ls es ds : lint_diags ls es = Ret ds -> filter is_parse_diag ds = [].
Proof.
  intros E. pose proof (lint_diags_range _ _ _ E) as F. clear E.
  induction F as [|e x es xs [l [_ ->]] F IH]; [reflexivity|exact IH].
Qed.

Theorem errors_of_line en src r i l : process en src = Ret r -> nth_error (r_lines r) i = Some l ->
  line_errors en (version_at i (r_lines r)) l (filter (on_line i) (filter is_parse_diag (r_diag r))).
Proof.
  intros E N. destruct (process_result en src r E) as [ts [errs [raw [lds [_ [_ [A R]]]]]]].
  rewrite <- (ro_lines _ _ _ _ _ _ _ R) in A. destruct (ro_diag _ _ _ _ _ _ _ R) as [ds [-> Hd]].
  rewrite !filter_app, lex_no_parse, (lint_no_parse _ _ _ (ro_lint _ _ _ _ _ _ _ R)).
  rewrite app_nil_r. exact (all_errors_line en _ 0 _ _ i l ds A N Hd).
Qed.
