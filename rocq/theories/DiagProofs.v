(* Proofs about the diagnostics of a document. *)
From Verif Require Import Base LexSpec Lexer LexerProofs Expr Linter Fields Literals Codec OpTable Process ProcessSpec ProcessDoc ProcessThms
  ErrorSpec ErrorProofs DiagSpec.
From Verif Require Flow FlowProofs LintSpec LinterProofs LinterThms.

(* ------------------------------------------------------------------------------------------ *)
(* the linter *)
Lemma closed_loop_reported l i : In (InfiniteLoopError i) (lint l) <-> closed_loop l i.
Proof.
  rewrite LinterProofs.lint_loops, LinterProofs.run_loops_in. split.
  - intros (i' & j & n & E & Hi & Hj & Hd & Hno & Hc). injection E as <-.
    exists j, n. rewrite LinterProofs.can_escape_false in Hc. auto.
  - intros (j & n & Hi & Hj & Hd & Hno & Hc). exists i, j, n. rewrite LinterProofs.can_escape_false. auto 10.
Qed.

Theorem findings l e : In e (lint l) <-> finding l e.
Proof.
  split.
  - intros I. destruct e as [i n|i n|i|i|i n|i|i].
    + apply LinterThms.c14 in I as (D & j & Nj & D'). econstructor; eauto.
    + apply LinterThms.c15 in I as (D & U). constructor; auto.
    + apply LinterThms.c17 in I as (D & U). constructor; auto.
    + apply LinterThms.c18_exact in I. constructor; auto.
    + apply LinterThms.c19 in I as (D & U). constructor; auto.
    + apply closed_loop_reported in I. constructor; auto.
    + apply LinterThms.c21 in I as (D & j & Lt & U). econstructor; eauto.
  - intros F. destruct F.
    + apply LinterThms.c14. eauto.
    + apply LinterThms.c15. auto.
    + apply LinterThms.c17. auto.
    + apply LinterThms.c18_exact. auto.
    + apply LinterThms.c19. auto.
    + apply closed_loop_reported. auto.
    + apply LinterThms.c21. eauto.
Qed.

(* ------------------------------------------------------------------------------------------ *)
(* the lexer *)
Lemma layout_open s ps : Lexes s ps -> forall l c e, In e (snd (layout l c ps)) <->
  exists qs w, ps = qs ++ [POpen w] /\
    e = LexErr (l + lines_behind qs)
          (fold_left (fun c p => match p with PEol _ => 0 | _ => c + length (piece_text p) end) ps c) IncompleteString.
Proof.
  assert (W : forall p ps l l' c c' e, l' = l + lines_behind [p] ->
     c' = match p with PEol _ => 0 | _ => c + length (piece_text p) end -> (forall w, p <> POpen w) ->
     (In e (snd (layout l' c' ps)) <-> exists qs w, ps = qs ++ [POpen w] /\
        e = LexErr (l' + lines_behind qs)
          (fold_left (fun c p => match p with PEol _ => 0 | _ => c + length (piece_text p) end) ps c') IncompleteString) ->
     (In e (snd (layout l' c' ps)) <-> exists qs w, p :: ps = qs ++ [POpen w] /\
        e = LexErr (l + lines_behind qs)
          (fold_left (fun c p => match p with PEol _ => 0 | _ => c + length (piece_text p) end) (p :: ps) c) IncompleteString)).
  { intros p qs l l' c c' e -> -> N H. rewrite H. split.
    - intros (a & w & -> & ->). exists (p :: a), w. split; [reflexivity|]. cbn [fold_left app]. f_equal.
      change (p :: a) with ([p] ++ a). unfold lines_behind. rewrite filter_app, app_length. lia.
    - intros ([|p' a] & w & E & ->); cbn [app] in E; [injection E as E _; exfalso; exact (N w E)|]. injection E as <- E.
      exists a, w. split; [exact E|]. cbn [fold_left]. f_equal.
      change (p :: a) with ([p] ++ a). unfold lines_behind. rewrite filter_app, app_length. lia. }
  induction 1 as [|c r ps B L IH|r ps L IH|r ps L IH|r ps N L IH|w r ps F B L IH|w r ps Q N L IH|w Q|c w r ps N M F B L IH];
    intros l0 c0 e; cbn [layout snd].
  - split; [contradiction|]. intros ([|? ?] & w & E & _); discriminate.
  - apply W; [cbn; lia|reflexivity|discriminate|apply IH].
  - apply W; [cbn; lia|reflexivity|discriminate|apply IH].
  - apply W; [cbn; lia|reflexivity|discriminate|apply IH].
  - apply W; [cbn; lia|reflexivity|discriminate|apply IH].
  - apply W; [cbn; lia|reflexivity|discriminate|apply IH].
  - apply W; [cbn; lia|reflexivity|discriminate|apply IH].
  - split.
    + intros [<-|[]]. exists [], w. split; [reflexivity|]. cbn. f_equal; lia.
    + intros ([|p [|? ?]] & w' & E & ->); try discriminate. cbn in E. left. cbn. f_equal; lia.
  - apply W; [cbn; lia|reflexivity|discriminate|apply IH].
Qed.

Lemma lex_reports src ts errs : tokenize src = Ret (ts, errs) -> forall d, In d (map lex_diag errs) <->
  exists ps w, Lexes src (ps ++ [POpen w]) /\
    d = Diag (lines_behind ps) (column_behind (ps ++ [POpen w])) (column_behind (ps ++ [POpen w])) (KLex IncompleteString).
Proof.
  intros E d. destruct (lexes_exists src) as [ps L]. pose proof E as E0. rewrite (tokenize_spec _ _ L) in E0. injection E0 as E0.
  split.
  - intros I. apply in_map_iff in I as [e [<- I]]. pose proof (proj1 (layout_open _ _ L 0 0 e)) as Q. rewrite E0 in Q.
    destruct (Q I) as (qs & w & -> & ->). exists qs, w. split; [exact L|]. reflexivity.
  - intros (qs & w & L' & ->). rewrite (tokenize_spec _ _ L') in E. injection E as E.
    pose proof (proj2 (layout_open _ _ L' 0 0 _) (ex_intro _ qs (ex_intro _ w (conj eq_refl eq_refl)))) as Q. rewrite E in Q.
    apply in_map_iff. eexists. split; [|exact Q]. reflexivity.
Qed.

(* ------------------------------------------------------------------------------------------ *)
(* the lines *)
Lemma in_gates i ds d : In d (gates_on i ds) <->
  In d ds /\ dg_line d = i /\ match dg_kind d with KMode _ | KVersion _ _ => True | _ => False end.
Proof.
  unfold gates_on. rewrite filter_In. split.
  - intros [I H]. split; [exact I|]. destruct (dg_kind d); try discriminate; apply Nat.eqb_eq in H; auto.
  - intros [I [<- H]]. split; [exact I|]. destruct (dg_kind d); try contradiction; apply Nat.eqb_refl.
Qed.
Lemma in_errors i ds d : In d (errors_on i ds) <->
  In d ds /\ dg_line d = i /\ match dg_kind d with KParse _ => True | _ => False end.
Proof.
  unfold errors_on. rewrite filter_In. split.
  - intros [I H]. split; [exact I|]. destruct (dg_kind d); try discriminate; apply Nat.eqb_eq in H; auto.
  - intros [I [<- H]]. split; [exact I|]. destruct (dg_kind d); try contradiction; apply Nat.eqb_refl.
Qed.

Lemma mistake_in en v l t rs : mistake en v l t rs -> In t l.
Proof.
  intros M. apply mistake_marks in M as (f & _ & _ & N). exact (nth_error_In _ _ N).
Qed.
Lemma mistake_wrong en v l t rs : mistake en v l t rs -> ~ statement en v l.
Proof.
  intros M S. apply mistake_marks in M as (f & E & _). apply fault_statement in S. congruence.
Qed.

Lemma line_end_last l : line_end l = match rev l with t :: _ => tok_e t | [] => 0 end.
Proof.
  unfold line_end. destruct l as [|t l] using rev_ind; [reflexivity|].
  rewrite app_length. cbn [length]. replace (length l + 1 - 1) with (length l + 0) by lia.
  rewrite nth_error_app2 by lia. replace (length l + 0 - length l) with 0 by lia. cbn [nth_error].
  rewrite rev_app_distr. reflexivity.
Qed.

Lemma lint_reported ls es ds : lint_diags ls es = Ret ds -> forall d, In d ds <->
  exists e l, In e es /\ nth_error ls (le_line e) = Some l /\ d = Diag (le_line e) (line_begin l) (line_end l) (KLint e).
Proof.
  intros E d. apply lint_diags_range in E. induction E as [|e x es ds [l [N ->]] F IH]; cbn [In].
  - split; [contradiction|]. intros (? & ? & [] & _).
  - rewrite IH. split.
    + intros [<-|(e' & l' & I & N' & ->)]; [exists e, l; auto|exists e', l'; auto].
    + intros (e' & l' & [<-|I] & N' & ->); [left; congruence|right; eauto].
Qed.

(* a diagnostic about the lines is one of the form or of the availability *)
Lemma all_errors_kind en ls : forall m v ds d, all_errors en m v ls ds -> In d ds ->
  match dg_kind d with KLex _ | KLint _ => False | _ => True end.
Proof.
  induction ls as [|x ls IH]; intros m v ds d Hd I; cbn in Hd.
  - subst. destruct I.
  - destruct Hd as [a [b [-> [Ha Hb]]]]. rewrite !in_app_iff in I. destruct I as [I|[I|I]].
    + unfold gate in I. destruct x as [|t x]; [destruct I|]. destruct (kind_of (t :: x)); try (destruct I; fail).
      rewrite in_app_iff in I. destruct (_ =? 0)%N, (_ <? _)%N; destruct I as [I|I]; try (destruct I; fail); destruct I as [<-|[]]; exact Logic.I.
    + apply errors_fault in Ha. destruct (line_fault en v x) as [f|]; [|subst; destruct I].
      destruct Ha as (t & -> & _). destruct I as [<-|[]]. exact Logic.I.
    + eapply IH; eassumption.
Qed.

Lemma on_own_line en src r i l t : process en src = Ret r -> nth_error (r_lines r) i = Some l -> In t l -> tok_l t = i.
Proof.
  intros E N I. destruct (process_result en src r E) as [ts [errs [raw [lds [_ [_ [A R]]]]]]].
  rewrite <- (ro_lines _ _ _ _ _ _ _ R) in A. destruct (lines_at_nth _ _ _ _ A N) as [Q _]. rewrite Forall_forall in Q.
  exact (Q t I).
Qed.

Theorem reports_exact en src r d : process en src = Ret r -> (In d (r_diag r) <-> reported en src r d).
Proof.
  intros E. pose proof (process_result en src r E) as [ts [errs [raw [lds [T [_ [A R]]]]]]].
  destruct (ro_diag _ _ _ _ _ _ _ R) as [ds [Ed Hd]].
  pose proof (lint_reported _ _ _ (ro_lint _ _ _ _ _ _ _ R)) as HL.
  split.
  - intros I. pose proof I as I0. rewrite Ed, !in_app_iff in I. destruct I as [I|[I|I]].
    + apply (lex_reports _ _ _ T) in I as (ps & w & L & ->). exact (ROpen en src r ps w L).
    + pose proof (all_errors_kind _ _ _ _ _ _ Hd I) as K.
      pose proof (diagnostics_on_lines en src r d E I0) as C.
      assert (exists l, nth_error (r_lines r) (dg_line d) = Some l) as [l N].
      { destruct (dg_kind d); try contradiction; destruct C as [l [N _]]; eauto. }
      destruct (dg_kind d) as [|rs| |m|] eqn:Kd; try contradiction.
      * assert (In d (errors_on (dg_line d) (r_diag r))) as J by (apply in_errors; rewrite Kd; auto).
        destruct (errors_exact en src r _ _ E N) as [[_ Q]|(t & rs' & _ & Q & M)]; rewrite Q in J; [destruct J|].
        destruct J as [J|[]]. rewrite <- J. unfold error_at.
        rewrite (on_own_line en src r _ _ t E N (mistake_in _ _ _ _ _ M)). exact (RMistake en src r _ _ t rs' N M).
      * assert (In d (gates_on (dg_line d) (r_diag r))) as J by (apply in_gates; rewrite Kd; auto).
        rewrite (gates_of_line en src r _ _ E N) in J. unfold gate in J.
        destruct l as [|t rest]; [destruct J|]. destruct (kind_of (t :: rest)) as [| | | |p args|] eqn:Kl; try (destruct J; fail).
        apply in_app_iff in J. destruct (min_version _ p =? 0)%N eqn:Z.
        -- destruct J as [[J|[]]|J]; [|destruct (_ <? _)%N; [destruct J as [J|[]]; apply (f_equal dg_kind) in J; rewrite Kd in J; discriminate J|destruct J]].
           rewrite <- J. rewrite (on_own_line en src r _ _ t E N (or_introl eq_refl)).
           apply N.eqb_eq in Z. exact (RMode en src r _ t rest p args N Kl Z).
        -- destruct J as [[]|J]. destruct (_ <? _)%N; [destruct J as [J|[]]; apply (f_equal dg_kind) in J; rewrite Kd in J; discriminate J|destruct J].
      * assert (In d (gates_on (dg_line d) (r_diag r))) as J by (apply in_gates; rewrite Kd; auto).
        rewrite (gates_of_line en src r _ _ E N) in J. unfold gate in J.
        destruct l as [|t rest]; [destruct J|]. destruct (kind_of (t :: rest)) as [| | | |p args|] eqn:Kl; try (destruct J; fail).
        apply in_app_iff in J. destruct J as [J|J]; [destruct (_ =? 0)%N; [destruct J as [J|[]]; apply (f_equal dg_kind) in J; rewrite Kd in J; discriminate J|destruct J]|].
        destruct (_ <? _)%N eqn:Z; [|destruct J]. destruct J as [J|[]].
        rewrite <- J. rewrite (on_own_line en src r _ _ t E N (or_introl eq_refl)).
        apply N.ltb_lt in Z. exact (RVersion en src r _ t rest p args _ N Kl eq_refl Z).
    + apply HL in I as (e & l & I & N & ->). rewrite line_end_last. unfold line_begin.
      apply RFinding; [apply findings; exact I|exact N].
  - intros H. destruct H as [ps w b L|i l t rs N M|i t rest p args N Kl Z|i t rest p args m N Kl Z Lt|e l F N].
    + rewrite Ed, !in_app_iff. left. apply (lex_reports _ _ _ T). eauto.
    + destruct (errors_exact en src r _ _ E N) as [[S _]|(t' & rs' & _ & Q & M')].
      * exfalso. exact (mistake_wrong _ _ _ _ _ M S).
      * destruct (mistake_unique _ _ _ _ _ _ _ M M') as [<- <-].
        assert (In (error_at t rs) (errors_on i (r_diag r))) as J by (rewrite Q; left; reflexivity).
        apply in_errors in J as [J _]. unfold error_at in J.
        rewrite (on_own_line en src r _ _ t E N (mistake_in _ _ _ _ _ M)) in J. exact J.
    + pose proof (gates_of_line en src r _ _ E N) as G. unfold gate in G. rewrite Kl, (proj2 (N.eqb_eq _ _) Z) in G.
      rewrite (on_own_line en src r _ _ t E N (or_introl eq_refl)) in G.
      assert (J : In (Diag i (tok_b t) (tok_e t) (KMode (mode_at i (r_lines r)))) (gates_on i (r_diag r))) by (rewrite G; left; reflexivity).
      apply in_gates in J as [J _]. exact J.
    + pose proof (gates_of_line en src r _ _ E N) as G. unfold gate in G. rewrite Kl, Z, (proj2 (N.ltb_lt _ _) Lt) in G.
      rewrite (on_own_line en src r _ _ t E N (or_introl eq_refl)) in G.
      assert (J : In (Diag i (tok_b t) (tok_e t) (KVersion m (version_at i (r_lines r)))) (gates_on i (r_diag r))) by (rewrite G; apply in_app_iff; right; left; reflexivity).
      apply in_gates in J as [J _]. exact J.
    + rewrite Ed, !in_app_iff. right. right. apply HL. exists e, l. rewrite line_end_last. unfold line_begin.
      split; [apply findings; exact F|]. auto.
Qed.

(* every finding is reported *)
Lemma finding_placed en src r e : process en src = Ret r -> finding (r_listing r) e ->
  exists l, nth_error (r_lines r) (le_line e) = Some l.
Proof.
  intros E F. pose proof (process_result en src r E) as [ts [errs [raw [lds [T [_ [A R]]]]]]].
  pose proof (lint_diags_range _ _ _ (ro_lint _ _ _ _ _ _ _ R)) as Q. apply findings in F. clear - Q F.
  induction Q as [|x d es ds [l [N _]] Q IH]; [destruct F|]. destruct F as [<-|F]; [eauto|exact (IH F)].
Qed.

Lemma defined_or_not l n : (exists k, Flow.defines l k n) \/ forall k, ~ Flow.defines l k n.
Proof.
  destruct (in_dec (fun a b => list_eq_dec Ascii.ascii_dec a b) n (flat_map (fun e => match e with LabelExpr m => [m] | _ => [] end) l)) as [I|I].
  - left. apply in_flat_map in I as (e & Ie & I). destruct e; try destruct I as []; try destruct H. subst.
    apply In_nth_error in Ie as [k K]. exists k. exact K.
  - right. intros k D. apply I. apply in_flat_map. exists (LabelExpr n). split; [exact (nth_error_In _ _ D)|left; reflexivity].
Qed.
Lemma used_or_not l n : Flow.used l n \/ ~ Flow.used l n.
Proof.
  destruct (in_dec (fun a b => list_eq_dec Ascii.ascii_dec a b) n (flat_map uses l)) as [I|I].
  - left. apply in_flat_map in I as (e & Ie & I). apply In_nth_error in Ie as [k K]. exists k, e. split; [exact K|].
    apply FlowProofs.names_uses. exact I.
  - right. intros (k & e & K & U). apply I. apply in_flat_map. exists e. split; [exact (nth_error_In _ _ K)|].
    apply FlowProofs.names_uses. exact U.
Qed.

Lemma sound_findings l : sound_program l <-> forall e, ~ finding l e.
Proof.
  split.
  - intros [A B C D F G H] e X. destruct X as [i j n P Q N|i n P Q|i P Q|i P|i n P Q|i P|i j P L Q].
    + apply N. exact (A _ _ _ Q P).
    + apply Q. exact (B _ _ P).
    + exact (D _ P Q).
    + exact (F _ P).
    + destruct (C _ _ P) as [k K]. exact (Q k K).
    + exact (G _ P).
    + destruct (H _ _ P L) as [X Y]. destruct Q; auto.
  - intros H. constructor.
    + intros i j n P Q. destruct (Nat.eq_dec j i) as [<-|N]; [reflexivity|]. exfalso. exact (H _ (FDuplicate l i j n P Q N)).
    + intros i n P. destruct (used_or_not l n) as [U|U]; [exact U|]. exfalso. exact (H _ (FUnused l i n P U)).
    + intros i n P. destruct (defined_or_not l n) as [U|U]; [exact U|]. exfalso. exact (H _ (FMissing l i n P U)).
    + intros i P Q. exact (H _ (FUnreachable l i P Q)).
    + intros i P. exact (H _ (FBranch l i P)).
    + intros i P. exact (H _ (FLoop l i P)).
    + intros i j P L. split; intros Q; [exact (H _ (FPragma l i j P L (or_introl Q)))|exact (H _ (FPragma l i j P L (or_intror Q)))].
Qed.

Theorem nothing_reported en src r : process en src = Ret r ->
  (r_diag r = [] <->
   (forall ps w, ~ Lexes src (ps ++ [POpen w])) /\
   (forall i l, nth_error (r_lines r) i = Some l ->
      statement en (version_at i (r_lines r)) l /\ available (mode_at i (r_lines r)) (version_at i (r_lines r)) l) /\
   sound_program (r_listing r)).
Proof.
  intros E. assert (X : r_diag r = [] <-> forall d, ~ reported en src r d).
  { split.
    - intros Z d H. apply (reports_exact en src r d E) in H. rewrite Z in H. destruct H.
    - intros H. destruct (r_diag r) as [|d ds] eqn:Z; [reflexivity|]. exfalso. apply (H d). apply (reports_exact en src r d E).
      rewrite Z. left. reflexivity. }
  rewrite X. split.
  - intros H. split; [|split].
    + intros ps w L. exact (H _ (ROpen en src r ps w L)).
    + intros i l N. split.
      * destruct (errors_exact en src r _ _ E N) as [[S _]|(t' & rs' & _ & Q & M')]; [exact S|]. exfalso. exact (H _ (RMistake en src r _ _ _ _ N M')).
      * intros p args Kl. destruct l as [|t rest]; [discriminate Kl|]. 
        destruct (N.eq_dec (min_version (mode_at i (r_lines r)) p) 0) as [Z|Z]; [exfalso; exact (H _ (RMode en src r _ _ _ _ _ N Kl Z))|].
        destruct (N.lt_ge_cases (version_at i (r_lines r)) (min_version (mode_at i (r_lines r)) p)) as [Y|Y];
          [exfalso; exact (H _ (RVersion en src r _ _ _ _ _ _ N Kl eq_refl Y))|]. lia.
    + apply sound_findings. intros e F. destruct (finding_placed en src r e E F) as [l N].
      exact (H _ (RFinding en src r e l F N)).
  - intros (HA & HB & HC) d H. destruct H as [ps w b L|i l t rs N M|i t rest p args N Kl Z|i t rest p args m N Kl Z Lt|e l F N].
    + exact (HA _ _ L).
    + exact (mistake_wrong _ _ _ _ _ M (proj1 (HB _ _ N))).
    + pose proof (proj2 (HB _ _ N) _ _ Kl). lia.
    + pose proof (proj2 (HB _ _ N) _ _ Kl). lia.
    + exact (proj1 (sound_findings _) HC e F).
Qed.
