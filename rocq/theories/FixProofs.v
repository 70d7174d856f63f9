(* The quick fixes that edit whole lines, and formatting. *)
From Verif Require Import Base LexSpec Lexer LexerProofs LexerThms DocLines DocProofs Expr Flow FlowProofs Linter LintSpec LinterThms Codec OpTable Process ProcessSpec ProcessDoc ProcessThms Semantics Query Lsp Edit RoundTripSpec RoundTripLex QueryProofs EditProofs FixLines.
From Coq Require Import Lia ZifyBool ZifyNat ZifyN.

(* ------------------------------------------------------------------------------------------ *)
(* removing a line *)
Definition remove_line (i : nat) : list text_edit := [TextEdit (Range (Z.of_nat i) 0 (Z.of_nat i + 1) 0) []].

Lemma Lines_last_eol ts ra : Lines ts ra -> forall u t t', ts = u ++ [t] -> is_eol t = true -> is_eol t' = true -> Lines (u ++ [t']) ra.
Proof.
  induction 1 as [|l N E|l x r ls E X L IH]; intros u t t' Q T T'.
  - destruct u; discriminate.
  - subst. rewrite existsb_app in E. cbn in E. rewrite T in E. destruct (existsb is_eol u); discriminate.
  - destruct r as [|y r].
    + apply app_inj_tail in Q. destruct Q as [<- _]. inversion L; subst; [|congruence|].
      * constructor; [exact E|exact T'|constructor].
      * destruct l0; discriminate.
    + assert (R : exists v, y :: r = v ++ [t] /\ u = l ++ x :: v).
      { exists (removelast (y :: r)). assert (S1 : y :: r = removelast (y :: r) ++ [last (y :: r) t]) by (apply app_removelast_last; discriminate).
        rewrite S1 in Q at 1. change (x :: removelast (y :: r) ++ [last (y :: r) t]) with ((x :: removelast (y :: r)) ++ [last (y :: r) t]) in Q.
        rewrite app_assoc in Q. apply app_inj_tail in Q. destruct Q as [<- Q]. rewrite Q in S1. auto. }
      destruct R as [v [Rv ->]]. rewrite <- app_assoc. cbn [app]. constructor; [exact E|exact X|]. exact (IH v t t' Rv T T').
Qed.

Lemma raw_count ps l c raw : (forall w, ~ In (POpen w) ps) -> Lines (fst (layout l c ps)) raw -> eols ps <= length raw <= S (eols ps).
Proof.
  intros O L. rewrite (lines_count _ _ L), (layout_eol_count _ O). destruct (rev _) as [|t ?]; [lia|]. destruct (is_eol t); lia.
Qed.
Lemma layout_eol_le ps : forall l c, length (filter is_eol (fst (layout l c ps))) <= eols ps.
Proof.
  unfold eols. induction ps as [|p ps IH]; intros l c; [cbn; lia|].
  destruct p; cbn [layout fst filter is_eol is_peol tok_t length]; try apply IH; try lia. specialize (IH (S l) 0). lia.
Qed.
Lemma raw_count_le ps l c raw : Lines (fst (layout l c ps)) raw -> length raw <= S (eols ps).
Proof.
  intros L. rewrite (lines_count _ _ L). pose proof (layout_eol_le ps l c). destruct (rev _) as [|t ?]; [lia|]. destruct (is_eol t); lia.
Qed.

(* the parts around line i *)
Lemma around_line s ps i raw : Lexes s ps -> Lines (fst (layout 0 0 ps)) raw -> i < length raw ->
  exists a q b ra w rb, ps = a ++ q ++ b /\ ends_line a /\ eols a = i /\ q <> [] /\
    (ends_line q /\ eols q = 1 \/ b = [] /\ eols q = 0) /\
    raw = ra ++ w :: rb /\ length ra = i /\ Lines (fst (layout 0 0 a)) ra /\ Lines (fst (layout (S i) 0 b)) rb.
Proof.
  intros L Li H. pose proof (raw_count_le _ _ _ _ Li) as C.
  destruct (cut_exists ps i) as [a [q0 [-> [E N]]]]; [lia|].
  destruct (lines_parts _ _ _ _ _ L E Li) as [ra [rq [-> [La [Lq Ra]]]]]. cbn [Nat.add] in Lq. rewrite N in Lq.
  destruct (lexes_split a _ _ L) as [_ [_ L2]]. rewrite app_length in H.
  destruct (le_lt_dec 1 (eols q0)) as [K|K].
  - destruct (cut_exists q0 1 K) as [q [b [-> [Eq Nq]]]].
    destruct (lines_parts _ _ _ _ _ L2 Eq Lq) as [rw [rb [-> [Lw [Lb Rw]]]]]. rewrite Nq, Nat.add_1_r in Lb.
    destruct rw as [|w [|? ?]]; [cbn in Rw; lia| |cbn in Rw; lia].
    exists a, q, b, ra, w, rb. split; [reflexivity|]. split; [exact E|]. split; [exact N|].
    split; [intros ->; discriminate Nq|]. split; [left; auto|]. split; [reflexivity|]. split; [lia|]. auto.
  - pose proof (raw_count_le _ _ _ _ Lq) as C2.
    destruct rq as [|w [|? ?]]; [cbn in H; lia| |cbn in C2; lia].
    exists a, q0, [], ra, w, []. rewrite app_nil_r. split; [reflexivity|]. split; [exact E|]. split; [exact N|].
    split; [|split; [right; split; [reflexivity|lia]|split; [reflexivity|split; [lia|split; [exact La|constructor]]]]].
    intros ->. cbn in Lq. pose proof (Lines_fun _ _ Lq _ Lines_none). discriminate.
Qed.

(* the text without line i: a lone carriage return may meet a line feed *)
Lemma rejoin s a q b : Lexes s (a ++ q ++ b) -> ends_line a ->
  Lexes (texts_of a ++ texts_of b) (a ++ b) \/
  exists a0 b0, a = a0 ++ [PEol [c_cr]] /\ b = PEol [c_lf] :: b0 /\ Lexes (texts_of a ++ texts_of b) ((a0 ++ [PEol [c_cr; c_lf]]) ++ b0).
Proof.
  intros L E. pose proof (no_open _ _ _ L E) as O. destruct (lexes_split a _ _ L) as [_ [La Lq]]. destruct (lexes_split q _ _ Lq) as [_ [_ Lb]].
  assert (D : (exists a0 b0, a = a0 ++ [PEol [c_cr]] /\ b = PEol [c_lf] :: b0) \/
              ~ (last a (PWord []) = PEol [c_cr] /\ ends_before (fun c => c = c_lf) (texts_of b) /\ texts_of b <> [])).
  { destruct E as [->|[x [w ->]]]; [right; cbn; intros [? _]; discriminate|]. rewrite last_last.
    destruct (list_eq_dec Ascii.ascii_dec w [c_cr]) as [->|Nw]; [|right; intros [H _]; congruence].
    destruct b as [|p b]; [right; intros [_ [_ H]]; apply H; reflexivity|].
    assert (C : (exists b0, p :: b = PEol [c_lf] :: b0) \/ ~ ends_before (fun c => c = c_lf) (texts_of (p :: b))).
    { rewrite <- (lexes_text _ _ Lb) in Lb at 1. inversion Lb; subst; unfold texts_of; cbn [map concat piece_text app ends_before]; try (right; discriminate); try (left; eauto; fail).
      - right. match goal with H : is_blank _ |- _ => destruct H as [->| ->]; discriminate end.
      - right. intros ->. match goal with H : Forall (fun c => ~ is_delim c) _ |- _ => inversion H as [|? ? Hd _]; apply Hd; right; left; reflexivity end. }
    destruct C as [[b0 Eb]|C]; [left; exists x, b0; auto|right; tauto]. }
  destruct D as [[a0 [b0 [-> ->]]]|D].
  - right. exists a0, b0. split; [reflexivity|]. split; [reflexivity|].
    destruct (lexes_split a0 _ _ La) as [_ [La0 _]]. destruct (lexes_split [PEol [c_lf]] _ b0 Lb) as [_ [_ Lb0]].
    rewrite texts_app, <- !app_assoc. unfold texts_of at 2. cbn [map concat piece_text app].
    apply lexes_join_cr; [exact La0|intros w I; apply (O w); apply in_or_app; left; exact I|].
    unfold texts_of at 1. cbn [map concat piece_text app]. constructor. exact Lb0.
  - left. apply lexes_join; assumption.
Qed.

Lemma one_line_parts a q b : strings_on_one_line (a ++ q ++ b) -> strings_on_one_line (a ++ b).
Proof. intros O w H. apply O. rewrite !in_app_iff in *. tauto. Qed.

Lemma entries_delete en A l Z : all_surplus en 1 (A ++ l :: Z) = 0 -> no_pragma l ->
  all_surplus en 1 (A ++ Z) = 0 /\ all_entries en 1 (A ++ Z) = delete_line (length A) (all_entries en 1 (A ++ l :: Z)).
Proof.
  intros S0 P. rewrite all_surplus_app in S0. cbn [all_surplus] in S0. rewrite (no_pragma_version _ _ P) in S0.
  split; [rewrite all_surplus_app; lia|]. rewrite !all_entries_app. cbn [all_entries]. rewrite (no_pragma_version _ _ P).
  pose proof (all_entries_length en A 1) as La. replace (all_surplus en 1 A) with 0 in La by lia. rewrite Nat.add_0_r in La.
  pose proof (entries_length en (last_version 1 A) l) as Le. destruct (surplus en (last_version 1 A) l); [lia|].
  destruct (entries en (last_version 1 A) l) as [|e [|? ?]]; try (cbn in Le; lia).
  unfold delete_line. rewrite <- La. rewrite firstn_app, Nat.sub_diag, firstn_all. cbn [firstn]. rewrite app_nil_r. f_equal.
  replace (S (length (all_entries en 1 A))) with (length (all_entries en 1 A ++ [e])) by (rewrite app_length; cbn; lia).
  change ([e] ++ all_entries en (last_version 1 A) Z) with ([e] ++ all_entries en (last_version 1 A) Z).
  rewrite app_assoc. rewrite skipn_app, Nat.sub_diag, skipn_all. reflexivity.
Qed.

Lemma nth_split_at {A} (a : list A) x b i y : length a = i -> nth_error (a ++ x :: b) i = Some y -> x = y.
Proof. intros <-. rewrite nth_error_app2, Nat.sub_diag by lia. cbn. congruence. Qed.

Theorem remove_line_listing en src ps r i l : Lexes src ps -> strings_on_one_line ps -> process en src = Ret r ->
  filter is_surplus_diag (r_diag r) = [] -> nth_error (r_lines r) i = Some l -> no_pragma l ->
  exists r', process en (apply_edits (remove_line i) src) = Ret r' /\
    (r_listing r' = delete_line i (r_listing r) \/
     In (PEol [c_cr]) ps /\ nth_error (r_listing r) (S i) = Some EmptyExpr /\ r_listing r' = delete_line i (delete_line i (r_listing r))).
Proof.
  intros L O P S0 N Np. destruct (process_raw en src ps r L P) as [raw [Li R]].
  assert (Hi : i < length raw) by (rewrite <- (map_length code_of), <- R; apply nth_error_Some; congruence).
  destruct (around_line _ _ _ _ L Li Hi) as [a [q [b [ra [w [rb [-> [E [Na [Nq [C [-> [Ra [La Lb]]]]]]]]]]]]]].
  assert (W : code_of w = l).
  { rewrite R, map_app in N. cbn [map] in N. apply nth_split_at in N; [exact N|rewrite map_length; exact Ra]. }
  assert (Ed : apply_edits (remove_line i) src = texts_of a ++ texts_of b).
  { unfold remove_line. rewrite (replace_lines _ src a q b); try assumption; try reflexivity; cbn [te_range r_sl r_el te_text]; [lia|].
    destruct C as [[C1 C2]|[C1 C2]]; [left; split; [exact C1|lia]|right; split; [exact C1|lia]]. }
  rewrite Ed. rewrite map_app in R. cbn [map] in R. rewrite W in R.
  assert (S1 : all_surplus en 1 (map code_of ra ++ l :: map code_of rb) = 0).
  { destruct (result_surplus _ _ _ P) as [Q _]. rewrite S0, R in Q. cbn in Q. lia. }
  destruct (entries_delete en _ _ _ S1 Np) as [S2 E2]. rewrite map_length, Ra in E2.
  assert (Rl : r_listing r = all_entries en 1 (map code_of ra ++ l :: map code_of rb)).
  { destruct (process_result en src r P) as [? [? [? [? [_ [_ [_ R1]]]]]]]. rewrite (ro_listing _ _ _ _ _ _ _ R1), R. reflexivity. }
  destruct (rejoin _ _ _ _ L E) as [J|[a0 [b0 [Ea [Eb J]]]]].
  - destruct (join_lines en _ _ _ _ _ _ _ _ _ J E La Lb) as [raw' [_ [F [Q1 Q2]]]].
    destruct Q2 as [r' P']; [rewrite <- (same_surplus _ _ _ F); exact S2|].
    exists r'. split; [exact P'|]. left. rewrite Rl, <- E2.
    destruct (process_result en _ r' P') as [? [? [? [? [_ [_ [_ R1]]]]]]]. rewrite (ro_listing _ _ _ _ _ _ _ R1), (Q1 r' P').
    symmetry. apply (same_all_entries en _ _ F 1).
  - assert (Lb0 : exists rb0, rb = [] :: rb0 /\ Lines (fst (layout (S (S i)) 0 b0)) rb0).
    { subst b. cbn [layout fst] in Lb. destruct (Lines_exists (fst (layout (S (S i)) 0 b0))) as [rb0 H0]. exists rb0. split; [|exact H0].
      apply (Lines_fun _ _ Lb). apply (Lines_eol [] _ _ _); [reflexivity|reflexivity|exact H0]. }
    destruct Lb0 as [rb0 [-> Lb0]].
    assert (La0 : exists l0 c0, Lines (fst (layout l0 c0 (a0 ++ [PEol [c_cr; c_lf]]))) ra).
    { subst a. pose proof (no_open _ _ _ L E) as Oa. assert (Oa0 : forall v, ~ In (POpen v) a0) by (intros v I; apply (Oa v); apply in_or_app; left; exact I).
      exists 0, 0. destruct (layout_app a0 Oa0 0 0 [PEol [c_cr]]) as [c1 [A1 _]]. destruct (layout_app a0 Oa0 0 0 [PEol [c_cr; c_lf]]) as [c2 [A2 _]].
      rewrite A1 in La. rewrite A2. eapply Lines_last_eol; [exact La|reflexivity|reflexivity|reflexivity]. }
    destruct La0 as [l0 [c0 La0]].
    assert (E' : ends_line (a0 ++ [PEol [c_cr; c_lf]])) by (right; eauto).
    destruct (join_lines en _ _ _ _ _ _ _ _ _ J E' La0 Lb0) as [raw' [_ [F [Q1 Q2]]]].
    cbn [map] in *. change (code_of []) with (@nil token) in *.
    destruct (entries_delete en _ [] _ S2 I) as [S3 E3]. rewrite map_length, Ra in E3.
    destruct Q2 as [r' P']; [rewrite <- (same_surplus _ _ _ F); exact S3|].
    exists r'. split; [exact P'|]. right. split; [subst a; apply in_or_app; left; apply in_or_app; right; left; reflexivity|].
    rewrite Rl. split.
    + pose proof (all_entries_nth en (map code_of ra ++ l :: [] :: map code_of rb0) 1 (S i) [] S1) as X.
      destruct X as [e [X1 X2]]; [rewrite nth_error_app2 by (rewrite map_length; lia); rewrite map_length, Ra; replace (S i - i) with 1 by lia; reflexivity|].
      rewrite X1. cbn in X2. congruence.
    + rewrite <- E2, <- E3. destruct (process_result en _ r' P') as [? [? [? [? [_ [_ [_ R1]]]]]]]. rewrite (ro_listing _ _ _ _ _ _ _ R1), (Q1 r' P').
      symmetry. apply (same_all_entries en _ _ F 1).
Qed.

(* the lines the fix is offered for *)
Lemma delete_empty_same l i : unique_labels l -> nth_error l i = Some EmptyExpr -> same_behaviour l (delete_line i l) /\ unique_labels (delete_line i l).
Proof.
  intros U N. pose proof (delete_line_lines_from 0 i l ltac:(lia)) as E. rewrite Nat.sub_0_r in E. rewrite <- E, delete_lines_select. split.
  - apply deletion_same_behaviour; auto using flags_of_length.
    + intros k e He Hf. rewrite (flags_of_nth _ _ _ _ He) in Hf. right. left. cbn in Hf. rewrite orb_false_r in Hf.
      destruct (Nat.eqb_spec k i) as [->|]; [|discriminate]. rewrite N in He. injection He as <-. constructor.
    + intros k n Hd _. rewrite (flags_of_nth _ _ _ _ Hd). cbn. rewrite orb_false_r. destruct (Nat.eqb_spec k i) as [->|]; [|reflexivity].
      unfold Flow.defines in Hd. congruence.
  - apply select_unique_labels; [apply flags_of_length|exact U].
Qed.

Lemma pragma_entry en v l e : entries en v l = [e] -> ~ no_pragma l -> e = EmptyExpr \/ exists k, e = PragmaExpr k.
Proof.
  unfold entries, kind_of. destruct l as [|t r]; cbn [no_pragma]; [intros _ H; destruct (H I)|]. intros E H.
  assert (T : tok_v t = bs "#pragma") by (destruct (seqb_spec (tok_v t) (bs "#pragma")); [assumption|contradiction]).
  rewrite T in E. change (label_name (bs "#pragma")) with (@None str) in E. change (seqb (bs "#pragma") (bs "#pragma")) with true in E. cbv iota in E.
  destruct (tok_t t); try (left; congruence); destruct (pragma_version (texts r)); try (left; congruence); right; eexists; injection E as <-; reflexivity.
Qed.

Lemma redundant_line_same l i : unique_labels l -> In i (map red_line (lint_redundant l)) ->
  same_behaviour l (delete_line i l) /\ unique_labels (delete_line i l) /\ exists e, nth_error l i = Some e /\ (exists n, e = LabelExpr n \/ e = BExpr n).
Proof.
  intros U H. apply in_map_iff in H. destruct H as [x [<- Hx]].
  assert (K : b_before_own_label l (red_line x) \/ exists n, Flow.defines l (red_line x) n /\ ~ used l n).
  { destruct x as [i n|i]; cbn.
    - right. exists n. apply c15. apply c15_redundant. exact Hx.
    - left. apply c18_exact. apply c18_redundant. exact Hx. }
  pose proof (delete_line_lines_from 0 (red_line x) l ltac:(lia)) as E. rewrite Nat.sub_0_r in E. rewrite <- E.
  split; [apply (delete_lines_same l [red_line x] U); intros k [<-|[]]; exact K|]. split.
  - rewrite delete_lines_select. apply select_unique_labels; [apply flags_of_length|exact U].
  - destruct K as [[n [k [B _]]]|[n [D _]]]; [exists (BExpr n)|exists (LabelExpr n)]; (split; [assumption|]); exists n; auto.
Qed.

Lemma nth_skipn {A} i : forall (l : list A), nth_error (skipn (S i) l) 0 = nth_error l (S i).
Proof.
  induction i as [|i IH]; intros l; (destruct l as [|x l]; [reflexivity|]); [destruct l; reflexivity|].
  change (nth_error (skipn (S i) l) 0 = nth_error l (S i)). apply IH.
Qed.

Theorem remove_line_safe en src ps r rg acts i : Lexes src ps -> strings_on_one_line ps -> process en src = Ret r ->
  filter is_surplus_diag (r_diag r) = [] -> unique_labels (r_listing r) ->
  code_actions r rg = Ret acts -> In (FixRemoveLine i) acts ->
  exists r', process en (apply_edits (remove_line i) src) = Ret r' /\ same_behaviour (r_listing r) (r_listing r') /\ unique_labels (r_listing r').
Proof.
  intros L O P S0 U Q H.
  assert (Hi : In i (map red_line (lint_redundant (r_listing r)))).
  { unfold code_actions in Q. destruct (inlay_hints r rg) as [hs| |]; try discriminate. cbn [bindr] in Q. injection Q as <-.
    rewrite !in_app_iff in H. destruct (process_result en src r P) as [? [? [? [? [_ [_ [_ R]]]]]]]. rewrite (ro_reds _ _ _ _ _ _ _ R) in H.
    destruct H as [H|[H|[H|[H|H]]]]; apply in_map_iff in H; destruct H as [y0 [Ex Hx]]; try discriminate Ex.
    injection Ex as <-. apply filter_In in Hx. apply in_map. tauto. }
  destruct (redundant_line_same _ _ U Hi) as [B [U' [e [Ne Ke]]]].
  destruct (listing_lines en src r P S0) as [Len Ln].
  destruct (nth_error (r_lines r) i) as [l|] eqn:Nl.
  2: { apply nth_error_None in Nl. assert (i < length (r_listing r)) by (apply nth_error_Some; congruence). lia. }
  destruct (Ln i l Nl) as [e' [Ne' Ee]]. rewrite Ne in Ne'. injection Ne' as <-.
  assert (Np : no_pragma l).
  { destruct l as [|t w]; [exact I|]. cbn. intros T. destruct (pragma_entry _ _ _ _ Ee) as [->|[k ->]]; [cbn; tauto| |]; destruct Ke as [n [K|K]]; discriminate K. }
  destruct (remove_line_listing en src ps r i l L O P S0 Nl Np) as [r' [P' [E|[_ [Nx E]]]]]; exists r'; (split; [exact P'|]); rewrite E; [auto|].
  assert (Ni : nth_error (delete_line i (r_listing r)) i = Some EmptyExpr).
  { unfold delete_line. assert (i < length (r_listing r)) by (apply nth_error_Some; congruence).
    rewrite nth_error_app2 by (rewrite firstn_length; lia). rewrite firstn_length, Nat.min_l, Nat.sub_diag by lia. rewrite nth_skipn. exact Nx. }
  destruct (delete_empty_same _ _ U' Ni) as [B2 U2]. split; [eapply same_behaviour_trans; eassumption|exact U2].
Qed.

(* ------------------------------------------------------------------------------------------ *)
(* adding text at the end *)
Lemma edit_past_end e s ps : Lexes s ps -> strings_on_one_line ps -> forall l c, (Z.of_nat (l + eols ps) < r_sl (te_range e))%Z ->
  edited [e] l c None s = s ++ te_text e.
Proof.
  intros L O l c H. revert s l c L O H. induction ps as [|p ps IH]; intros s l c L O H.
  - inversion L; subst. cbn [edited filter]. assert (B : begins l c [] e = true) by (unfold begins, is_here; cbn in H; lia). rewrite B. cbn. rewrite !app_nil_r. reflexivity.
  - assert (F : forall c' x r, filter (begins l c' (x :: r)) [e] = []) by (intros; apply filter_none; intros e' [<-|[]]; unfold begins, is_here; lia).
    assert (G : forall k, filter (starts_at l k) [e] = []) by (intros; apply filter_none; intros e' [<-|[]]; unfold starts_at; lia).
    destruct (is_peol p) eqn:P.
    + destruct p; try discriminate P. unfold eols in H. cbn [filter is_peol length] in H. fold (eols ps) in H.
      inversion L as [| |r ps0 L'|r ps0 L'|r ps0 E' L'| | | |]; subst.
      * rewrite edited_lf by apply F. rewrite (IH _ (S l) 0 L' (one_line_tail _ _ O)) by lia. reflexivity.
      * rewrite edited_crlf by apply F. rewrite (IH _ (S l) 0 L' (one_line_tail _ _ O)) by lia. reflexivity.
      * rewrite edited_cr by (try assumption; apply F). rewrite (IH _ (S l) 0 L' (one_line_tail _ _ O)) by lia. reflexivity.
    + destruct (lexes_split [p] _ _ L) as [-> [_ L']]. assert (Tx : texts_of [p] = piece_text p) by (unfold texts_of; cbn; apply app_nil_r). rewrite Tx.
      assert (U : eols (p :: ps) = eols ps) by (unfold eols; cbn [filter]; rewrite P; reflexivity). rewrite U in H.
      rewrite walk_plain; [|exact (piece_plain _ _ _ L O P)|intros; apply G].
      rewrite (IH _ l _ L' (one_line_tail _ _ O) H). rewrite app_assoc. reflexivity.
Qed.

(* replacing the start of a last line that is blank *)
Lemma skip_some e l u : forall c w, Forall plain_char u -> c < w -> r_sl (te_range e) = Z.of_nat l -> r_sc (te_range e) = 0%Z -> r_el (te_range e) = Z.of_nat l ->
  r_ec (te_range e) = Z.of_nat w -> 0 < c -> edited [e] l c (Some e) u = skipn (w - c) u.
Proof.
  induction u as [|x u IH]; intros c w P H Sl Sc El Ec C.
  - rewrite skipn_nil. rewrite edited_done by reflexivity. apply (edited_past _ 0); [cbn; lia|]. constructor; [unfold earlier; lia|constructor].
  - inversion P as [|? ? Px Pu]; subst. destruct (plain_eqb x Px) as [A B].
    assert (F : finished e l c (x :: u) = false) by (unfold finished, reached; rewrite El, Ec, (not_end _ _ Px); cbn [orb]; lia).
    cbn [edited]. rewrite F, A, B. cbn [map concat app]. replace (w - c) with (S (w - S c)) by lia. cbn [skipn].
    destruct (Nat.eq_dec (S c) w) as [<-|N].
    + rewrite Nat.sub_diag. cbn [skipn]. rewrite edited_done.
      * apply (edited_past _ (length u)); [lia|]. constructor; [unfold earlier; lia|constructor].
      * unfold finished, reached. rewrite El, Ec. destruct u; [reflexivity|]. destruct (at_line_end _); lia.
    + apply IH; try assumption; lia.
Qed.
Lemma edit_blank_line e l u w : Forall plain_char u -> te_range e = Range (Z.of_nat l) 0 (Z.of_nat l) (Z.of_nat w) -> 0 < w ->
  edited [e] l 0 None u = te_text e ++ skipn w u.
Proof.
  intros P R W. assert (Bg : begins l 0 u e = true).
  { unfold begins, is_here. rewrite R. cbn. destruct u; [lia|]. destruct (at_line_end _); lia. }
  destruct u as [|x u]; cbn [edited filter]; rewrite Bg; cbn [find map concat]; rewrite app_nil_r; [rewrite skipn_nil; reflexivity|]. f_equal.
  inversion P as [|? ? Px Pu]; subst. destruct (plain_eqb x Px) as [A B].
  assert (F : finished e l 0 (x :: u) = false) by (unfold finished, reached; rewrite R; cbn [r_el r_ec]; rewrite (not_end _ _ Px); cbn [orb]; lia).
  rewrite F, A, B. cbn [negb app]. destruct w as [|w]; [lia|]. cbn [skipn]. destruct w as [|w].
  - cbn [skipn]. rewrite edited_done.
    + apply (edited_past _ (length u)); [lia|]. constructor; [unfold earlier; rewrite R; cbn; lia|constructor].
    + unfold finished, reached. rewrite R. cbn. destruct u; [reflexivity|]. destruct (at_line_end _); lia.
  - rewrite (skip_some e l u 1 (S (S w))); try (rewrite R; cbn [r_sl r_sc r_el r_ec]; lia); try assumption; try lia. f_equal. 
Qed.

(* ------------------------------------------------------------------------------------------ *)
(* the names of labels on lines with the same texts *)
Lemma same_firstn n (l l' : list token) : texts l = texts l' -> texts (firstn n l) = texts (firstn n l').
Proof. unfold texts. intros H. rewrite <- !firstn_map, H. reflexivity. Qed.
Lemma same_cons t r t' r' : same_texts (t :: r) (t' :: r') -> tok_v t = tok_v t' /\ texts r = texts r'.
Proof.
  unfold same_texts. cbn [map]. intros E. injection E as _ Ev Er. split; [exact Ev|].
  unfold texts. transitivity (map snd (map (fun t => (is_comment t, tok_v t)) r)); [rewrite map_map; reflexivity|]. rewrite Er, map_map. reflexivity.
Qed.
Lemma same_names l l' : same_texts l l' -> texts (names_labels l) = texts (names_labels l') /\ map snd (ProcessSpec.defines l) = map snd (ProcessSpec.defines l').
Proof.
  intros S. pose proof (same_kind _ _ S) as K. destruct l as [|t r], l' as [|t' r']; try discriminate S; [auto|].
  destruct (same_cons _ _ _ _ S) as [V W]. unfold names_labels, ProcessSpec.defines. rewrite K, V. split.
  - destruct (kind_of (t' :: r')); try reflexivity. destruct (one_of _ _); [apply same_firstn; exact W|]. destruct (one_of _ _); [exact W|reflexivity].
  - destruct (kind_of (t' :: r')) as [| |[|]| | |]; reflexivity.
Qed.
Lemma same_all_names ls ls' : Forall2 same_texts ls ls' -> texts (flat_map names_labels ls) = texts (flat_map names_labels ls') /\
  map snd (flat_map ProcessSpec.defines ls) = map snd (flat_map ProcessSpec.defines ls').
Proof.
  induction 1 as [|l l' ls ls' H F IH]; [auto|]. cbn [flat_map]. unfold texts in *. rewrite !map_app. destruct IH as [-> ->]. destruct (same_names _ _ H) as [A ->]. unfold texts in A. rewrite A. auto.
Qed.

Lemma result_names en src r : process en src = Ret r ->
  texts (r_refs r) = texts (flat_map names_labels (r_lines r)) /\ map sy_name (r_syms r) = map snd (flat_map ProcessSpec.defines (r_lines r)) /\
  texts (r_miss r) = filter (fun v => negb (mem v (map sy_name (r_syms r)))) (texts (r_refs r)) /\ r_listing r = all_entries en 1 (r_lines r).
Proof.
  intros P. destruct (symbols_complete en src r P) as [S [R [_ _]]]. destruct (process_result en src r P) as [? [? [? [? [_ [_ [_ Q]]]]]]].
  split; [rewrite R; reflexivity|]. split; [|split; [|exact (ro_listing _ _ _ _ _ _ _ Q)]].
  - transitivity (map (fun x => fst (fst (fst x))) (map (fun s => (sy_name s, sy_l s, sy_b s, sy_e s)) (r_syms r))); [rewrite map_map; reflexivity|].
    rewrite S, map_map. reflexivity.
  - rewrite (ro_miss _ _ _ _ _ _ _ Q). unfold texts. clear. generalize (map sy_name (r_syms r)). induction (r_refs r) as [|t l IH]; intros ns; [reflexivity|].
    cbn [filter map]. destruct (negb (mem (tok_v t) ns)); cbn [map]; rewrite IH; reflexivity.
Qed.

(* ------------------------------------------------------------------------------------------ *)
(* adding a label at the end *)
Definition create_label (r : presult) (name : str) : list text_edit :=
  let t := [c_cr; c_lf] ++ name ++ bs ":" ++ [c_cr; c_lf] in
  [TextEdit (Range (Z.of_nat (length (r_lines r))) 0 (Z.of_nat (length (r_lines r))) (Z.of_nat (length t))) t].

Lemma word_colon w : is_word w = true -> is_word (w ++ bs ":") = true.
Proof.
  unfold is_word. destruct w as [|c r]; [discriminate|]. cbn [app]. rewrite !andb_true_iff. intros [[A B] C]. split; [split|].
  - change (c :: r ++ bs ":") with ((c :: r) ++ bs ":"). rewrite forallb_app, A. reflexivity.
  - exact B.
  - destruct r as [|d r]; [destruct (Ascii.eqb c c_slash); reflexivity|exact C].
Qed.
Lemma label_lexes name u ps : is_word name = true -> Lexes u ps ->
  Lexes (c_cr :: c_lf :: (name ++ bs ":") ++ c_cr :: c_lf :: u) (PEol [c_cr; c_lf] :: PWord (name ++ bs ":") :: PEol [c_cr; c_lf] :: ps).
Proof.
  intros W L. constructor. apply word_lexes; [apply word_colon; exact W|right; right; reflexivity|]. constructor. exact L.
Qed.

(* a last line without tokens has blanks only *)
Lemma blank_pieces ps : forall l c, (forall w, ~ In (POpen w) ps) -> fst (layout l c ps) = [] -> Forall (fun p => exists x, p = PBlank x) ps.
Proof.
  induction ps as [|p ps IH]; intros l c O E; [constructor|]. assert (O' : forall w, ~ In (POpen w) ps) by (intros w I; apply (O w); right; exact I).
  destruct p; cbn [layout fst] in E; try discriminate E; [constructor; [eauto|exact (IH _ _ O' E)]|]. destruct (O w). left. reflexivity.
Qed.
Lemma blank_layout ps : Forall (fun p => exists x, p = PBlank x) ps -> forall l c, fst (layout l c ps) = [].
Proof. induction 1 as [|p ps [x ->] F IH]; intros l c; [reflexivity|]. cbn [layout]. apply IH. Qed.
Lemma blank_skip ps n : Forall (fun p => exists x, p = PBlank x) ps -> texts_of (skipn n ps) = skipn n (texts_of ps).
Proof.
  intros F. revert n. induction F as [|p ps [x ->] F IH]; intros n; [rewrite !skipn_nil; reflexivity|]. destruct n as [|n]; [reflexivity|]. cbn [skipn]. rewrite IH. reflexivity.
Qed.
Lemma Forall_skipn {A} (P : A -> Prop) n l : Forall P l -> Forall P (skipn n l).
Proof. intros F. revert n. induction F; intros [|n]; cbn [skipn]; try constructor; auto. Qed.
Lemma blank_lexes ps : forall s n, Lexes s ps -> Forall (fun p => exists x, p = PBlank x) ps -> Lexes (texts_of (skipn n ps)) (skipn n ps).
Proof.
  intros s n L _. rewrite <- (firstn_skipn n ps) in L. destruct (lexes_split _ _ _ L) as [_ [_ Q]]. exact Q.
Qed.

Lemma Lines_close ts raw : Lines ts raw -> forall t, is_eol t = true -> (exists u x, ts = u ++ [x] /\ is_eol x = false) -> Lines (ts ++ [t]) raw.
Proof.
  induction 1 as [|l N E|l x r ls E X L IH]; intros t T [u [y [Q Y]]].
  - destruct u; discriminate.
  - apply (Lines_eol l t [] []); [exact E|exact T|constructor].
  - destruct r as [|z r].
    + apply app_inj_tail in Q. destruct Q as [_ <-]. congruence.
    + rewrite <- app_assoc. cbn [app]. constructor; [exact E|exact X|]. apply (IH t T).
      assert (S1 : z :: r = removelast (z :: r) ++ [last (z :: r) t]) by (apply app_removelast_last; discriminate).
      exists (removelast (z :: r)), (last (z :: r) t). split; [exact S1|]. rewrite S1 in Q.
      change (x :: removelast (z :: r) ++ [last (z :: r) t]) with ((x :: removelast (z :: r)) ++ [last (z :: r) t]) in Q.
      rewrite app_assoc in Q. apply app_inj_tail in Q. destruct Q as [_ ->]. exact Y.
Qed.

Lemma layout_no_eol ps : eols ps = 0 -> forall l c, existsb is_eol (fst (layout l c ps)) = false.
Proof.
  unfold eols. induction ps as [|p ps IH]; intros H l c; [reflexivity|].
  destruct p; cbn [filter is_peol length layout fst existsb is_eol tok_t orb] in *; try (apply IH; exact H); try discriminate H. reflexivity.
Qed.

(* the last line *)
Lemma last_line s ps raw : Lexes s ps -> Lines (fst (layout 0 0 ps)) raw -> exists a b ra rb, ps = a ++ b /\ ends_line a /\ eols a = eols ps /\ eols b = 0 /\
  raw = ra ++ rb /\ length ra = eols ps /\ Lines (fst (layout 0 0 a)) ra /\
  ((rb = [] /\ fst (layout (eols ps) 0 b) = []) \/ (fst (layout (eols ps) 0 b) <> [] /\ rb = [fst (layout (eols ps) 0 b)])).
Proof.
  intros L Li. destruct (cut_exists ps (eols ps) (le_n _)) as [a [b [E [Ea Na]]]].
  assert (Nb : eols b = 0) by (assert (X := f_equal eols E); rewrite eols_app in X; lia).
  pose proof L as L0. pose proof Li as Li0. rewrite E in L0, Li0.
  destruct (lines_parts _ _ _ _ _ L0 Ea Li0) as [ra [rb [-> [La [Lb Ra]]]]]. cbn [Nat.add] in Lb. rewrite Na in Lb.
  exists a, b, ra, rb. split; [exact E|]. split; [exact Ea|]. split; [exact Na|]. split; [exact Nb|]. split; [reflexivity|]. split; [lia|]. split; [exact La|].
  pose proof (layout_no_eol b Nb (eols ps) 0) as Z. destruct (fst (layout (eols ps) 0 b)) as [|t l] eqn:F.
  - left. split; [|reflexivity]. exact (Lines_fun _ _ Lb _ Lines_none).
  - right. split; [discriminate|]. apply (Lines_fun _ _ Lb). apply Lines_last; [discriminate|exact Z].
Qed.

Theorem create_label_result en src ps r name : Lexes src ps -> strings_on_one_line ps -> (forall w, ~ In (POpen w) ps) -> process en src = Ret r ->
  filter is_surplus_diag (r_diag r) = [] -> is_word name = true ->
  exists r' pre, process en (apply_edits (create_label r name) src) = Ret r' /\ (pre = [] \/ pre = [EmptyExpr]) /\
    r_listing r' = r_listing r ++ pre ++ [LabelExpr name] /\
    map sy_name (r_syms r') = map sy_name (r_syms r) ++ [name] /\ map tok_v (r_refs r') = map tok_v (r_refs r) /\
    map tok_v (r_miss r') = filter (fun v => negb (seqb v name)) (map tok_v (r_miss r)).
Proof.
  intros L O Op P S0 W. destruct (process_raw en src ps r L P) as [raw [Li R]].
  destruct (last_line _ _ _ L Li) as [a [b [ra [rb [E [Ea [Na [Nb [-> [Ra [La C]]]]]]]]]]].
  set (new := bs ":"). set (T := [c_cr; c_lf] ++ name ++ new ++ [c_cr; c_lf]).
  assert (X : exists X prest rX, ends_line X /\ Lexes (apply_edits (create_label r name) src) (X ++ PWord (name ++ new) :: PEol [c_cr; c_lf] :: prest) /\
    (exists l c, Lines (fst (layout l c X)) rX) /\ Forall (fun p => exists x, p = PBlank x) prest /\ (rX = ra ++ rb \/ rX = (ra ++ rb) ++ [[]])).
  { destruct C as [[-> Fb]|[Fb ->]].
    - (* the last line has no tokens *)
      rewrite app_nil_r in *. assert (N : length (r_lines r) = eols a) by (rewrite R, map_length; lia).
      assert (Ob : forall w, ~ In (POpen w) b) by (intros w I; apply (Op w); rewrite E; apply in_or_app; right; exact I).
      pose proof (blank_pieces _ _ _ Ob Fb) as B. pose proof L as L0. rewrite E in L0. destruct (lexes_split a _ _ L0) as [Es [La0 Lb0]].
      assert (Ed : apply_edits (create_label r name) src = texts_of a ++ T ++ skipn (length T) (texts_of b)).
      { assert (Pb : Forall plain_char (texts_of b)).
        { clear - B Lb0. revert Lb0. generalize (texts_of b). intros s Lb0. induction Lb0; inversion B as [|? ? [y Hy] B']; subst; try discriminate Hy; constructor; [|auto].
          match goal with H : is_blank _ |- _ => destruct H as [->| ->]; split; discriminate end. }
        unfold apply_edits, create_label. fold new. fold T. rewrite N. set (e := TextEdit _ _).
        assert (Be : edited [e] (eols a) 0 None (texts_of b) = T ++ skipn (length T) (texts_of b)).
        { rewrite (edit_blank_line e (eols a) (texts_of b) (length T)); [reflexivity|exact Pb|reflexivity|unfold T; cbn; lia]. }
        destruct a as [|p a].
        - cbn [texts_of map concat app] in *. rewrite Es. exact Be.
        - pose proof O as O0. rewrite E in O0. rewrite (walk_lines [e] (p :: a) src b 0 0 L0 O0 Ea); [|discriminate|constructor; [unfold later, e; cbn [te_range r_sl]; lia|constructor]].
          rewrite Nat.add_0_l, Be. reflexivity. }
      exists (a ++ [PEol [c_cr; c_lf]]), (skipn (length T) b), (ra ++ [[]]). split; [right; eauto|]. split; [|split; [|split; [apply Forall_skipn; exact B|right; reflexivity]]].
      + rewrite Ed, <- app_assoc. unfold T. cbn [app]. rewrite <- !app_assoc. cbn [app]. rewrite <- (blank_skip b _ B).
        pose proof (label_lexes name _ _ W (blank_lexes b _ (S (S (length (name ++ new ++ [c_cr; c_lf])))) Lb0 B)) as Q. rewrite <- app_assoc in Q.
        apply lexes_join_cr; [exact La0|exact (no_open _ _ _ L0 Ea)|]. exact Q.
      + exists 0, 0. destruct (layout_app a (no_open _ _ _ L0 Ea) 0 0 [PEol [c_cr; c_lf]]) as [c' [A _]]. rewrite A.
        apply Lines_app; [exact La|apply layout_ends; [exact (no_open _ _ _ L0 Ea)|exact Ea]|]. apply (Lines_eol [] _ [] []); [reflexivity|reflexivity|constructor].
    - (* the last line has tokens *)
      assert (N : length (r_lines r) = S (eols ps)) by (rewrite R, map_length, app_length; cbn; lia).
      assert (Ed : apply_edits (create_label r name) src = src ++ T).
      { unfold apply_edits, create_label. fold new. fold T. rewrite N. rewrite (edit_past_end _ src ps L O 0 0); [reflexivity|]. cbn [te_range r_sl]. lia. }
      exists (ps ++ [PEol [c_cr; c_lf]]), [], (ra ++ [fst (layout (eols ps) 0 b)]). split; [right; eauto|]. split; [|split; [|split; [constructor|left; reflexivity]]].
      + rewrite Ed, <- app_assoc. cbn [app]. unfold T. cbn [app]. pose proof (label_lexes name _ _ W Lx_end) as Q. rewrite <- app_assoc in Q.
        apply lexes_join_cr; [exact L|exact Op|]. exact Q.
      + exists 0, 0. destruct (layout_app ps Op 0 0 [PEol [c_cr; c_lf]]) as [c' [A _]]. rewrite A. apply Lines_close; [exact Li|reflexivity|].
        pose proof L as L0. rewrite E in L0. assert (Oa := no_open _ _ _ L0 Ea). destruct (layout_app a Oa 0 0 b) as [c2 [A2 [B2 C2]]].
        assert (c2 = 0) by (destruct a; [apply C2; reflexivity|apply B2; [exact Ea|discriminate]]). subst c2. unfold end_line in A2. cbn [Nat.add] in A2. fold (eols a) in A2. rewrite Na in A2.
        destruct (exists_last Fb) as [u [x Ux]]. exists (fst (layout 0 0 a) ++ u), x. split; [rewrite E at 1; rewrite A2, Ux, app_assoc; reflexivity|].
        pose proof (layout_no_eol b Nb (eols ps) 0) as Z. rewrite Ux, existsb_app in Z. apply orb_false_iff in Z. destruct Z as [_ Z]. cbn in Z. rewrite orb_false_r in Z. exact Z. }
  destruct X as [X [prest [rX [EX [LX [[l1 [c1 LiX]] [Bl RX]]]]]]].
  pose (tk := Token (name ++ new) 0 0 (0 + length (name ++ new)) TokValue).
  assert (Lt : Lines (fst (layout 0 0 (PWord (name ++ new) :: PEol [c_cr; c_lf] :: prest))) [[tk]]).
  { cbn [layout fst]. rewrite (blank_layout _ Bl). apply (Lines_eol [_] _ [] []); [reflexivity|reflexivity|constructor]. }
  destruct (join_lines en _ _ _ _ _ _ _ _ _ LX EX LiX Lt) as [raw' [_ [F [Q1 Q2]]]].
  assert (Kt : kind_of [tk] = LLabel name).
  { unfold kind_of, tk. cbn [tok_t tok_v]. unfold label_name. rewrite rev_app_distr. cbn. rewrite rev_involutive. reflexivity. }
  assert (S1 : all_surplus en 1 (r_lines r) = 0) by (destruct (result_surplus _ _ _ P) as [Q _]; rewrite S0 in Q; cbn in Q; lia).
  assert (RX' : exists pl, map code_of rX = r_lines r ++ pl /\ (pl = [] \/ pl = [[]])).
  { destruct RX as [-> | ->]; [exists []; rewrite R, app_nil_r; auto|exists [[]]; rewrite R, (map_app _ (ra ++ rb)); auto]. }
  destruct RX' as [pl [RX' Pl]]. cbn [map] in F. change (code_of [tk]) with [tk] in F. rewrite RX' in F.
  destruct Q2 as [r' P'].
  { rewrite <- (same_surplus _ _ _ F), !all_surplus_app, S1. cbn [all_surplus]. unfold surplus. rewrite Kt. destruct Pl as [-> | ->]; reflexivity. }
  destruct (result_names en _ _ P) as [N1 [N2 [N3 N4]]]. destruct (result_names en _ _ P') as [M1 [M2 [M3 M4]]].
  rewrite (Q1 r' P') in *. destruct (same_all_names _ _ F) as [G1 G2]. rewrite <- G1 in M1. rewrite <- G2 in M2.
  rewrite <- (proj1 (same_all_entries en _ _ F 1)) in M4.
  assert (Nw : name <> []) by (intros ->; discriminate W).
  rewrite !flat_map_app in M1, M2.
  assert (Z1 : flat_map names_labels pl = []) by (destruct Pl as [-> | ->]; reflexivity).
  assert (Z2 : flat_map ProcessSpec.defines pl = []) by (destruct Pl as [-> | ->]; reflexivity).
  assert (Z3 : names_labels [tk] = []) by (unfold names_labels; rewrite Kt; reflexivity).
  assert (Z4 : ProcessSpec.defines [tk] = [(tk, name)]) by (unfold ProcessSpec.defines; rewrite Kt; destruct name; [congruence|reflexivity]).
  cbn [flat_map] in M1, M2. rewrite Z1, Z3, !app_nil_r, <- N1 in M1. rewrite Z2, Z4, app_nil_r, map_app, <- N2 in M2. cbn [map snd app] in M2.
  exists r', (all_entries en (last_version 1 (r_lines r)) pl). split; [exact P'|].
  split; [destruct Pl as [-> | ->]; [left|right]; reflexivity|]. split; [|split; [exact M2|split; [exact M1|]]].
  - rewrite M4, !all_entries_app, <- N4, <- app_assoc. f_equal. f_equal. cbn [all_entries]. unfold entries. rewrite Kt, app_nil_r. destruct name; [congruence|reflexivity].
  - fold (texts (r_miss r')). fold (texts (r_miss r)). rewrite M3, N3, M2, M1. clear.
    generalize (map sy_name (r_syms r)). intros ns. induction (texts (r_refs r)) as [|v l IH]; [reflexivity|]. cbn [filter].
    assert (Q : mem v (ns ++ [name]) = mem v ns || seqb v name).
    { unfold mem. rewrite existsb_app. cbn. rewrite orb_false_r. reflexivity. }
    rewrite Q, negb_orb. destruct (mem v ns); cbn [negb andb]; [exact IH|]. cbn [filter]. destruct (seqb v name); cbn [negb]; rewrite IH; reflexivity.
Qed.
