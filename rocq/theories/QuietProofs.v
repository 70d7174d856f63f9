(* Proofs about lines that say nothing. *)
From Verif Require Import Base LexSpec Lexer LexerProofs LexerThms Expr Linter Fields Literals Codec OpTable Print Process ProcessSpec ProcessDoc ProcessThms
  RoundTripSpec RoundTripLex DocProofs EditProofs FixLines ErrorSpec ErrorProofs DiagSpec DiagProofs InsertDoc OnceSpec OnceProofs OnceDoc QuietSpec.
From Verif Require Flow LintSpec FixVersion RoundTripExact.
From Coq Require Import Lia Permutation.

Lemma down_lt k i j : i < j <-> down k i < down k j.
Proof. unfold down. destruct (Nat.ltb_spec i k), (Nat.ltb_spec j k); lia. Qed.
Lemma down_le k i j : i <= j <-> down k i <= down k j.
Proof. unfold down. destruct (Nat.ltb_spec i k), (Nat.ltb_spec j k); lia. Qed.
Lemma down_inj k i j : down k i = down k j -> i = j.
Proof. unfold down. destruct (Nat.ltb_spec i k), (Nat.ltb_spec j k); lia. Qed.
Lemma down_not k i : down k i <> k.
Proof. unfold down. destruct (Nat.ltb_spec i k); lia. Qed.
Lemma down_cases k j : j = k \/ exists i, j = down k i.
Proof.
  unfold down. destruct (Nat.lt_trichotomy j k) as [H|[H|H]]; [right; exists j|left; exact H|right; exists (j - 1)].
  - destruct (Nat.ltb_spec j k); lia.
  - destruct (Nat.ltb_spec (j - 1) k); lia.
Qed.
Lemma error_down_inj k e e' : error_down k e = error_down k e' -> e = e'.
Proof. destruct e, e'; cbn; intros H; try discriminate; injection H; intros; subst; f_equal; eapply down_inj; eassumption. Qed.
Lemma diag_down_inj k d d' : diag_down k d = diag_down k d' -> d = d'.
Proof.
  destruct d as [l b e x], d' as [l' b' e' x']. unfold diag_down. cbn. intros H. injection H as L -> -> X.
  apply down_inj in L. subst. f_equal. destruct x, x'; try discriminate; try congruence. injection X as X. f_equal. exact (error_down_inj _ _ _ X).
Qed.
Lemma le_down k e : le_line (error_down k e) = down k (le_line e).
Proof. destruct e; reflexivity. Qed.

(* ------------------------------------------------------------------------------------------ *)
(* the linter *)
Section Listing.
Variables l1 l2 : listing.
Let k := length l1.
Let l := l1 ++ l2.
Let big := l1 ++ EmptyExpr :: l2.

Lemma nth_down i : nth_error big (down k i) = nth_error l i.
Proof.
  unfold big, l, down, k. destruct (Nat.ltb_spec i (length l1)).
  - rewrite !nth_error_app1 by lia. reflexivity.
  - rewrite !nth_error_app2 by lia. replace (S i - length l1) with (S (i - length l1)) by lia. reflexivity.
Qed.
Lemma nth_here : nth_error big k = Some EmptyExpr.
Proof. unfold big, k. rewrite nth_error_app2 by lia. rewrite Nat.sub_diag. reflexivity. Qed.

Lemma defines_down i n : Flow.defines big (down k i) n <-> Flow.defines l i n.
Proof. unfold Flow.defines. rewrite nth_down. tauto. Qed.
Lemma defines_big j n : Flow.defines big j n -> exists i, j = down k i /\ Flow.defines l i n.
Proof.
  intros D. destruct (down_cases k j) as [->|[i ->]].
  - unfold Flow.defines in D. rewrite nth_here in D. discriminate.
  - exists i. split; [reflexivity|]. apply defines_down. exact D.
Qed.
Lemma names_down i n : Flow.names_at big (down k i) n <-> Flow.names_at l i n.
Proof. unfold Flow.names_at. rewrite nth_down. tauto. Qed.
Lemma names_big j n : Flow.names_at big j n -> exists i, j = down k i /\ Flow.names_at l i n.
Proof.
  intros D. destruct (down_cases k j) as [->|[i ->]].
  - destruct D as (e & E & N). rewrite nth_here in E. injection E as <-. inversion N.
  - exists i. split; [reflexivity|]. apply names_down. exact D.
Qed.
Lemma used_down n : Flow.used big n <-> Flow.used l n.
Proof.
  split; intros [i H].
  - destruct (names_big _ _ H) as (j & _ & N). exists j. exact N.
  - exists (down k i). apply names_down. exact H.
Qed.
Lemma instruction_down i : LintSpec.instruction_at big (down k i) <-> LintSpec.instruction_at l i.
Proof. unfold LintSpec.instruction_at. rewrite nth_down. tauto. Qed.
Lemma instruction_big j : LintSpec.instruction_at big j -> exists i, j = down k i /\ LintSpec.instruction_at l i.
Proof.
  intros D. destruct (down_cases k j) as [->|[i ->]].
  - destruct D as (e & E & N). rewrite nth_here in E. injection E as <-. destruct N. constructor.
  - exists i. split; [reflexivity|]. apply instruction_down. exact D.
Qed.
Lemma pragma_down i : LintSpec.pragma_at big (down k i) <-> LintSpec.pragma_at l i.
Proof. unfold LintSpec.pragma_at. rewrite nth_down. tauto. Qed.
Lemma pragma_big j : LintSpec.pragma_at big j -> exists i, j = down k i /\ LintSpec.pragma_at l i.
Proof.
  intros D. destruct (down_cases k j) as [->|[i ->]].
  - destruct D as (e & E). rewrite nth_here in E. discriminate.
  - exists i. split; [reflexivity|]. apply pragma_down. exact D.
Qed.
Lemma after_down i : LintSpec.after_unconditional big (down k i) <-> LintSpec.after_unconditional l i.
Proof.
  split.
  - intros (j & e & J & E & U & Q). destruct (down_cases k j) as [->|[j' ->]]; [rewrite nth_here in E; injection E as <-; inversion U|].
    exists j', e. rewrite nth_down in E. apply down_lt in J. split; [exact J|]. split; [exact E|]. split; [exact U|].
    intros m n [A B] D X. apply (Q (down k m) n); [split; [apply down_lt; exact A|apply down_le; exact B]|apply defines_down; exact D|apply used_down; exact X].
  - intros (j & e & J & E & U & Q). exists (down k j), e. rewrite nth_down. split; [apply (proj1 (down_lt k _ _)); exact J|]. split; [exact E|]. split; [exact U|].
    intros m n [A B] D X. destruct (defines_big _ _ D) as (m' & -> & D'). apply down_lt in A. apply down_le in B.
    apply (Q m' n); [split; assumption|exact D'|apply used_down; exact X].
Qed.
Lemma branch_down i : LintSpec.b_before_own_label big (down k i) <-> LintSpec.b_before_own_label l i.
Proof.
  split.
  - intros (n & j & E & J & D & Q). destruct (defines_big _ _ D) as (j' & -> & D'). rewrite nth_down in E. apply down_lt in J.
    exists n, j'. split; [exact E|]. split; [exact J|]. split; [exact D'|]. intros m [A B].
    destruct (Q (down k m)) as (e & Ee & S); [split; apply down_lt; assumption|]. rewrite nth_down in Ee. exists e. auto.
  - intros (n & j & E & J & D & Q). exists n, (down k j). rewrite nth_down. split; [exact E|]. split; [apply (proj1 (down_lt k _ _)); exact J|].
    split; [apply defines_down; exact D|]. intros m [A B]. destruct (down_cases k m) as [->|[m' ->]].
    + exists EmptyExpr. split; [exact nth_here|]. split; [constructor|discriminate].
    + apply down_lt in A. apply down_lt in B. rewrite nth_down. apply Q. split; assumption.
Qed.
Lemma branch_big j : LintSpec.b_before_own_label big j -> exists i, j = down k i /\ LintSpec.b_before_own_label l i.
Proof.
  intros D. destruct (down_cases k j) as [->|[i ->]].
  - destruct D as (n & j & E & _). rewrite nth_here in E. discriminate.
  - exists i. split; [reflexivity|]. apply branch_down. exact D.
Qed.
Lemma loop_down i : closed_loop big (down k i) <-> closed_loop l i.
Proof.
  split.
  - intros (j & n & E & J & D & Q & W). destruct (defines_big _ _ D) as (j' & -> & D'). rewrite nth_down in E. apply down_lt in J.
    exists j', n. split; [exact E|]. split; [exact J|]. split; [exact D'|]. split.
    + intros m [A B] X. apply (Q (down k m)); [split; apply down_lt; assumption|apply defines_down; exact X].
    + intros m e [A B] X. destruct (W (down k m) e) as (W1 & W2 & W3 & W4); [split; apply down_le; assumption|rewrite nth_down; exact X|].
      split; [exact W1|]. split; [exact W2|]. split; [exact W3|]. intros a d Na Da.
      destruct (W4 a (down k d) Na) as [Y Z]; [apply defines_down; exact Da|]. split; eapply down_le; eassumption.
  - intros (j & n & E & J & D & Q & W). exists (down k j), n. rewrite nth_down. split; [exact E|]. split; [apply (proj1 (down_lt k _ _)); exact J|].
    split; [apply defines_down; exact D|]. split.
    + intros m [A B] X. destruct (defines_big _ _ X) as (m' & -> & X'). apply down_lt in A. apply down_lt in B. exact (Q m' (conj A B) X').
    + intros m e [A B] X. destruct (down_cases k m) as [->|[m' ->]].
      * rewrite nth_here in X. injection X as <-. split; [discriminate|]. split; [discriminate|]. split; [discriminate|]. intros a d Na. inversion Na.
      * apply down_le in A. apply down_le in B. rewrite nth_down in X. destruct (W m' e (conj A B) X) as (W1 & W2 & W3 & W4).
        split; [exact W1|]. split; [exact W2|]. split; [exact W3|]. intros a d Na Da. destruct (defines_big _ _ Da) as (d' & -> & Dd).
        destruct (W4 a d' Na Dd) as [Y Z]. split; apply (proj1 (down_le k _ _)); assumption.
Qed.
Lemma loop_big j : closed_loop big j -> exists i, j = down k i /\ closed_loop l i.
Proof.
  intros D. destruct (down_cases k j) as [->|[i ->]].
  - destruct D as (j & n & E & _). rewrite nth_here in E. discriminate.
  - exists i. split; [reflexivity|]. apply loop_down. exact D.
Qed.

Lemma finding_down e : finding l e -> finding big (error_down k e).
Proof.
  intros F. destruct F as [i j n P Q N|i n P Q|i P Q|i P|i n P Q|i P|i j P L Q]; cbn [error_down].
  - apply (FDuplicate _ _ (down k j)); [apply defines_down; exact P|apply defines_down; exact Q|]. intros H. apply N. exact (down_inj _ _ _ H).
  - apply FUnused; [apply defines_down; exact P|]. rewrite used_down. exact Q.
  - apply FUnreachable; [apply instruction_down; exact P|apply after_down; exact Q].
  - apply FBranch. apply branch_down. exact P.
  - apply FMissing; [apply names_down; exact P|]. intros x D. destruct (defines_big _ _ D) as (y & _ & D'). exact (Q y D').
  - apply FLoop. apply loop_down. exact P.
  - apply (FPragma _ _ (down k j)); [apply pragma_down; exact P|apply (proj1 (down_lt k _ _)); exact L|]. rewrite instruction_down, pragma_down. exact Q.
Qed.
Lemma finding_big e' : finding big e' -> exists e, e' = error_down k e /\ finding l e.
Proof.
  intros F. destruct F as [i j n P Q N|i n P Q|i P Q|i P|i n P Q|i P|i j P L Q].
  - destruct (defines_big _ _ P) as (a & -> & A), (defines_big _ _ Q) as (b & -> & B). exists (DuplicateLabelError a n).
    split; [reflexivity|]. apply (FDuplicate _ _ b); try assumption. congruence.
  - destruct (defines_big _ _ P) as (a & -> & A). exists (UnusedLabelError a n). split; [reflexivity|]. apply FUnused; [exact A|]. rewrite <- used_down. exact Q.
  - destruct (instruction_big _ P) as (a & -> & A). exists (UnreachableCodeError a). split; [reflexivity|]. apply FUnreachable; [exact A|]. apply after_down. exact Q.
  - destruct (branch_big _ P) as (a & -> & A). exists (BJustBeforeLabelError a). split; [reflexivity|]. apply FBranch. exact A.
  - destruct (names_big _ _ P) as (a & -> & A). exists (MissingLabelError a n). split; [reflexivity|]. apply FMissing; [exact A|].
    intros x D. apply (Q (down k x)). apply defines_down. exact D.
  - destruct (loop_big _ P) as (a & -> & A). exists (InfiniteLoopError a). split; [reflexivity|]. apply FLoop. exact A.
  - destruct (pragma_big _ P) as (a & -> & A). exists (PragmaVersionAfterInstrError a). split; [reflexivity|].
    destruct Q as [Q|Q]; [destruct (instruction_big _ Q) as (b & -> & B)|destruct (pragma_big _ Q) as (b & -> & B)];
      apply down_lt in L; apply (FPragma _ _ b); auto.
Qed.
End Listing.

(* ------------------------------------------------------------------------------------------ *)
(* tokens one line further down *)
Definition sink (t : token) : token := Token (tok_v t) (S (tok_l t)) (tok_b t) (tok_e t) (tok_t t).

Lemma layout_sink ps : forall l c, fst (layout (S l) c ps) = map sink (fst (layout l c ps)).
Proof.
  induction ps as [|p ps IH]; intros l c; [reflexivity|]. destruct p; cbn [layout fst map]; rewrite ?IH; reflexivity.
Qed.
Lemma texts_sink l : texts (map sink l) = texts l.
Proof. unfold texts. rewrite map_map. reflexivity. Qed.
Lemma kind_sink l : kind_of (map sink l) = kind_of l.
Proof. destruct l as [|t l]; [reflexivity|]. cbn [map kind_of sink tok_t tok_v]. rewrite texts_sink. reflexivity. Qed.
Lemma code_sink l : code_of (map sink l) = map sink (code_of l).
Proof.
  destruct l as [|t l]; [reflexivity|]. cbn [map code_of]. f_equal. induction l as [|u l IH]; [reflexivity|]. cbn [map until_comment].
  replace (is_comment (sink u)) with (is_comment u) by reflexivity. destruct (is_comment u); [reflexivity|]. cbn [map]. rewrite IH. reflexivity.
Qed.
Lemma version_sink v l : version_after v (map sink l) = version_after v l.
Proof. unfold version_after. rewrite kind_sink. reflexivity. Qed.
Lemma mode_sink m l : mode_after m (map sink l) = mode_after m l.
Proof. unfold mode_after. rewrite kind_sink. reflexivity. Qed.
Lemma last_version_sink ls : forall v, last_version v (map (map sink) ls) = last_version v ls.
Proof. induction ls as [|l ls IH]; intros v; [reflexivity|]. cbn [map last_version]. rewrite version_sink. apply IH. Qed.
Lemma last_mode_sink ls : forall m, last_mode m (map (map sink) ls) = last_mode m ls.
Proof. induction ls as [|l ls IH]; intros v; [reflexivity|]. cbn [map last_mode]. rewrite mode_sink. apply IH. Qed.
Lemma entries_sink en ls : forall v, all_entries en v (map (map sink) ls) = all_entries en v ls.
Proof.
  induction ls as [|l ls IH]; intros v; [reflexivity|]. cbn [map all_entries]. rewrite version_sink, IH. f_equal.
  unfold entries. rewrite kind_sink. reflexivity.
Qed.
Lemma surplus_sink en ls : forall v, all_surplus en v (map (map sink) ls) = all_surplus en v ls.
Proof.
  induction ls as [|l ls IH]; intros v; [reflexivity|]. cbn [map all_surplus]. rewrite version_sink, IH. f_equal.
  unfold surplus. rewrite kind_sink. reflexivity.
Qed.
Lemma last_mode_app a : forall m b, last_mode m (a ++ b) = last_mode (last_mode m a) b.
Proof. induction a as [|l a IH]; intros m b; [reflexivity|]. cbn [app last_mode]. apply IH. Qed.

Lemma fault_sink en v l : line_fault en v (map sink l) = line_fault en v l.
Proof. unfold line_fault. rewrite kind_sink, map_length. destruct l; reflexivity. Qed.
Lemma mistake_sink en v l t rs : mistake en v l t rs -> mistake en v (map sink l) (sink t) rs.
Proof.
  intros M. apply mistake_marks in M as (f & F & E & N). apply (marks_mistake en v _ f); [rewrite fault_sink; exact F|].
  split; [exact E|]. rewrite map_length. apply map_nth_error. exact N.
Qed.
Lemma mistake_unsink en v l t rs : mistake en v (map sink l) t rs -> exists t0, t = sink t0 /\ mistake en v l t0 rs.
Proof.
  intros M. apply mistake_marks in M as (f & F & E & N). rewrite fault_sink in F. rewrite map_length, nth_error_map in N.
  destruct (nth_error l (length l - S (fst f))) as [t0|] eqn:N0; [|discriminate]. injection N as <-. exists t0. split; [reflexivity|].
  apply (marks_mistake en v _ f _ _ F). split; assumption.
Qed.

Lemma lines_sink ts raw : Lines ts raw -> Lines (map sink ts) (map (map sink) raw).
Proof.
  assert (X : forall l, existsb is_eol (map sink l) = existsb is_eol l) by (induction l as [|t l IH]; [reflexivity|cbn; rewrite IH; reflexivity]).
  induction 1 as [|l N E|l t r ls E T L IH]; cbn [map].
  - constructor.
  - constructor; [destruct l; [congruence|discriminate]|rewrite X; exact E].
  - rewrite map_app. cbn [map]. constructor; [rewrite X; exact E|exact T|exact IH].
Qed.

(* ------------------------------------------------------------------------------------------ *)
(* the quiet line *)
Definition quiet_code (q : list token) : Prop :=
  kind_of q = LBlank \/ exists w, kind_of q = LComment w /\ trim_space w <> bs "#pragma mode logicsig".

Lemma quiet_pieces w eol : quiet w -> eol = [c_lf] \/ eol = [c_cr; c_lf] ->
  exists x, Lexes (w ++ eol) (x ++ [PEol eol]) /\ eols x = 0 /\ (forall v, ~ In (POpen v) x) /\
    forall l, exists q, Lines (fst (layout l 0 (x ++ [PEol eol]))) [q] /\ quiet_code (code_of q).
Proof.
  intros Q E. assert (Le : Lexes eol [PEol eol]) by (destruct E as [->| ->]; repeat constructor).
  assert (B : forall bl r ps, Forall is_blank bl -> Lexes r ps -> Lexes (bl ++ r) (map PBlank bl ++ ps)).
  { induction 1 as [|c bl H F IH]; intros L; [exact L|]. cbn [app map]. constructor; [exact H|exact (IH L)]. }
  assert (C : forall bl : str, eols (map PBlank bl) = 0) by (induction bl; [reflexivity|assumption]).
  assert (O : forall (bl : str) v, ~ In (POpen v) (map PBlank bl)) by (intros bl v I; apply in_map_iff in I as (? & ? & _); discriminate).
  assert (Y : forall bl ps l c, exists c', fst (layout l c (map PBlank bl ++ ps)) = fst (layout l c' ps)).
  { induction bl as [|b bl IH]; intros ps l c; [exists c; reflexivity|]. cbn [map app layout]. apply IH. }
  destruct Q as [bl F|bl t F G M].
  - exists (map PBlank bl). split; [exact (B _ _ _ F Le)|]. split; [apply C|]. split; [apply O|]. intros l. exists [].
    destruct (Y bl [PEol eol] l 0) as [c' ->]. split; [|left; reflexivity]. cbn [layout fst].
    apply (Lines_eol [] _ [] []); [reflexivity|reflexivity|constructor].
  - exists (map PBlank bl ++ [PComment t]). split; [|split; [|split]].
    + rewrite <- !app_assoc. apply B; [exact F|]. cbn [app]. apply Lx_comment; [exact G| |exact Le].
      destruct E as [->| ->]; [left; reflexivity|right; reflexivity].
    + rewrite eols_app, C. reflexivity.
    + intros v I. apply in_app_or in I as [I|[I|[]]]; [exact (O _ _ I)|discriminate].
    + intros l. rewrite <- app_assoc. destruct (Y bl ([PComment t] ++ [PEol eol]) l 0) as [c' ->]. cbn [app layout fst].
      eexists. split; [|right; exists t; split; [|exact M]].
      * apply (Lines_eol [_] _ [] []); [reflexivity|reflexivity|constructor].
      * reflexivity.
Qed.

Section Doc.
Variables (en : env) (pre post : str) (a : list piece) (w eol : str).
Hypothesis La : Lexes pre a.
Hypothesis Ea : ends_line a.
Hypothesis Za : last pre c_lf = c_lf.
Hypothesis Qw : quiet w.
Hypothesis El : eol = [c_lf] \/ eol = [c_cr; c_lf].

Let src' := pre ++ (w ++ eol) ++ post.

Lemma quiet_lines : exists b x la lb q raw0 raw, Lexes (pre ++ post) (a ++ b) /\ Lexes src' (a ++ (x ++ [PEol eol]) ++ b) /\
  eols x = 0 /\ (forall v, ~ In (POpen v) x) /\
  Lines (fst (layout 0 0 (a ++ b))) raw0 /\ map code_of raw0 = la ++ lb /\ length la = eols a /\ Lines (fst (layout 0 0 (a ++ (x ++ [PEol eol]) ++ b))) raw /\
  map code_of raw = la ++ q :: map (map sink) lb /\ quiet_code q.
Proof.
  destruct (quiet_pieces w eol Qw El) as (x & Lx & Cx & Ox & Wx).
  destruct (lexes_exists post) as [b Lb]. pose proof (last_lf_not_cr _ _ La Ea Za) as NC.
  assert (Ex : ends_line (x ++ [PEol eol])) by (right; eauto).
  assert (L0 : Lexes (pre ++ post) (a ++ b)) by (apply lexes_join; [exact La|exact Ea|exact Lb|tauto]).
  assert (L1 : Lexes ((w ++ eol) ++ post) ((x ++ [PEol eol]) ++ b)).
  { apply lexes_join; [exact Lx|exact Ex|exact Lb|]. rewrite last_last. intros [H _]. destruct El as [->| ->]; discriminate. }
  assert (L2 : Lexes src' (a ++ (x ++ [PEol eol]) ++ b)) by (apply lexes_join; [exact La|exact Ea|exact L1|tauto]).
  assert (Oa : forall v, ~ In (POpen v) a) by (apply (no_open pre a []); [rewrite app_nil_r; exact La|exact Ea]).
  assert (Ow : forall v, ~ In (POpen v) (x ++ [PEol eol])) by (intros v I; apply in_app_or in I as [I|[I|[]]]; [exact (Ox _ I)|discriminate]).
  destruct (layout_app a Oa 0 0 b) as [c0 [A0 [B0 C0]]]. assert (c0 = 0) as -> by (destruct a as [|y a0]; [apply C0; reflexivity|apply B0; [exact Ea|discriminate]]).
  destruct (layout_app a Oa 0 0 ((x ++ [PEol eol]) ++ b)) as [c1 [A1 [B1 C1]]]. assert (c1 = 0) as -> by (destruct a as [|y a0]; [apply C1; reflexivity|apply B1; [exact Ea|discriminate]]).
  destruct (layout_app _ Ow (end_line 0 a) 0 b) as [c2 [A2 [B2 C2]]].
  assert (c2 = 0) as -> by (apply B2; [exact Ex|destruct x; discriminate]).
  assert (End : end_line (end_line 0 a) (x ++ [PEol eol]) = S (end_line 0 a)).
  { unfold end_line at 1. fold (eols (x ++ [PEol eol])). rewrite eols_app, Cx. cbn. lia. }
  rewrite End, layout_sink in A2.
  destruct (lines_exist (fst (layout 0 0 a))) as [ra Ra].
  destruct (lines_exist (fst (layout (end_line 0 a) 0 b))) as [rb Rb].
  destruct (Wx (end_line 0 a)) as [q [Lq Qq]].
  exists b, x, (map code_of ra), (map code_of rb), (code_of q), (ra ++ rb), (ra ++ [q] ++ map (map sink) rb).
  split; [exact L0|]. split; [exact L2|]. split; [exact Cx|]. split; [exact Ox|].
  split; [rewrite A0; exact (Lines_app _ _ Ra (layout_ends a 0 0 Oa Ea) _ _ Rb)|]. split; [apply map_app|].
  split; [rewrite map_length; exact (ends_line_count a 0 0 ra Oa Ea Ra)|]. split.
  - rewrite A1, A2. apply Lines_app; [exact Ra|exact (layout_ends a 0 0 Oa Ea)|]. apply Lines_app; [exact Lq|exact (layout_ends _ _ _ Ow Ex)|]. apply lines_sink. exact Rb.
  - split; [|exact Qq]. rewrite map_app. cbn [app map]. f_equal. f_equal. rewrite !map_map. apply map_ext. intros y. apply code_sink.
Qed.

Lemma quiet_version v q : quiet_code q -> version_after v q = v.
Proof. unfold version_after. intros [->|(t & -> & _)]; reflexivity. Qed.
Lemma quiet_mode m q : quiet_code q -> mode_after m q = m.
Proof.
  unfold mode_after. intros [->|(t & -> & N)]; [reflexivity|]. destruct (seqb (trim_space t) (bs "#pragma mode logicsig")) eqn:E; [|reflexivity].
  apply seqb_eq in E. congruence.
Qed.
Lemma quiet_entries e v q : quiet_code q -> entries e v q = [EmptyExpr].
Proof. unfold entries. intros [->|(t & -> & _)]; reflexivity. Qed.
Lemma quiet_surplus e v q : quiet_code q -> surplus e v q = false.
Proof. unfold surplus. intros [->|(t & -> & _)]; reflexivity. Qed.
Lemma quiet_mistake e v q t rs : quiet_code q -> ~ mistake e v q t rs.
Proof. intros Q M. apply mistake_marks in M as (f & F & _). unfold line_fault in F. destruct Q as [E|(x & E & _)]; rewrite E in F; discriminate. Qed.

(* line i of the old lines and what has become of it *)
Definition sunk (k i : nat) (l : list token) : list token := if i <? k then l else map sink l.
Lemma nth_sunk (la lb : list (list token)) q i : nth_error (la ++ q :: map (map sink) lb) (down (length la) i) =
  option_map (sunk (length la) i) (nth_error (la ++ lb) i).
Proof.
  unfold down, sunk. destruct (Nat.ltb_spec i (length la)).
  - rewrite !nth_error_app1 by lia. destruct (nth_error la i); reflexivity.
  - rewrite !nth_error_app2 by lia. replace (S i - length la) with (S (i - length la)) by lia. cbn [nth_error]. apply nth_error_map.
Qed.
Lemma nth_quiet (la lb : list (list token)) q : nth_error (la ++ q :: map (map sink) lb) (length la) = Some q.
Proof. rewrite nth_error_app2 by lia. rewrite Nat.sub_diag. reflexivity. Qed.
Lemma firstn_down {A} (la lb : list A) q i :
  firstn (down (length la) i) (la ++ q :: lb) = if i <? length la then firstn i la else la ++ q :: firstn (i - length la) lb.
Proof.
  unfold down. destruct (Nat.ltb_spec i (length la)).
  - rewrite firstn_app. replace (i - length la) with 0 by lia. rewrite app_nil_r. reflexivity.
  - rewrite firstn_app, firstn_all2 by lia. replace (S i - length la) with (S (i - length la)) by lia. reflexivity.
Qed.
Lemma firstn_old {A} (la lb : list A) i : firstn i (la ++ lb) = if i <? length la then firstn i la else la ++ firstn (i - length la) lb.
Proof.
  destruct (Nat.ltb_spec i (length la)); rewrite firstn_app.
  - replace (i - length la) with 0 by lia. apply app_nil_r.
  - rewrite firstn_all2 by lia. reflexivity.
Qed.
Lemma version_down la lb q i : quiet_code q -> version_at (down (length la) i) (la ++ q :: map (map sink) lb) = version_at i (la ++ lb).
Proof.
  intros Q. unfold version_at. rewrite firstn_down, firstn_old. destruct (i <? length la); [reflexivity|].
  rewrite !FixVersion.last_version_app. cbn [last_version]. rewrite (quiet_version _ _ Q), firstn_map, last_version_sink. reflexivity.
Qed.
Lemma mode_down la lb q i : quiet_code q -> mode_at (down (length la) i) (la ++ q :: map (map sink) lb) = mode_at i (la ++ lb).
Proof.
  intros Q. unfold mode_at. rewrite firstn_down, firstn_old. destruct (i <? length la); [reflexivity|].
  rewrite !last_mode_app. cbn [last_mode]. rewrite (quiet_mode _ _ Q), firstn_map, last_mode_sink. reflexivity.
Qed.
Lemma sunk_kind k i l : kind_of (sunk k i l) = kind_of l.
Proof. unfold sunk. destruct (i <? k); [reflexivity|apply kind_sink]. Qed.
Lemma sunk_first k i l : match sunk k i l with t :: _ => tok_b t | [] => 0 end = match l with t :: _ => tok_b t | [] => 0 end.
Proof. unfold sunk. destruct (i <? k); [reflexivity|]. destruct l; reflexivity. Qed.
Lemma sunk_last k i l : match rev (sunk k i l) with t :: _ => tok_e t | [] => 0 end = match rev l with t :: _ => tok_e t | [] => 0 end.
Proof. unfold sunk. destruct (i <? k); [reflexivity|]. rewrite <- map_rev. destruct (rev l); reflexivity. Qed.
Lemma sunk_cons k i t rest : exists t' rest', sunk k i (t :: rest) = t' :: rest' /\ tok_b t' = tok_b t /\ tok_e t' = tok_e t.
Proof. unfold sunk. destruct (i <? k); cbn [map]; eexists _, _; (split; [reflexivity|split; reflexivity]). Qed.
Lemma sunk_uncons k i l t' rest' : sunk k i l = t' :: rest' -> exists t rest, l = t :: rest /\ tok_b t' = tok_b t /\ tok_e t' = tok_e t.
Proof.
  unfold sunk. destruct l as [|t l]; destruct (i <? k); try discriminate; cbn [map]; intros H; injection H as <- <-; exists t, l; (split; [reflexivity|split; reflexivity]).
Qed.

(* a text that ends inside a string *)
Lemma column_reset a0 b0 : ends_line a0 -> column_behind (a0 ++ b0) = column_behind b0.
Proof.
  intros [->|(c & v & ->)]; [reflexivity|]. unfold column_behind. rewrite <- app_assoc, fold_left_app. reflexivity.
Qed.
Lemma open_down b x ps v : eols x = 0 -> (forall u, ~ In (POpen u) x) ->
  a ++ b = ps ++ [POpen v] ->
  exists qs, a ++ (x ++ [PEol eol]) ++ b = qs ++ [POpen v] /\ lines_behind qs = down (eols a) (lines_behind ps) /\
    column_behind (qs ++ [POpen v]) = column_behind (ps ++ [POpen v]).
Proof.
  intros Cx Ox E. assert (Oa : forall u, ~ In (POpen u) a) by (apply (no_open pre a []); [rewrite app_nil_r; exact La|exact Ea]).
  destruct b as [|y b _] using rev_ind.
  - rewrite app_nil_r in E. exfalso. apply (Oa v). rewrite E. apply in_or_app. right. left. reflexivity.
  - rewrite app_assoc in E. apply app_inj_tail in E as [<- ->]. exists (a ++ (x ++ [PEol eol]) ++ b). split; [rewrite !app_assoc; reflexivity|]. split.
    + change (lines_behind (a ++ (x ++ [PEol eol]) ++ b)) with (eols (a ++ (x ++ [PEol eol]) ++ b)). change (lines_behind (a ++ b)) with (eols (a ++ b)).
      rewrite !eols_app, Cx. change (eols [PEol eol]) with 1. unfold down. destruct (Nat.ltb_spec (eols a + eols b) (eols a)); lia.
    + rewrite <- !(app_assoc a), !(column_reset a) by exact Ea. rewrite <- app_assoc. apply column_reset. right. eauto.
Qed.

Lemma too_many_surplus src r : process en src = Ret r ->
  (all_surplus en 1 (r_lines r) = 0 <-> forall d, In d (r_diag r) -> dg_kind d <> KParse RTooMany).
Proof.
  intros P. rewrite <- (proj1 (result_surplus _ _ _ P)). clear P. split.
  - intros F d I K. assert (In d (filter is_surplus_diag (r_diag r))) as J by (apply filter_In; split; [exact I|unfold is_surplus_diag; rewrite K; reflexivity]).
    destruct (filter is_surplus_diag (r_diag r)); [destruct J|discriminate].
  - intros NS. induction (r_diag r) as [|d ds IH]; [reflexivity|]. cbn [filter].
    pose proof (NS d (or_introl eq_refl)) as N. unfold is_surplus_diag at 1.
    destruct (dg_kind d) as [|[]| | |]; try congruence; apply IH; intros d' I; apply NS; right; exact I.
Qed.

Theorem quiet_added r0 : process en (pre ++ post) = Ret r0 -> (forall d, In d (r_diag r0) -> dg_kind d <> KParse RTooMany) ->
  exists r', process en src' = Ret r' /\ Permutation (r_diag r') (map (diag_down (eols a)) (r_diag r0)) /\
  r_listing r' = firstn (eols a) (r_listing r0) ++ EmptyExpr :: skipn (eols a) (r_listing r0) /\ r_version r' = r_version r0 /\ r_mode r' = r_mode r0.
Proof.
  intros P0 NS. destruct quiet_lines as (b & x & la & lb & q & raw0 & raw & L0 & L2 & Cx & Ox & Ln0 & R0 & Hla & Ln & R & Q).
  destruct (process_raw _ _ _ _ L0 P0) as (raw0' & Ln0' & R0'). rewrite (Lines_fun _ _ Ln0' _ Ln0), R0 in R0'. clear R0 Ln0'. rename R0' into R0.
  assert (S0 : all_surplus en 1 (la ++ lb) = 0) by (rewrite <- R0; apply (too_many_surplus _ _ P0); exact NS).
  assert (S1 : all_surplus en 1 (la ++ q :: map (map sink) lb) = 0).
  { rewrite all_surplus_app in S0 |- *. cbn [all_surplus]. rewrite (quiet_surplus _ _ _ Q), (quiet_version _ _ Q), surplus_sink. exact S0. }
  assert (T : tokenize src' = Ret (fst (layout 0 0 (a ++ (x ++ [PEol eol]) ++ b)), snd (layout 0 0 (a ++ (x ++ [PEol eol]) ++ b)))).
  { rewrite (tokenize_spec _ _ L2). f_equal; apply surjective_pairing. }
  destruct (process_returns en src' _ _ raw T Ln) as [r' P']; [rewrite R; exact S1|].
  assert (R' : r_lines r' = la ++ q :: map (map sink) lb).
  { destruct (process_raw _ _ _ _ L2 P') as (raw' & Ln' & ->). rewrite (Lines_fun _ _ Ln' _ Ln). exact R. }
  destruct (process_result _ _ _ P0) as (ts0 & errs0 & w0 & lds0 & _ & _ & _ & Z0).
  destruct (process_result _ _ _ P') as (ts1 & errs1 & w1 & lds1 & _ & _ & _ & Z1).
  set (l1 := all_entries en 1 la). set (l2 := all_entries en (last_version 1 la) lb).
  assert (G0 : r_listing r0 = l1 ++ l2) by (rewrite (ro_listing _ _ _ _ _ _ _ Z0), R0; apply all_entries_app).
  assert (G1 : r_listing r' = l1 ++ EmptyExpr :: l2).
  { rewrite (ro_listing _ _ _ _ _ _ _ Z1), R', all_entries_app. cbn [all_entries].
    rewrite (quiet_entries _ _ _ Q), (quiet_version _ _ Q), entries_sink. reflexivity. }
  assert (Hl1 : length l1 = length la).
  { unfold l1. rewrite all_entries_length. rewrite all_surplus_app in S0. lia. }
  rewrite <- Hla. exists r'. split; [exact P'|]. split; [|split; [|split]].
  2: { rewrite G0, G1, <- Hl1, firstn_app, skipn_app, firstn_all, skipn_all, Nat.sub_diag. cbn [firstn skipn]. rewrite app_nil_r. reflexivity. }
  2: { rewrite (ro_version _ _ _ _ _ _ _ Z0), (ro_version _ _ _ _ _ _ _ Z1), R0, R', !FixVersion.last_version_app. cbn [last_version].
       rewrite (quiet_version _ _ Q), last_version_sink. reflexivity. }
  2: { rewrite (ro_mode _ _ _ _ _ _ _ Z0), (ro_mode _ _ _ _ _ _ _ Z1), R0, R', !last_mode_app. cbn [last_mode].
       rewrite (quiet_mode _ _ Q), last_mode_sink. reflexivity. }
  assert (X : forall d', In d' (r_diag r') <-> exists d, d' = diag_down (length la) d /\ In d (r_diag r0)).
  { intros d'. rewrite (reports_exact en src' r' d' P'). split.
    - intros Rd. destruct Rd as [ps v c L|i l t rs N M|i t rest p args N K W|i t rest p args m N K W V|e l F N].
      + pose proof (RoundTripExact.Lexes_fun _ _ L _ L2) as E.
        assert (exists b0, b = b0 ++ [POpen v]) as [b0 Eb].
        { destruct b as [|y b0 _] using rev_ind.
          - exfalso. rewrite app_nil_r, app_assoc in E. apply app_inj_tail in E as [_ E]. discriminate.
          - rewrite !app_assoc in E. apply app_inj_tail in E as [_ <-]. eauto. }
        assert (Eo : a ++ b = (a ++ b0) ++ [POpen v]) by (rewrite Eb, app_assoc; reflexivity).
        destruct (open_down b x (a ++ b0) v Cx Ox Eo) as (qs & E1 & E2 & E3).
        assert (ps = qs) as -> by (rewrite <- E in E1; apply app_inj_tail in E1; tauto).
        exists (Diag (lines_behind (a ++ b0)) (column_behind ((a ++ b0) ++ [POpen v])) (column_behind ((a ++ b0) ++ [POpen v])) (KLex IncompleteString)).
        unfold c. split.
        * unfold diag_down. cbn [dg_line dg_b dg_e dg_kind]. rewrite E2, E3. rewrite Hla. reflexivity.
        * apply (reports_exact en _ r0 _ P0). apply (ROpen en (pre ++ post) r0 (a ++ b0) v). rewrite <- Eo. exact L0.
      + rewrite R' in N, M. destruct (down_cases (length la) i) as [->|[j ->]].
        { rewrite (nth_quiet la lb q) in N. injection N as <-. destruct (quiet_mistake _ _ _ _ _ Q M). }
        rewrite (nth_sunk la lb q j) in N. destruct (nth_error (la ++ lb) j) as [l0|] eqn:N0; [|discriminate]. injection N as <-.
        rewrite (version_down la lb q j Q) in M.
        assert (exists t0, tok_b t = tok_b t0 /\ tok_e t = tok_e t0 /\ mistake en (version_at j (la ++ lb)) l0 t0 rs) as (t0 & Eb & Ee & M0).
        { unfold sunk in M. destruct (j <? length la); [exists t; auto|]. apply mistake_unsink in M as (t0 & -> & M). exists t0. auto. }
        exists (Diag j (tok_b t0) (tok_e t0) (KParse rs)). split; [unfold diag_down; cbn; rewrite Eb, Ee; reflexivity|].
        apply (reports_exact en _ r0 _ P0). apply (RMistake en _ r0 j l0); rewrite R0; assumption.
      + rewrite R' in N, W |- *. destruct (down_cases (length la) i) as [->|[j ->]].
        { rewrite (nth_quiet la lb q) in N. injection N as ->. destruct Q as [E|(y & E & _)]; congruence. }
        rewrite (nth_sunk la lb q j) in N. destruct (nth_error (la ++ lb) j) as [l0|] eqn:N0; [|discriminate]. injection N as N.
        rewrite (mode_down la lb q j Q) in W |- *. rewrite <- N, sunk_kind in K. destruct (sunk_uncons _ _ _ _ _ N) as (t0 & rest0 & -> & Eb & Ee).
        exists (Diag j (tok_b t0) (tok_e t0) (KMode (mode_at j (la ++ lb)))). split; [unfold diag_down; cbn; rewrite Eb, Ee; reflexivity|].
        apply (reports_exact en _ r0 _ P0). rewrite <- R0 in N0, W |- *. exact (RMode en _ r0 j t0 rest0 p args N0 K W).
      + rewrite R' in N, W, V |- *. destruct (down_cases (length la) i) as [->|[j ->]].
        { rewrite (nth_quiet la lb q) in N. injection N as ->. destruct Q as [E|(y & E & _)]; congruence. }
        rewrite (nth_sunk la lb q j) in N. destruct (nth_error (la ++ lb) j) as [l0|] eqn:N0; [|discriminate]. injection N as N.
        rewrite (mode_down la lb q j Q) in W. rewrite (version_down la lb q j Q) in V |- *.
        rewrite <- N, sunk_kind in K. destruct (sunk_uncons _ _ _ _ _ N) as (t0 & rest0 & -> & Eb & Ee).
        exists (Diag j (tok_b t0) (tok_e t0) (KVersion m (version_at j (la ++ lb)))). split; [unfold diag_down; cbn; rewrite Eb, Ee; reflexivity|].
        apply (reports_exact en _ r0 _ P0). rewrite <- R0 in N0, W, V |- *. exact (RVersion en _ r0 j t0 rest0 p args m N0 K W V).
      + rewrite G1 in F. apply finding_big in F as (e0 & -> & F). rewrite Hl1 in N |- *. rewrite le_down in N |- *. 
        rewrite R', (nth_sunk la lb q) in N. destruct (nth_error (la ++ lb) (le_line e0)) as [l0|] eqn:N0; [|discriminate]. injection N as <-.
        exists (Diag (le_line e0) (match l0 with t :: _ => tok_b t | [] => 0 end) (match rev l0 with t :: _ => tok_e t | [] => 0 end) (KLint e0)).
        split; [unfold diag_down; cbn [dg_line dg_b dg_e dg_kind]; rewrite sunk_first, sunk_last; reflexivity|].
        apply (reports_exact en _ r0 _ P0). apply RFinding; [rewrite G0; exact F|rewrite R0; exact N0].
    - intros (d & -> & I). apply (reports_exact en _ r0 _ P0) in I. destruct I as [ps v c L|i l t rs N M|i t rest p args N K W|i t rest p args m N K W V|e l F N].
      + pose proof (RoundTripExact.Lexes_fun _ _ L _ L0) as E. symmetry in E. destruct (open_down b x ps v Cx Ox E) as (qs & E1 & E2 & E3).
        unfold diag_down. cbn [dg_line dg_b dg_e dg_kind]. unfold c. rewrite Hla, <- E2, <- E3. apply (ROpen en src' r' qs v). rewrite <- E1. exact L2.
      + rewrite R0 in N, M. unfold diag_down. cbn [dg_line dg_b dg_e dg_kind].
        assert (exists t0, tok_b t0 = tok_b t /\ tok_e t0 = tok_e t /\ mistake en (version_at i (la ++ lb)) (sunk (length la) i l) t0 rs) as (t0 & <- & <- & M0).
        { unfold sunk. destruct (i <? (length la)); [exists t; auto|]. exists (sink t). split; [reflexivity|]. split; [reflexivity|]. apply mistake_sink. exact M. }
        apply (RMistake en src' r' (down (length la) i) (sunk (length la) i l)); rewrite R'.
        * rewrite nth_sunk, N. reflexivity.
        * rewrite (version_down la lb q i Q). exact M0.
      + rewrite R0 in N, W |- *. unfold diag_down. cbn [dg_line dg_b dg_e dg_kind]. destruct (sunk_cons (length la) i t rest) as (t' & rest' & Es & <- & <-).
        rewrite <- (mode_down la lb q i Q) in W |- *. rewrite <- R' in W |- *. rewrite <- (sunk_kind (length la) i), Es in K.
        apply (RMode en src' r' (down (length la) i) t' rest' p args); [|exact K|exact W]. rewrite R'. rewrite nth_sunk, N. cbn [option_map]. rewrite Es. reflexivity.
      + rewrite R0 in N, W, V |- *. unfold diag_down. cbn [dg_line dg_b dg_e dg_kind]. destruct (sunk_cons (length la) i t rest) as (t' & rest' & Es & <- & <-).
        rewrite <- (mode_down la lb q i Q) in W. rewrite <- (version_down la lb q i Q) in V |- *. rewrite <- R' in W, V |- *. rewrite <- (sunk_kind (length la) i), Es in K.
        apply (RVersion en src' r' (down (length la) i) t' rest' p args); [|exact K|exact W|exact V]. rewrite R'. rewrite nth_sunk, N. cbn [option_map]. rewrite Es. reflexivity.
      + rewrite R0 in N. unfold diag_down. cbn [dg_line dg_b dg_e dg_kind]. rewrite <- (sunk_first (length la) (le_line e)), <- (sunk_last (length la) (le_line e) l), <- le_down.
        apply RFinding.
        * rewrite G1. rewrite <- Hl1. apply finding_down. rewrite <- G0. exact F.
        * rewrite R', le_down. rewrite nth_sunk, N. reflexivity. }
  assert (Inj : forall d e, diag_down (length la) d = diag_down (length la) e -> d = e) by (intros d e; apply diag_down_inj).
  apply (Permutation_count_occ report_dec). intros d'.
  destruct (in_dec report_dec d' (r_diag r')) as [I|I].
  - pose proof I as J. apply X in J as (d & -> & J). rewrite <- (count_occ_map (diag_down (length la)) report_dec report_dec Inj).
    rewrite (reports_count _ _ _ _ P' I), (reports_count _ _ _ _ P0 J). unfold due_report, diag_down. cbn [dg_kind].
    destruct (dg_kind d) as [| | | |[]]; try reflexivity. cbn [error_down due].
    rewrite G0, G1. rewrite <- Hl1. rewrite nth_down. reflexivity.
  - rewrite (proj1 (count_occ_not_In report_dec _ _) I). symmetry. apply count_occ_not_In. intros J. apply I. apply X.
    apply in_map_iff in J as (d & <- & J). exists d. auto.
Qed.

Theorem quiet_removed r' : process en src' = Ret r' -> (forall d, In d (r_diag r') -> dg_kind d <> KParse RTooMany) ->
  exists r0, process en (pre ++ post) = Ret r0 /\ (forall d, In d (r_diag r0) -> dg_kind d <> KParse RTooMany).
Proof.
  intros P' NS. destruct quiet_lines as (b & x & la & lb & q & raw0 & raw & L0 & L2 & Cx & Ox & Ln0 & R0 & Hla & Ln & R & Q).
  destruct (process_raw _ _ _ _ L2 P') as (raw' & Ln' & R'). rewrite (Lines_fun _ _ Ln' _ Ln), R in R'.
  apply (too_many_surplus _ _ P') in NS. rewrite R' in NS.
  assert (S0 : all_surplus en 1 (la ++ lb) = 0).
  { rewrite all_surplus_app in NS |- *. cbn [all_surplus] in NS. rewrite (quiet_surplus _ _ _ Q), (quiet_version _ _ Q), surplus_sink in NS. exact NS. }
  destruct (process_returns en (pre ++ post) (fst (layout 0 0 (a ++ b))) (snd (layout 0 0 (a ++ b))) raw0) as [r0 P0].
  - rewrite (tokenize_spec _ _ L0). f_equal; apply surjective_pairing.
  - exact Ln0.
  - rewrite R0. exact S0.
  - exists r0. split; [exact P0|]. apply (too_many_surplus _ _ P0). destruct (process_raw _ _ _ _ L0 P0) as (raw0' & Ln0' & ->).
    rewrite (Lines_fun _ _ Ln0' _ Ln0), R0. exact S0.
Qed.
End Doc.
