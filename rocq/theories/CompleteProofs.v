(* Proofs about opcodes taken from the completions. *)
From Verif Require Import Base LexSpec Lexer LexerProofs LexerThms Expr Linter Fields Literals Codec CodecProofs OpTable Print Process ProcessSpec ProcessDoc ProcessThms
  RoundTripSpec RoundTripLex RoundTrip DocProofs EditProofs FixLines ErrorSpec ErrorProofs DiagSpec DiagProofs InsertProofs InsertDoc
  Snippets SnippetSpec SnippetProofs Semantics Query Lsp AnswerSpec AnswerProofs Signature SignatureSpec SignatureProofs CompleteSpec.
From Verif Require Flow LintSpec HintProofs.
From Coq Require Import Lia.

(* ---------------------------------------------------------------- one instruction more *)
Section One.
Variables (l1 : listing) (e : expr) (l2 : listing).
Let l := l1 ++ l2.
Let big := l1 ++ [e] ++ l2.
Let k := length l1.
Hypothesis Hl : sound_program l.
Hypothesis fits : fits_in l e.
Hypothesis reached : alive_at l k.
Hypothesis above : forall i, k <= i -> ~ LintSpec.pragma_at l i.

Lemma one_cases i x : nth_error big i = Some x ->
  (i < k /\ nth_error l i = Some x) \/ (i = k /\ x = e) \/ (exists y, i = y + 1 /\ k <= y /\ nth_error l y = Some x).
Proof.
  intros H. destruct (nth_cases l1 [e] l2 i x H) as [A|[[y [-> [A B]]]|A]]; [auto| |auto].
  right. left. cbn in A. assert (y = 0) as -> by lia. injection B as <-. split; [apply Nat.add_0_r|reflexivity].
Qed.
Lemma one_low x : x < k -> nth_error big x = nth_error l x.
Proof. exact (old_low l1 [e] l2 x). Qed.
Lemma one_high x : k <= x -> nth_error big (x + 1) = nth_error l x.
Proof. exact (old_high l1 [e] l2 x). Qed.
Lemma one_old x : nth_error big (if x <? k then x else x + 1) = nth_error l x.
Proof. destruct (Nat.ltb_spec x k); [apply one_low|apply one_high]; assumption. Qed.
Lemma one_used m : Flow.used l m -> Flow.used big m.
Proof. intros [i [x [E H]]]. rewrite <- one_old in E. eexists. exists x. eauto. Qed.
Lemma one_no_label m : e <> LabelExpr m.
Proof. intros ->. apply (fi_acts _ _ fits). constructor. Qed.
Lemma one_defines i m : Flow.defines big i m -> exists x, i = (if x <? k then x else x + 1) /\ Flow.defines l x m.
Proof.
  unfold Flow.defines. intros H. apply one_cases in H as [[A B]|[[_ A]|[y [-> [A B]]]]].
  - exists i. destruct (Nat.ltb_spec i k); [auto|lia].
  - destruct (one_no_label m). auto.
  - exists y. destruct (Nat.ltb_spec y k); [lia|auto].
Qed.

Lemma one_sound : sound_program big.
Proof.
  split.
  - intros i j m A B. apply one_defines in A as [x [-> A]], B as [y [-> B]]. rewrite (io_once _ Hl _ _ _ A B). reflexivity.
  - intros i m A. apply one_defines in A as [x [-> A]]. apply one_used. exact (io_used _ Hl _ _ A).
  - intros i m [x [A M]].
    assert (D : exists d, Flow.defines l d m).
    { apply one_cases in A as [[A B]|[[_ A]|[y [-> [A B]]]]]; [apply (io_defined _ Hl i); exists x; auto| |apply (io_defined _ Hl y); exists x; auto].
      subst x. exact (fi_names _ _ fits m M). }
    destruct D as [d D]. unfold Flow.defines in *. rewrite <- one_old in D. eauto.
  - intros i [x [A Nx]] [j [u [J [U [Un No]]]]].
    apply one_cases in U as [[U U']|[[_ ->]|[y [-> [U U']]]]].
    + destruct (Nat.lt_ge_cases i k) as [A0|A0].
      * rewrite one_low in A by exact A0. apply (io_alive _ Hl i); [exists x; auto|]. exists j, u. repeat (split; [assumption|]).
        intros z m Z D Q. apply (No z m Z); [|apply one_used; exact Q]. unfold Flow.defines in *. rewrite one_low by lia. exact D.
      * apply reached. exists j, u. repeat (split; [assumption|]). intros z m Z D Q. apply (No z m); [lia| |apply one_used; exact Q].
        unfold Flow.defines in *. rewrite one_low by lia. exact D.
    + exact (fi_goes_on _ _ fits Un).
    + apply one_cases in A as [[A A']|[[-> _]|[z [-> [A A']]]]]; [lia|lia|].
      apply (io_alive _ Hl z); [exists x; auto|]. exists y, u. split; [lia|]. repeat (split; [assumption|]).
      intros v m Z D Q. apply (No (v + 1) m); [lia| |apply one_used; exact Q]. unfold Flow.defines in *. rewrite one_high by lia. exact D.
  - intros i [m [d [B [Id [D Mid]]]]]. unfold Flow.defines in D.
    apply one_cases in B as [[B B']|[[_ B]|[x [-> [B B']]]]].
    + apply one_cases in D as [[D D']|[[_ D]|[y [-> [D D']]]]].
      * apply (io_needed _ Hl i). exists m, d. repeat (split; [assumption|]). intros z Z. destruct (Mid z Z) as [x [E H]]. exists x. rewrite one_low in E by lia. auto.
      * destruct (one_no_label m). auto.
      * destruct (Mid k) as [x [E [Si _]]]; [lia|]. apply (fi_acts _ _ fits).
        apply one_cases in E as [[E _]|[[_ ->]|[z [Z [E _]]]]]; [lia|exact Si|lia].
    + apply (fi_goes_on _ _ fits). rewrite <- B. constructor.
    + apply one_cases in D as [[D D']|[[_ D]|[y [-> [D D']]]]]; [lia|destruct (one_no_label m); auto|].
      apply (io_needed _ Hl x). exists m, y. split; [exact B'|]. split; [lia|]. split; [exact D'|].
      intros z Z. destruct (Mid (z + 1)) as [w [E H]]; [lia|]. exists w. rewrite one_high in E by lia. auto.
  - intros i [j [m [B [Ji [D [Near Reg]]]]]]. apply one_defines in D as [j0 [Ej D]].
    assert (Q : exists i0, i = (if i0 <? k then i0 else i0 + 1) /\ nth_error l i0 = Some (BExpr m)).
    { apply one_cases in B as [[B B']|[[_ B]|[x [-> [B B']]]]].
      - exists i. destruct (Nat.ltb_spec i k); [auto|lia].
      - exfalso. apply (fi_goes_on _ _ fits). rewrite <- B. constructor.
      - exists x. destruct (Nat.ltb_spec x k); [lia|auto]. }
    destruct Q as [i0 [Ei Bi]].
    set (f := fun x => if x <? k then x else x + 1).
    change (if j0 <? k then j0 else j0 + 1) with (f j0) in Ej. change (if i0 <? k then i0 else i0 + 1) with (f i0) in Ei.
    assert (Mono : forall x y, x < y <-> f x < f y) by (intros x y; unfold f; cbv beta; destruct (Nat.ltb_spec x k), (Nat.ltb_spec y k); lia).
    assert (MonoLe : forall x y, x <= y <-> f x <= f y) by (intros x y; pose proof (Mono y x); lia).
    assert (Old : forall x, nth_error big (f x) = nth_error l x) by exact one_old.
    apply (io_leaves _ Hl i0). exists j0, m. split; [exact Bi|]. split; [apply (proj2 (Mono _ _)); lia|]. split; [exact D|]. split.
    + intros z [Z1 Z2] Dz. apply (Near (f z)); [split; [rewrite Ej; apply (proj1 (Mono _ _)); exact Z1|rewrite Ei; apply (proj1 (Mono _ _)); exact Z2]|].
      unfold Flow.defines in *. rewrite Old. exact Dz.
    + intros z w [Z1 Z2] Ez. destruct (Reg (f z) w) as [R1 [R2 [R3 R4]]]; [split; [rewrite Ej; apply (proj1 (MonoLe _ _)); exact Z1|rewrite Ei; apply (proj1 (MonoLe _ _)); exact Z2]|rewrite Old; exact Ez|].
      repeat (split; [assumption|]). intros a d Na Da. destruct (R4 a (f d) Na) as [Q1 Q2]; [unfold Flow.defines in *; rewrite Old; exact Da|].
      rewrite Ej in Q1. rewrite Ei in Q2. apply (proj2 (MonoLe _ _)) in Q1; apply (proj2 (MonoLe _ _)) in Q2. auto.
  - intros i j [v P] J. apply one_cases in P as [[P P']|[[_ P]|[x [-> [P P']]]]].
    + destruct (io_pragma _ Hl i j) as [X Y]; [exists v; exact P'|exact J|]. split.
      * intros [x [E H]]. apply X. exists x. rewrite one_low in E by lia. auto.
      * intros [w E]. apply Y. exists w. rewrite one_low in E by lia. exact E.
    + exfalso. apply (fi_acts _ _ fits). rewrite <- P. constructor.
    + destruct (above x); [exact P|]. exists v. exact P'.
Qed.
End One.

(* ---------------------------------------------------------------- the line *)
Definition no_char (c : ascii) (s : str) : Prop := ~ In c s.
Lemma expand_plain t u s : no_char "$" u -> expand t Outside (u ++ s) = u ++ expand t Outside s.
Proof.
  unfold no_char. induction u as [|c u IH]; intros H; [reflexivity|]. cbn [app expand].
  destruct (Ascii.eqb_spec c "$") as [->|_]; [destruct H; left; reflexivity|]. rewrite IH; [reflexivity|]. intros X. apply H. right. exact X.
Qed.
Lemma expand_default t i name : no_char "}" name -> forall a s, expand t (Default i a) (name ++ "}"%char :: s) = put t i (a ++ name) ++ expand t Outside s.
Proof.
  unfold no_char. induction name as [|c u IH]; intros H a s; [rewrite app_nil_r; reflexivity|]. cbn [app expand].
  destruct (Ascii.eqb_spec c "}") as [->|_]; [destruct H; left; reflexivity|]. rewrite IH; [|intros X; apply H; right; exact X]. rewrite <- app_assoc. reflexivity.
Qed.
Lemma expand_hole t i name s : i < 10 -> no_char "}" name ->
  expand t Outside ((bs "${" ++ dec (N.of_nat i) ++ bs ":" ++ name ++ bs "}") ++ s) = put t i name ++ expand t Outside s.
Proof.
  intros H N. rewrite <- !app_assoc. change (bs "}" ++ s) with ("}"%char :: s).
  do 10 (destruct i as [|i]; [exact (expand_default t _ name N [] s)|]). lia.
Qed.
Lemma expand_join t args : forall ws i, length args = length ws -> i + length args <= 10 ->
  (forall j w, nth_error ws j = Some w -> t (i + j) = Some w) -> Forall (fun a => no_char "}" (bs (oa_name a))) args ->
  expand t Outside (join (placeholders i args)) = join ws.
Proof.
  induction args as [|a args IH]; intros [|w ws] i L B T F; try discriminate L; [reflexivity|]. cbn [length] in *.
  inversion F as [|? ? F1 F2]; subst.
  assert (P : put t i (bs (oa_name a)) = w) by (unfold put; pose proof (T 0 w eq_refl) as X; rewrite Nat.add_0_r in X; rewrite X; reflexivity).
  destruct args as [|b args].
  - destruct ws; [|discriminate]. cbn [placeholders join]. rewrite <- (app_nil_r (bs "${" ++ _)). rewrite expand_hole by (lia || assumption). rewrite P. apply app_nil_r.
  - destruct ws as [|w2 ws]; [discriminate|]. assert (J : join (placeholders (S i) (b :: args)) = join (placeholders (S i) (b :: args))) by reflexivity.
    change (join (placeholders i (a :: b :: args))) with ((bs "${" ++ dec (N.of_nat i) ++ bs ":" ++ bs (oa_name a) ++ bs "}") ++ " "%char :: join (placeholders (S i) (b :: args))).
    rewrite expand_hole by (lia || assumption). rewrite P. change (join (w :: w2 :: ws)) with (w ++ " "%char :: join (w2 :: ws)). f_equal.
    change (expand t Outside (" "%char :: join (placeholders (S i) (b :: args)))) with (" "%char :: expand t Outside (join (placeholders (S i) (b :: args)))). f_equal.
    apply IH; [lia|cbn [length] in *; lia| |exact F2]. intros j x X. replace (S i + j) with (i + S j) by lia. apply T. exact X.
Qed.

Definition has_char (c : ascii) (s : str) : bool := existsb (Ascii.eqb c) s.
Lemma has_char_no c s : has_char c s = false -> no_char c s.
Proof.
  intros H I. assert (X : has_char c s = true); [|congruence]. apply existsb_exists. exists c. split; [exact I|apply Ascii.eqb_refl].
Qed.
Lemma ops_places : forallb (fun x => negb (has_char "$" (bs (fst x))) && (length (dc_args (doc_of (snd x))) <? 9) &&
    forallb (fun a => negb (has_char "}" (bs (oa_name a)))) (dc_args (doc_of (snd x)))) ops_list = true.
Proof. vm_compute. reflexivity. Qed.
(* the name of an opcode is one word, no label, no pragma and no comment *)
Lemma ops_words : forallb (fun x => one_token (bs (fst x)) && match label_name (bs (fst x)) with None => true | _ => false end &&
    match bs (fst x) with c :: _ => negb (Ascii.eqb c "#") | [] => false end) ops_list = true.
Proof. vm_compute. reflexivity. Qed.
(* in a logic signature no opcode comes later than in an application *)
Lemma ops_sooner : forallb (fun x => (dc_sig (doc_of (snd x)) <=? N.max 1 (dc_app (doc_of (snd x))))%N) ops_list = true.
Proof. vm_compute. reflexivity. Qed.

Lemma chosen_line n q ws : ops_get n = Some q -> length ws = length (dc_args (doc_of q)) -> chosen n q ws = join (n :: ws).
Proof.
  intros G L. destruct (HintProofs.get_in _ _ G) as [s [I ->]]. pose proof (proj1 (forallb_forall _ _) ops_places _ I) as H. cbn [fst snd] in H.
  apply andb_true_iff in H as [H H3]. apply andb_true_iff in H as [H1 H2]. apply negb_true_iff, has_char_no in H1. apply Nat.ltb_lt in H2.
  unfold chosen, insert_text. destruct (dc_args (doc_of q)) as [|a args] eqn:A; [destruct ws; [reflexivity|discriminate]|].
  assert (X : inserted (in_places ws) (bs s ++ bs " " ++ join (placeholders 1 (a :: args))) = join (bs s :: ws)).
  { unfold inserted. rewrite expand_plain by exact H1. change (bs " " ++ join (placeholders 1 (a :: args))) with (" "%char :: join (placeholders 1 (a :: args))).
    destruct ws as [|w ws]; [discriminate|]. change (join (bs s :: w :: ws)) with (bs s ++ " "%char :: join (w :: ws)). f_equal.
    change (expand (in_places (w :: ws)) Outside (" "%char :: join (placeholders 1 (a :: args)))) with (" "%char :: expand (in_places (w :: ws)) Outside (join (placeholders 1 (a :: args)))).
    f_equal. apply expand_join; [symmetry; exact L|lia|intros j x E; exact E|].
    apply Forall_forall. intros b B. apply has_char_no, negb_true_iff. exact (proj1 (forallb_forall _ _) H3 b B). }
  destruct (bs s ++ bs " " ++ join (placeholders 1 (a :: args))) as [|c t] eqn:E; [destruct (bs s); discriminate|exact X].
Qed.
Lemma name_word n q : ops_get n = Some q -> one_token n = true /\ label_name n = None /\ exists c t, n = c :: t /\ c <> "#"%char.
Proof.
  intros G. destruct (HintProofs.get_in _ _ G) as [s [I ->]]. pose proof (proj1 (forallb_forall _ _) ops_words _ I) as H. cbn [fst] in H.
  apply andb_true_iff in H as [H H3]. apply andb_true_iff in H as [H1 H2]. split; [exact H1|]. split; [destruct (label_name (bs s)); [discriminate|reflexivity]|].
  destruct (bs s) as [|c t]; [discriminate|]. exists c, t. split; [reflexivity|]. intros ->. discriminate.
Qed.
Lemma sooner n q m : ops_get n = Some q -> (min_version m q <= N.max 1 (dc_app (doc_of q)))%N.
Proof.
  intros G. destruct (HintProofs.get_in _ _ G) as [s [I ->]]. pose proof (proj1 (forallb_forall _ _) ops_sooner _ I) as H. cbn [snd] in H. apply N.leb_le in H.
  unfold min_version. destruct m; lia.
Qed.
(* what is offered *)
Lemma offered r p ns n : completions r p = Ret (CompleteOps (bs "soc" :: bs "func" :: ns)) -> In n ns ->
  exists q, ops_get n = Some q /\ (dc_app (doc_of q) <= r_version r)%N.
Proof.
  unfold completions. intros H I.
  assert (X : forall s, In n (filter (fun n => match app_version n with Some v => (v <=? r_version r)%N && is_prefix s n | None => false end) item_names) ->
    exists q, ops_get n = Some q /\ (dc_app (doc_of q) <= r_version r)%N).
  { intros s Y. apply filter_In in Y as [_ Y]. unfold app_version in Y. destruct (ops_get n) as [q|]; [|discriminate].
    exists q. split; [reflexivity|]. apply andb_true_iff in Y as [Y _]. apply N.leb_le. exact Y. }
  revert H X. generalize item_names. intros its H X.
  destruct (if (ps_line p <? Z.of_nat (length (r_lines r)))%Z then line_of r (ps_line p) else Ret []) as [ln| |]; cbn [bindr] in H; try discriminate.
  destruct ln as [|t ln]; [injection H as <-; exact (X _ I)|].
  destruct (ps_char p <=? Z.of_nat (tok_e t))%Z; [injection H as <-; exact (X _ I)|].
  destruct (arg_vals_at r (ps_line p) (ps_char p)); cbn [bindr] in H; discriminate.
Qed.

(* ---------------------------------------------------------------- versions *)
Lemma steady_version en ls : forall m v, all_fine en m v ls -> (forall x, ~ In (PragmaExpr x) (all_entries en v ls)) -> last_version v ls = v.
Proof.
  induction ls as [|l ls IH]; intros m v F N; [reflexivity|]. cbn [all_fine last_version all_entries] in *. destruct F as [[S _] F].
  assert (V : version_after v l = v).
  { unfold version_after, statement, entries in *. destruct (kind_of l) as [|c|x|args|p args|]; try reflexivity. destruct S as [w S]. rewrite S in N.
    exfalso. apply (N (w mod 256)%N). left. reflexivity. }
  rewrite V in F, N |- *. apply (IH _ _ F). intros x X. apply (N x). apply in_or_app. right. exact X.
Qed.
Lemma same_last_version ls ls' : Forall2 same_texts ls ls' -> forall v, last_version v ls = last_version v ls'.
Proof.
  induction 1 as [|l l' ls ls' H _ IH]; intros v; [reflexivity|]. cbn [last_version]. unfold version_after at 2. rewrite <- (same_kind _ _ H). apply IH.
Qed.

Lemma line_text ws : word_text [(ws, false)] = join ws ++ [c_lf].
Proof. cbn. reflexivity. Qed.

Section Typed.
Variables (en : env) (pre : str) (a : list piece) (post : str) (r0 : presult).
Hypothesis L : Lexes pre a.
Hypothesis O : ends_line a.
Hypothesis E : last pre c_lf = c_lf.
Hypothesis P : process en (pre ++ post) = Ret r0.

Lemma typed_lines ws r1 : Forall (fun w => one_token w = true) ws -> process en (pre ++ join ws ++ [c_lf] ++ post) = Ret r1 ->
  exists ra l rb rb', r_lines r0 = ra ++ rb /\ length ra = eols a /\ word_line l ws /\ Forall2 same_texts rb rb' /\ r_lines r1 = ra ++ l :: rb'.
Proof.
  intros W P1. assert (Wf : Forall (fun x => Forall (fun w => one_token w = true) (fst x)) [(ws, false)]) by (constructor; [exact W|constructor]).
  destruct (insert_pieces en pre a post _ _ _ r0 L O E (word_text_lexes _ Wf) (text_pieces_ends _) (word_text_last _) (text_lines _ Wf) P) as [b [ra [rs [rb [rb' [ts [errs [raw [L0 [L1 [R0 [La [Ws [Sb [T [Li Co]]]]]]]]]]]]]]]].
  rewrite line_text, <- app_assoc in T.
  destruct (process_result en _ r1 P1) as [ts1 [errs1 [raw1 [lds1 [T1 [Li1 [_ Ro]]]]]]].
  assert (Rl : r_lines r1 = ra ++ rs ++ rb').
  { rewrite (ro_lines _ _ _ _ _ _ _ Ro), <- Co. f_equal. rewrite T in T1. injection T1 as <- <-. eapply RoundTripLex.Lines_fun; eassumption. }
  cbn [map fst] in Ws. inversion Ws as [|l ? rs0 ? W0 Ws0]; subst. inversion Ws0; subst. exists ra, l, rb, rb'. auto.
Qed.

Hypothesis D : r_diag r0 = [].
Hypothesis Above : forall i, eols a <= i -> ~ LintSpec.pragma_at (r_listing r0) i.

Lemma place_version : version_at (eols a) (r_lines r0) = r_version r0.
Proof.
  destruct (proj1 (nothing_reported en _ r0 P) D) as [_ [ST _]].
  destruct (process_result en _ r0 P) as [? [? [? [? [_ [_ [_ Ro]]]]]]]. rewrite (ro_version _ _ _ _ _ _ _ Ro).
  assert (F : all_fine en ModeApp 1 (r_lines r0)) by (apply all_fine_nth; exact ST).
  pose proof (firstn_skipn (eols a) (r_lines r0)) as Q. pose proof (ro_listing _ _ _ _ _ _ _ Ro) as G.
  unfold version_at. remember (firstn (eols a) (r_lines r0)) as ra eqn:Ra. remember (skipn (eols a) (r_lines r0)) as rb eqn:Rb. rewrite <- Q in F, G |- *.
  apply all_fine_app in F as [Fa Fb]. rewrite all_entries_app in G.
  assert (Z : forall u w v, last_version v (u ++ w) = last_version (last_version v u) w) by (induction u as [|? u IH]; intros w v; [reflexivity|apply IH]).
  rewrite Z. symmetry. eapply steady_version; [exact Fb|]. intros vp X. apply In_nth_error in X as [i X].
  destruct (Nat.le_gt_cases (eols a) (length (r_lines r0))) as [Le|Gt].
  - apply (Above (eols a + i)); [lia|]. exists vp. assert (Ln : length (all_entries en 1 ra) = eols a) by (rewrite (fine_length _ _ _ _ Fa), Ra; apply firstn_length_le; exact Le).
    rewrite G, nth_error_app2; rewrite Ln; [|lia]. replace (eols a + i - eols a) with i by lia. exact X.
  - rewrite Rb, skipn_all2 in X by lia. destruct i; discriminate.
Qed.

(* the word typed so far does not change the version *)
Lemma asked_version hs r1 n q : hs = [] \/ (exists s w, hs = [s] /\ one_token s = true /\ n = s ++ w) -> ops_get n = Some q ->
  process en (pre ++ join hs ++ [c_lf] ++ post) = Ret r1 -> r_version r1 = r_version r0.
Proof.
  intros H G P1. assert (W : Forall (fun w => one_token w = true) hs) by (destruct H as [->|[s [w [-> [S _]]]]]; [constructor|constructor; [exact S|constructor]]).
  destruct (typed_lines hs r1 W P1) as [ra [l [rb [rb' [R0 [La [Wl [Sb R1]]]]]]]].
  destruct (process_result en _ r0 P) as [? [? [? [? [_ [_ [_ Ro]]]]]]]. destruct (process_result en _ r1 P1) as [? [? [? [? [_ [_ [_ Ro1]]]]]]].
  rewrite (ro_version _ _ _ _ _ _ _ Ro), (ro_version _ _ _ _ _ _ _ Ro1), R0, R1.
  assert (Z : forall u w v, last_version v (u ++ w) = last_version (last_version v u) w) by (induction u as [|? u IH]; intros w v; [reflexivity|apply IH]).
  rewrite !Z. cbn [last_version].
  assert (V : forall v, version_after v l = v).
  { intros v. destruct H as [->|[s [w [-> [S N]]]]]; [rewrite (blank_line _ Wl); reflexivity|].
    destruct l as [|t l]; [destruct Wl; discriminate|]. unfold version_after. rewrite (word_kind _ _ _ _ Wl). destruct (label_name s); [reflexivity|].
    destruct (seqb s (bs "#pragma")) eqn:Q; [|destruct (ops_get s); reflexivity]. apply seqb_eq in Q. subst s.
    destruct (name_word _ _ G) as [_ [_ [c [t0 [X Y]]]]]. rewrite N in X. injection X as <- _. congruence. }
  rewrite V. symmetry. apply same_last_version. exact Sb.
Qed.

Variables (r1 : presult) (p : position) (hs ns : list str) (n : str) (q : prog) (ws : list str).
Hypothesis Typing : hs = [] \/ (exists s w, hs = [s] /\ one_token s = true /\ n = s ++ w).
Hypothesis P1 : process en (pre ++ join hs ++ [c_lf] ++ post) = Ret r1.
Hypothesis Offer : completions r1 p = Ret (CompleteOps (bs "soc" :: bs "func" :: ns)).
Hypothesis Pick : In n ns.
Hypothesis Op : ops_get n = Some q.
Hypothesis Words : Forall (fun w => one_token w = true) ws.
Hypothesis Count : length ws = length (dc_args (doc_of q)).

Lemma offered_version : min_version (mode_at (eols a) (r_lines r0)) q <> 0%N -> (1 <= version_at (eols a) (r_lines r0))%N ->
  (0 < min_version (mode_at (eols a) (r_lines r0)) q <= version_at (eols a) (r_lines r0))%N.
Proof.
  intros Z Z1. destruct (offered _ _ _ _ Offer Pick) as [q' [G V]]. rewrite Op in G. injection G as <-.
  rewrite (asked_version hs r1 n q Typing Op P1), <- place_version in V.
  pose proof (sooner n q (mode_at (eols a) (r_lines r0)) Op). lia.
Qed.

Theorem chosen_clean e : assemble en (version_at (eols a) (r_lines r0)) q ws = Some (e, []) ->
  min_version (mode_at (eols a) (r_lines r0)) q <> 0%N -> (1 <= version_at (eols a) (r_lines r0))%N ->
  fits_in (r_listing r0) e -> alive_at (r_listing r0) (eols a) ->
  exists r, process en (pre ++ chosen n q ws ++ [c_lf] ++ post) = Ret r /\ r_diag r = [] /\
    r_listing r = firstn (eols a) (r_listing r0) ++ [e] ++ skipn (eols a) (r_listing r0).
Proof.
  intros A Z Z1 Fi Al. rewrite (chosen_line n q ws Op Count). destruct (name_word n q Op) as [Nw [Nl [c [t [Nc Nh]]]]].
  pose proof (offered_version Z Z1) as V.
  assert (Wf : Forall (fun x => Forall (fun w => one_token w = true) (fst x)) [(n :: ws, false)]) by (constructor; [constructor; [exact Nw|exact Words]|constructor]).
  destruct (proj1 (nothing_reported en _ r0 P) D) as [NO [ST SO]].
  destruct (insert_doc_at en pre a post _ _ _ [e] r0 L O E (word_text_lexes _ Wf) (text_pieces_ends _) ltac:(cbn [text_pieces]; destruct (word_pieces (n :: ws)); discriminate) (word_text_last _) (text_lines _ Wf) P NO ST) as [r [Pr1 [G0 [Ln [G [NO1 ST1]]]]]].
  { intros rs F. cbn [map fst] in F. inversion F as [|l ? rs0 ? W0 F0]; subst. inversion F0; subst. cbn [all_add]. split; [|exact I].
    eapply adds_op; [exact Nl| |exact Op|exact A|exact V|exact W0].
    destruct (seqb (c :: t) (bs "#pragma")) eqn:S; [|reflexivity]. apply seqb_eq in S. injection S as -> _. congruence. }
  rewrite line_text, <- app_assoc in *. exists r. split; [exact Pr1|]. split; [|exact G].
  apply (proj2 (nothing_reported en _ r Pr1)). split; [exact NO1|]. split; [exact ST1|].
  rewrite G. unfold alive_at in Al. pose proof Above as Ab. remember (firstn (eols a) (r_listing r0)) as l1 eqn:R1. remember (skipn (eols a) (r_listing r0)) as l2 eqn:R2. clear R1 R2. rewrite G0 in *. rewrite <- Ln in Al, Ab. apply one_sound; assumption.
Qed.

(* an opcode the mode lacks is refused *)
Theorem chosen_refused r : min_version (mode_at (eols a) (r_lines r0)) q = 0%N ->
  process en (pre ++ chosen n q ws ++ [c_lf] ++ post) = Ret r ->
  exists from to, In (Diag (eols a) from to (KMode (mode_at (eols a) (r_lines r0)))) (r_diag r).
Proof.
  intros Z Pr. rewrite (chosen_line n q ws Op Count) in Pr. destruct (name_word n q Op) as [Nw [Nl [c [t [Nc Nh]]]]].
  assert (W : Forall (fun w => one_token w = true) (n :: ws)) by (constructor; assumption).
  destruct (typed_lines _ r W Pr) as [ra [l [rb [rb' [R0 [La [Wl [Sb R1]]]]]]]].
  destruct l as [|tk l]; [destruct Wl; discriminate|]. pose proof (word_kind _ _ _ _ Wl) as K. rewrite Nl, Op in K.
  assert (S : seqb n (bs "#pragma") = false) by (destruct (seqb n (bs "#pragma")) eqn:S; [|reflexivity]; apply seqb_eq in S; rewrite Nc in S; injection S as -> _; congruence).
  rewrite S in K.
  assert (M : mode_at (eols a) (r_lines r) = mode_at (eols a) (r_lines r0)).
  { unfold mode_at. rewrite R0, R1, <- La, !firstn_app, Nat.sub_diag, !firstn_O. reflexivity. }
  exists (tok_b tk), (tok_e tk). apply (proj2 (reports_exact en _ r _ Pr)). rewrite <- M. eapply RMode; [|exact K|rewrite M; exact Z].
  rewrite R1, nth_error_app2 by lia. replace (eols a - length ra) with 0 by lia. reflexivity.
Qed.
End Typed.

(* in an application nothing that would be accepted is withheld *)
Theorem accepted_offered en pre a post r0 hs r1 p s n q ws r : Lexes pre a -> ends_line a -> last pre c_lf = c_lf ->
  process en (pre ++ post) = Ret r0 -> r_diag r0 = [] -> (forall i, eols a <= i -> ~ LintSpec.pragma_at (r_listing r0) i) ->
  mode_at (eols a) (r_lines r0) = ModeApp ->
  hs = [] \/ (exists s w, hs = [s] /\ one_token s = true /\ n = s ++ w) ->
  process en (pre ++ join hs ++ [c_lf] ++ post) = Ret r1 -> (0 <= ps_line p)%Z -> typed r1 p s -> (exists w, n = s ++ w) ->
  ops_get n = Some q -> Forall (fun w => one_token w = true) ws -> length ws = length (dc_args (doc_of q)) ->
  process en (pre ++ chosen n q ws ++ [c_lf] ++ post) = Ret r -> r_diag r = [] ->
  exists ns, completions r1 p = Ret (CompleteOps (bs "soc" :: bs "func" :: ns)) /\ In n ns.
Proof.
  intros L O E P D Ab M H P1 Pp T Pf Op Words Count Pr Dr.
  destruct (completion_ops r1 p s Pp T) as [ns [C Q]]. exists ns. split; [exact C|]. apply Q. exists q. split; [exact Op|]. split; [|exact Pf].
  rewrite (asked_version en pre a post r0 L O E P hs r1 n q H Op P1), <- (place_version en pre a post r0 P D Ab).
  rewrite (chosen_line n q ws Op Count) in Pr. destruct (name_word n q Op) as [Nw [Nl [c [t [Nc Nh]]]]].
  assert (W : Forall (fun w => one_token w = true) (n :: ws)) by (constructor; assumption).
  destruct (typed_lines en pre a post r0 L O E P _ r W Pr) as [ra [l [rb [rb' [R0 [La [Wl [Sb R1]]]]]]]].
  destruct l as [|tk l]; [destruct Wl; discriminate|]. pose proof (word_kind _ _ _ _ Wl) as K. rewrite Nl, Op in K.
  assert (S : seqb n (bs "#pragma") = false) by (destruct (seqb n (bs "#pragma")) eqn:S; [|reflexivity]; apply seqb_eq in S; rewrite Nc in S; injection S as -> _; congruence).
  rewrite S in K. destruct (proj1 (nothing_reported en _ r Pr) Dr) as [_ [ST _]].
  assert (N1 : nth_error (r_lines r) (eols a) = Some (tk :: l)) by (rewrite R1, nth_error_app2 by lia; replace (eols a - length ra) with 0 by lia; reflexivity).
  assert (F : firstn (eols a) (r_lines r) = firstn (eols a) (r_lines r0)) by (rewrite R0, R1, <- La, !firstn_app, Nat.sub_diag, !firstn_O; reflexivity).
  destruct (ST _ _ N1) as [_ Av]. specialize (Av _ _ K). unfold mode_at, version_at in *. rewrite F in Av. rewrite M in Av. exact (proj2 Av).
Qed.
