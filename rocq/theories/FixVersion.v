(* The command that changes the version, and formatting. *)
From Verif Require Import Base LexSpec Lexer LexerProofs LexerThms DocLines DocProofs Expr Strconv Codec CodecProofs OpTable Process ProcessSpec ProcessDoc ProcessThms Semantics Query Lsp Edit RoundTripSpec RoundTripLex RoundTrip QueryProofs EditProofs RenameProofs HintSpec HintProofs FixLines FixProofs.
From Coq Require Import Lia ZifyBool ZifyNat ZifyN.

(* ------------------------------------------------------------------------------------------ *)
(* the versions the opcodes ask for *)
Definition demand (m : mode) (l : list token) : list N :=
  match kind_of l with LOp p _ => [min_version m p] | _ => [] end.
Fixpoint demands (m : mode) (ls : list (list token)) : list N :=
  match ls with [] => [] | l :: r => demand m l ++ demands (mode_after m l) r end.
Definition is_op (l : list token) : bool := match kind_of l with LOp _ _ => true | _ => false end.
(* the lines that state the version come before the opcodes *)
Definition versions_first (ls : list (list token)) : Prop :=
  exists a b, ls = a ++ b /\ (forall l, In l a -> is_op l = false) /\ (forall l, In l b -> version_token l = None).

Lemma no_version l v : version_token l = None -> version_after v l = v.
Proof.
  intros H. revert H. unfold version_token, version_after. destruct l as [|t r]; [reflexivity|]. destruct (kind_of (t :: r)) as [| | |args| |] eqn:K; try reflexivity.
  assert (A : args = texts r).
  { unfold kind_of in K. destruct (tok_t t); try discriminate K; (destruct (label_name _); [discriminate K|]; destruct (seqb _ _); [congruence|destruct (ops_get _); discriminate K]). }
  subst args. destruct r as [|a [|b r]]; try reflexivity. cbn [texts map pragma_version]. destruct (seqb (tok_v a) (bs "version")); [|reflexivity].
  rewrite K. destruct (parse_uint (tok_v b) 0 64); intros H; [discriminate H|reflexivity].
Qed.
Lemma no_versions ls v : (forall l, In l ls -> version_token l = None) -> last_version v ls = v.
Proof.
  revert v. induction ls as [|l ls IH]; intros v H; [reflexivity|]. cbn [last_version]. rewrite (no_version l v (H l (or_introl eq_refl))). apply IH. intros x X. apply H. right. exact X.
Qed.
Lemma needs_of_demands ls v : (forall l, In l ls -> version_token l = None) -> forall m, map rq_version (all_needs m v ls) = filter (fun d => (v <? d)%N) (demands m ls).
Proof.
  induction ls as [|l ls IH]; intros H m; [reflexivity|]. cbn [all_needs demands]. rewrite filter_app, map_app, (no_version l v (H l (or_introl eq_refl))), IH by (intros x X; apply H; right; exact X).
  f_equal. unfold needs, demand. destruct l as [|t r]; [reflexivity|]. destruct (kind_of (t :: r)); try reflexivity. cbn [filter]. destruct (v <? min_version m p)%N; reflexivity.
Qed.
Lemma no_ops ls : (forall l, In l ls -> is_op l = false) -> forall m v, all_needs m v ls = [] /\ demands m ls = [].
Proof.
  induction ls as [|l ls IH]; intros H m v; [auto|]. cbn [all_needs demands]. destruct (IH ltac:(intros x X; apply H; right; exact X) (mode_after m l) (version_after v l)) as [-> ->].
  specialize (H l (or_introl eq_refl)). unfold is_op in H. unfold needs, demand. destruct l; destruct (kind_of _); try discriminate H; auto.
Qed.
Lemma demands_app a : forall m b, demands m (a ++ b) = demands m a ++ demands (last_mode m a) b.
Proof. induction a as [|l a IH]; intros m b; [reflexivity|]. cbn [app demands last_mode]. rewrite IH, app_assoc. reflexivity. Qed.
Lemma needs_app a : forall m v b, all_needs m v (a ++ b) = all_needs m v a ++ all_needs (last_mode m a) (last_version v a) b.
Proof. induction a as [|l a IH]; intros m v b; [reflexivity|]. cbn [app all_needs last_mode last_version]. rewrite IH, app_assoc. reflexivity. Qed.
Lemma last_version_app a : forall v b, last_version v (a ++ b) = last_version (last_version v a) b.
Proof. induction a as [|l a IH]; intros v b; [reflexivity|]. cbn [app last_version]. apply IH. Qed.

Lemma version_set A l B v : (forall x, In x A -> is_op x = false) -> is_op l = false -> (forall u, version_after u l = v) -> (forall x, In x B -> version_token x = None) ->
  last_version 1 (A ++ l :: B) = v /\ map rq_version (all_needs ModeApp 1 (A ++ l :: B)) = filter (fun d => (v <? d)%N) (demands ModeApp (A ++ l :: B)).
Proof.
  intros HA Hl Hv HB. split.
  - rewrite last_version_app. cbn [last_version]. rewrite Hv. apply no_versions. exact HB.
  - rewrite needs_app, demands_app. destruct (no_ops A HA ModeApp 1%N) as [-> ->]. cbn [app all_needs demands]. rewrite Hv.
    destruct (no_ops [l] (fun x X => match X with or_introl E => eq_ind l (fun y => is_op y = false) Hl x E | or_intror F => match F with end end) (last_mode ModeApp A) (last_version 1 A)) as [N1 N2].
    cbn [all_needs demands] in N1, N2. rewrite app_nil_r in N1, N2. rewrite N1, N2. cbn [app]. apply needs_of_demands. exact HB.
Qed.

(* lines with the same kinds *)
Definition same_line (l l' : list token) : Prop := kind_of l = kind_of l' /\ (version_token l = None -> version_token l' = None).
Lemma same_texts_line l l' : same_texts l l' -> same_line l l'.
Proof.
  intros S. pose proof (same_kind _ _ S) as K. split; [exact K|]. unfold version_token. destruct l as [|t r], l' as [|t' r']; try discriminate S; [auto|].
  destruct (same_cons _ _ _ _ S) as [V W]. destruct r as [|a r], r' as [|a' r']; try discriminate W; [auto|]. destruct r as [|b r], r' as [|b' r']; try discriminate W; [auto|].
  cbn [texts map] in W. injection W as Wa Wb _. rewrite K, Wa, Wb. clear S K. destruct (kind_of (t' :: a' :: b' :: r')); try (intros; reflexivity). destruct (seqb _ _); [|reflexivity]. destruct (parse_uint _ _ _); intros H; [discriminate H|reflexivity].
Qed.
Lemma same_demands ls ls' : Forall2 (fun l l' => kind_of l = kind_of l' \/ exists a b, kind_of l = LPragma a /\ kind_of l' = LPragma b) ls ls' -> forall m, demands m ls = demands m ls'.
Proof.
  induction 1 as [|l l' ls ls' H F IH]; intros m; [reflexivity|]. cbn [demands]. unfold demand, mode_after. destruct H as [-> | [a [b [-> ->]]]]; rewrite IH; reflexivity.
Qed.

(* the last line that states a version *)
Lemma last_token_none ls : forall o, last_token o ls = None -> o = None /\ forall l, In l ls -> version_token l = None.
Proof.
  induction ls as [|l ls IH]; intros o H; [split; [exact H|intros ? []]|]. cbn [last_token] in H. destruct (IH _ H) as [A B]. unfold token_after in A.
  destruct (version_token l) eqn:E; [discriminate|]. split; [exact A|]. intros x [<-|X]; [exact E|exact (B x X)].
Qed.
Lemma last_token_some ls : forall o t, last_token o ls = Some t -> (o = Some t /\ forall l, In l ls -> version_token l = None) \/
  exists A l B, ls = A ++ l :: B /\ version_token l = Some t /\ forall x, In x B -> version_token x = None.
Proof.
  induction ls as [|l ls IH]; intros o t H; [left; split; [exact H|intros ? []]|]. cbn [last_token] in H. destruct (IH _ _ H) as [[A B]|[A [x [B [-> [V N]]]]]].
  - unfold token_after in A. destruct (version_token l) eqn:E; [injection A as ->; right; exists [], l, ls; auto|]. left. split; [exact A|]. intros y [<-|Y]; [exact E|exact (B y Y)].
  - right. exists (l :: A), x, B. auto.
Qed.

Lemma pragma_line op w : tok_t op <> TokComment -> tok_v op = bs "#pragma" -> kind_of (op :: w) = LPragma (texts w).
Proof. intros T V. unfold kind_of. rewrite V. destruct (tok_t op); [reflexivity|reflexivity|congruence]. Qed.
Lemma version_token_line l t : version_token l = Some t -> exists op a w2, l = op :: [a] ++ t :: w2 /\ tok_v a = bs "version" /\ starts_quote (tok_v t) = false /\
  tok_t op <> TokComment /\ tok_v op = bs "#pragma".
Proof.
  unfold version_token. destruct l as [|op [|a [|b w2]]]; try discriminate. destruct (kind_of _) eqn:K; try discriminate.
  destruct (seqb (tok_v a) (bs "version")) eqn:E; [|discriminate]. destruct (parse_uint (tok_v b) 0 64) eqn:U; [|discriminate]. intros H. injection H as ->.
  exists op, a, w2. split; [reflexivity|]. split; [destruct (seqb_spec (tok_v a) (bs "version")); congruence|]. split.
  { destruct (starts_quote (tok_v t)) eqn:Q; [|reflexivity]. exfalso. unfold starts_quote in Q. destruct (tok_v t) as [|c r]; [discriminate|]. apply Ascii.eqb_eq in Q. subst c.
    assert (X : parse_uint (c_quote :: r) 0 64 = None) by (unfold parse_uint; cbn; reflexivity). congruence. }
  unfold kind_of in K. split; [intros T; rewrite T in K; discriminate|].
  destruct (tok_t op); try discriminate K; (destruct (label_name _); [discriminate K|]; destruct (seqb_spec (tok_v op) (bs "#pragma")); [assumption|destruct (ops_get _); discriminate K]).
Qed.
Lemma pragma_sets op w w2 v u : tok_t op <> TokComment -> tok_v op = bs "#pragma" -> texts w = bs "version" :: dec v :: w2 -> (0 < v < 2 ^ 64)%N -> version_after u (op :: w) = v.
Proof.
  intros T V W B. unfold version_after. rewrite (pragma_line op w T V), W. unfold pragma_version. change (seqb (bs "version") (bs "version")) with true. cbv iota.
  rewrite (parse_uint_dec v 64) by lia. destruct (N.eqb_spec v 0); [lia|reflexivity].
Qed.

Definition update_version (r : presult) (v : N) : list text_edit :=
  [match r_vtok r with
   | Some t => TextEdit (tok_range t) (dec v)
   | None => TextEdit (Range 0 0 0 0) (bs "#pragma version " ++ dec v ++ [c_cr; c_lf])
   end].

Lemma Forall2_in {A} (P : A -> A -> Prop) l l' : Forall2 P l l' -> forall y, In y l' -> exists x, In x l /\ P x y.
Proof. induction 1 as [|x y l l' H F IH]; [intros ? []|]. intros z [<-|Z]; [exists x; cbn; auto|]. destruct (IH z Z) as [w [W1 W2]]. exists w. cbn. auto. Qed.

Theorem update_version_result en src ps r v r' : Lexes src ps -> strings_on_one_line ps -> process en src = Ret r -> versions_first (r_lines r) -> (0 < v < 2 ^ 64)%N ->
  process en (apply_edits (update_version r v) src) = Ret r' ->
  r_version r' = v /\ map rq_version (r_vers r') = filter (fun d => (v <? d)%N) (demands ModeApp (r_lines r)).
Proof.
  intros L O P Vf Bv P'. destruct (process_result en src r P) as [? [? [? [? [_ [_ [_ Q]]]]]]]. destruct (process_result en _ r' P') as [? [? [? [? [_ [_ [_ Q']]]]]]].
  rewrite (ro_version _ _ _ _ _ _ _ Q'), (ro_vers _ _ _ _ _ _ _ Q'). pose proof (ro_vtok _ _ _ _ _ _ _ Q) as Vt.
  assert (G : exists A l B, r_lines r' = A ++ l :: B /\ (forall y, In y A -> is_op y = false) /\ is_op l = false /\ (forall u, version_after u l = v) /\
    (forall y, In y B -> version_token y = None) /\ demands ModeApp (r_lines r) = demands ModeApp (A ++ l :: B)).
  2:{ destruct G as [A [l [B [-> [HA [Hl [Hv [HB ->]]]]]]]]. apply version_set; assumption. }
  unfold update_version in P'. destruct (r_vtok r) as [t|].
  - symmetry in Vt. apply last_token_some in Vt. destruct Vt as [[Vt _]|[A [l [B [E [V N]]]]]]; [discriminate|].
    destruct (version_token_line l t V) as [op [a [w2 [El [Ea [Qt [To Vo]]]]]]].
    assert (HN : nth_error (r_lines r) (length A) = Some (op :: [a] ++ t :: w2)) by (rewrite E, nth_error_app2, Nat.sub_diag, El by lia; reflexivity).
    assert (HR : raw_ok (dec v)) by (left; apply word_dec).
    pose proof (o_tokens en src r P op t [a] w2 (length A) (dec v) HN Qt HR) as Ot. pose proof (edit_result en src ps r _ r' L O P (o_nodup t (dec v)) Ot P') as F.
    pose proof F as F0. rewrite E in F0. apply Forall2_app_inv_l in F0. destruct F0 as [A' [R' [FA [FR ER]]]]. inversion FR as [|? l' ? B' Fl FB]; subst R'. subst l0 l.
    assert (Others : forall C C', incl C (r_lines r) -> (forall m, In m C -> ~ In t m) -> Forall2 (Forall2 (edited_tok (replace_token t (dec v)))) C C' -> Forall2 same_line C C').
    { intros C C' Ic Nt FC. induction FC as [|m m' C C' Fm FC IH]; constructor.
      - apply same_texts_line. apply (o_line en src r P op t [a] w2 (length A) (dec v) HN Qt m m'); [apply Ic; left; reflexivity|apply Nt; left; reflexivity|exact Fm].
      - apply IH; [intros z1 X; apply Ic; right; exact X|intros z1 X; apply Nt; right; exact X]. }
    assert (Nt : forall j m, nth_error (r_lines r) j = Some m -> In t m -> j = length A).
    { intros j m Nj I. rewrite <- (line_index _ _ _ P j m Nj t I). apply (line_index _ _ _ P (length A) _ HN t). right. right. left. reflexivity. }
    assert (SA : Forall2 same_line A A').
    { apply Others; [rewrite E; intros z1 X; apply in_or_app; left; exact X| |exact FA]. intros m I It. apply In_nth_error in I. destruct I as [j I].
      assert (J : j < length A) by (apply nth_error_Some; congruence). assert (Nj : nth_error (r_lines r) j = Some m) by (rewrite E, nth_error_app1 by lia; exact I). specialize (Nt j m Nj It). lia. }
    assert (SB : Forall2 same_line B B').
    { apply Others; [rewrite E; intros z1 X; apply in_or_app; right; right; exact X| |exact FB]. intros m I It. apply In_nth_error in I. destruct I as [j I].
      assert (Nj : nth_error (r_lines r) (length A + S j) = Some m) by (rewrite E, nth_error_app2 by lia; replace (length A + S j - length A) with (S j) by lia; exact I).
      specialize (Nt _ m Nj It). lia. }
    destruct (o_this en src r P op t [a] w2 (length A) (dec v) HN Qt l' Fl) as [op' [w' [-> [T' [V' W']]]]].
    rewrite (retext_word _ (word_dec v)) in W'. cbn [piece_tok texts map app] in W'. rewrite Ea in W'. rewrite Vo in V'. assert (To' : tok_t op' <> TokComment) by congruence.
    pose proof (pragma_line op' w' To' V') as K'. pose proof (pragma_line op ([a] ++ t :: w2) To Vo) as K.
    exists A', (op' :: w'), B'. split; [exact ER|]. split; [|split; [|split; [|split]]].
    + intros y Y. destruct (Forall2_in _ _ _ SA y Y) as [z [Z [Zk _]]]. unfold is_op. rewrite <- Zk.
      destruct Vf as [A1 [B1 [E1 [H1 H2]]]]. rewrite E in E1.
      destruct (Nat.lt_ge_cases (length A) (length A1)) as [Lt|Ge].
      * apply H1. apply In_nth_error in Z. destruct Z as [j Z]. assert (J : j < length A) by (apply nth_error_Some; congruence).
        apply nth_error_In with j. rewrite <- (nth_error_app1 A1 B1) by lia. rewrite <- E1, nth_error_app1 by lia. exact Z.
      * exfalso. assert (Hin : In (op :: [a] ++ t :: w2) B1).
        { apply nth_error_In with (length A - length A1). rewrite <- (nth_error_app2 A1 B1) by lia. rewrite <- E1, nth_error_app2, Nat.sub_diag by lia. reflexivity. }
        rewrite (H2 _ Hin) in V. discriminate V.
    + unfold is_op. rewrite K'. reflexivity.
    + intros u. exact (pragma_sets op' w' _ v u To' V' W' Bv).
    + intros y Y. destruct (Forall2_in _ _ _ SB y Y) as [z [Z [_ Zn]]]. apply Zn. exact (N z Z).
    + rewrite E. apply same_demands. apply Forall2_app; [clear - SA; induction SA as [|? ? ? ? [? ?] ? ?]; constructor; auto|]. constructor; [right; eauto|].
      clear - SB. induction SB as [|? ? ? ? [? ?] ? ?]; constructor; auto.
  - symmetry in Vt. apply last_token_none in Vt. destruct Vt as [_ N].
    set (e := TextEdit _ _) in P'. assert (Ed : apply_edits [e] src = te_text e ++ src).
    { rewrite (insert_line e src [] ps L O (or_introl eq_refl) eq_refl). cbn [texts_of map concat app]. destruct (lexes_split [] _ _ L) as [-> _]. reflexivity. }
    assert (Le : Lexes (te_text e ++ src) ([PWord (bs "#pragma"); PBlank c_space; PWord (bs "version"); PBlank c_space; PWord (dec v); PEol [c_cr; c_lf]] ++ ps)).
    { unfold e. cbn [te_text]. change (bs "#pragma version ") with (bs "#pragma" ++ c_space :: bs "version" ++ [c_space]). rewrite <- !app_assoc. cbn [app]. rewrite <- !app_assoc. cbn [app].
      apply word_lexes; [reflexivity|left; left; reflexivity|]. constructor; [left; reflexivity|]. apply word_lexes; [reflexivity|left; left; reflexivity|]. constructor; [left; reflexivity|].
      apply word_lexes; [apply word_dec|right; right; reflexivity|]. constructor. exact L. }
    rewrite Ed in P'. destruct (process_raw en src ps r L P) as [raw [Li R]].
    assert (La : Lines (fst (layout 0 0 [PWord (bs "#pragma"); PBlank c_space; PWord (bs "version"); PBlank c_space; PWord (dec v); PEol [c_cr; c_lf]]))
      [[Token (bs "#pragma") 0 0 7 TokValue; Token (bs "version") 0 8 15 TokValue; Token (dec v) 0 16 (16 + length (dec v)) TokValue]]).
    { exact (Lines_eol [Token (bs "#pragma") 0 0 7 TokValue; Token (bs "version") 0 8 15 TokValue; Token (dec v) 0 16 (16 + length (dec v)) TokValue] (Token [c_cr; c_lf] 0 (16 + length (dec v)) (16 + length (dec v) + 2) TokEol) [] [] eq_refl eq_refl Lines_none). }
    destruct (join_lines en _ _ _ _ _ _ _ _ _ Le ltac:(right; exists [PWord (bs "#pragma"); PBlank c_space; PWord (bs "version"); PBlank c_space; PWord (dec v)], [c_cr; c_lf]; reflexivity) La Li) as [raw' [_ [F [Q1 _]]]].
    rewrite <- (Q1 r' P') in F. rewrite <- R in F. cbn [map] in F. cbn [app] in F.
    inversion F as [|? l' ? B' Fl FB E1 E2]; subst. change (code_of _) with [Token (bs "#pragma") 0 0 7 TokValue; Token (bs "version") 0 8 15 TokValue; Token (dec v) 0 16 (16 + length (dec v)) TokValue] in Fl.
    destruct l' as [|op' w']; [discriminate Fl|]. pose proof Fl as Fl0. unfold same_texts in Fl0. cbn [map] in Fl0. injection Fl0 as Ct _ _. destruct (same_cons _ _ _ _ Fl) as [V' W'].
    assert (To' : tok_t op' <> TokComment) by (intros T'; unfold is_comment in Ct; rewrite T' in Ct; discriminate Ct). symmetry in V', W'. cbn [tok_v] in V'.
    exists [], (op' :: w'), B'. split; [reflexivity|]. split; [intros ? []|]. pose proof (pragma_line op' w' To' V') as K'. split; [unfold is_op; rewrite K'; reflexivity|].
    split; [intros u; exact (pragma_sets op' w' [] v u To' V' W' Bv)|].
    assert (SB : Forall2 same_line (r_lines r) B') by (clear - FB; induction FB; constructor; auto using same_texts_line).
    split; [intros y Y; destruct (Forall2_in _ _ _ SB y Y) as [z [Z [_ Zn]]]; apply Zn; exact (N z Z)|].
    cbn [app demands]. unfold demand, mode_after. rewrite K'. cbn [app]. apply same_demands. clear - SB. induction SB as [|? ? ? ? [? ?] ? ?]; constructor; auto.
Qed.

(* ------------------------------------------------------------------------------------------ *)
(* replacing all lines *)
Definition replace_all (r : presult) (n : str) : list text_edit := [TextEdit (Range 0 0 (Z.of_nat (length (r_lines r))) 0) n].

Lemma all_blank s ps : Lexes s ps -> Forall is_blank s -> Forall (fun p => exists x, p = PBlank x) ps.
Proof.
  induction 1; intros F; try (constructor; fail); try (inversion F as [|? ? [B|B] ?]; discriminate B).
  - constructor; [eauto|]. apply IHLexes. inversion F; assumption.
  - inversion F as [|? ? X ?]; subst. match goal with H : Forall (fun c => ~ is_delim c) (_ :: _) |- _ => inversion H as [|? ? Y ?]; subst end. destruct Y. left. exact X.
Qed.
Lemma blank_text ps : Forall (fun p => exists x, p = PBlank x) ps -> forall s, Lexes s ps -> Forall is_blank s.
Proof. induction 1 as [|p ps [x ->] F IH]; intros s L; inversion L; subst; constructor; [assumption|]. apply IH. assumption. Qed.
Lemma no_eol_plain ps : forall s, Lexes s ps -> strings_on_one_line ps -> eols ps = 0 -> one_line (texts_of ps).
Proof.
  induction ps as [|p ps IH]; intros s L O E; [split; intros []|]. assert (P : is_peol p = false) by (unfold eols in E; cbn [filter] in E; destruct (is_peol p); [discriminate E|reflexivity]).
  pose proof (piece_plain _ _ _ L O P) as Q. destruct (lexes_split [p] _ _ L) as [_ [_ L']].
  assert (O' : strings_on_one_line ps) by (intros w [W|W]; apply O; [left|right]; right; exact W).
  assert (E' : eols ps = 0) by (unfold eols in *; cbn [filter] in E; rewrite P in E; exact E). destruct (IH _ L' O' E') as [A B].
  change (texts_of (p :: ps)) with (piece_text p ++ texts_of ps). rewrite Forall_forall in Q. split; intros I; apply in_app_or in I; destruct I as [I|I]; try (destruct (Q _ I); congruence); auto.
Qed.
Lemma ends_line_text a : forall s, Lexes s a -> ends_line a -> texts_of a = [] \/ exists u c, texts_of a = u ++ [c] /\ is_eolc c.
Proof.
  intros s L [-> |[b [w ->]]]; [left; reflexivity|]. right. destruct (lexes_split b _ _ L) as [_ [_ L']]. rewrite texts_app.
  assert (W : w = [c_lf] \/ w = [c_cr; c_lf] \/ w = [c_cr]) by (inversion L'; auto). clear L L'. destruct W as [-> |[-> | ->]].
  - exists (texts_of b), c_lf. split; [reflexivity|left; reflexivity].
  - exists (texts_of b ++ [c_cr]), c_lf. split; [rewrite <- app_assoc; reflexivity|left; reflexivity].
  - exists (texts_of b), c_cr. split; [reflexivity|right; reflexivity].
Qed.

Theorem replace_all_result en src ps r n : Lexes src ps -> strings_on_one_line ps -> (forall w, ~ In (POpen w) ps) -> process en src = Ret r ->
  exists body tail, src = body ++ tail /\ (body = [] \/ exists u c, body = u ++ [c] /\ is_eolc c) /\ one_line tail /\
    ((Forall is_blank tail /\ apply_edits (replace_all r n) src = n ++ tail) \/ (~ Forall is_blank tail /\ apply_edits (replace_all r n) src = n)).
Proof.
  intros L O Op P. destruct (process_raw en src ps r L P) as [raw [Li R]].
  destruct (last_line _ _ _ L Li) as [a [b [ra [rb [E [Ea [Na [Nb [-> [Ra [La C]]]]]]]]]]].
  pose proof L as L0. rewrite E in L0. destruct (lexes_split a _ _ L0) as [Es [La0 Lb0]].
  assert (Ob : strings_on_one_line b) by (intros w [W|W]; apply O; [left|right]; rewrite E; apply in_or_app; right; exact W).
  exists (texts_of a), (texts_of b). split; [exact Es|]. split; [exact (ends_line_text _ _ La0 Ea)|]. split; [exact (no_eol_plain _ _ Lb0 Ob Nb)|].
  destruct C as [[-> Fb]|[Fb ->]].
  - left. assert (Opb : forall w, ~ In (POpen w) b) by (intros w I; apply (Op w); rewrite E; apply in_or_app; right; exact I).
    split; [exact (blank_text _ (blank_pieces _ _ _ Opb Fb) _ Lb0)|]. rewrite app_nil_r in R. assert (N : length (r_lines r) = eols a) by (rewrite R, map_length; lia).
    unfold replace_all. rewrite N. pose proof O as O0. rewrite E in O0. destruct a as [|p a].
    + exact (insert_line (TextEdit (Range 0 0 (Z.of_nat 0) 0) n) src [] b L0 O0 (or_introl eq_refl) eq_refl).
    + apply (replace_lines (TextEdit (Range 0 0 (Z.of_nat (eols (p :: a))) 0) n) src [] (p :: a) b); try reflexivity; [exact L0|exact O0|left; reflexivity|discriminate|].
      left. split; [exact Ea|reflexivity].
  - right. split.
    + intros F. apply Fb. apply blank_layout. exact (all_blank _ _ Lb0 F).
    + assert (N : length (r_lines r) = S (eols ps)) by (rewrite R, map_length, app_length; cbn; lia). unfold replace_all. rewrite N.
      assert (Q : ps <> []) by (intros ->; destruct a, b; try discriminate E; apply Fb; reflexivity).
      rewrite (replace_lines (TextEdit (Range 0 0 (Z.of_nat (S (eols ps))) 0) n) src [] ps []); try reflexivity.
      * cbn. apply app_nil_r.
      * rewrite app_nil_r. exact L.
      * rewrite app_nil_r. exact O.
      * left. reflexivity.
      * exact Q.
      * right. split; [reflexivity|]. cbn [te_range r_el]. change (eols []) with 0. lia.
Qed.
