(* The text of StringBytes read again (C94). *)
From Verif Require Import Base LexSpec Lexer LexerProofs LexerThms Expr Fields Codec Literals LiteralsProofs OpTable Print Process ProcessSpec ProcessDoc ProcessThms
  EditProofs FixLines Compiler Builders BuilderSpec BuilderProofs.

Lemma ops_byte : ops_get (bs "byte") = Some (Read IBytes "value" (fun x => Emit (ByteExpr x 0))).
Proof. vm_compute. reflexivity. Qed.

Lemma lines_two t u ts raw : Lines (t :: u :: ts) raw -> is_eol t = false -> is_eol u = false ->
  exists l ls, raw = (t :: u :: l) :: ls.
Proof.
  intros L Ht Hu. inversion L as [|l N E|l e r ls E X L' Q]; subst; [exists ts, []; reflexivity|].
  destruct l as [|a l]; cbn in Q; [injection Q as -> _; congruence|]. injection Q as -> Q.
  destruct l as [|b l]; cbn in Q; [injection Q as -> _; congruence|]. injection Q as -> _. exists l, ls. reflexivity.
Qed.

(* what an operand in quotes stands for *)
Lemma quoted_operand en body r : byte_operand en (c_quote :: body ++ [c_quote]) r =
  match parse_string_literal (c_quote :: body ++ [c_quote]) with Ret (Some v) => Some (v, r) | _ => None end.
Proof.
  unfold byte_operand.
  assert (P : forall p c q, p = String c q -> c <> c_quote -> has_prefix p (c_quote :: body ++ [c_quote]) = false).
  { intros p c q -> N. unfold has_prefix. match goal with |- ?b = false => destruct b eqn:Z end; [|reflexivity].
    apply seqb_eq in Z. cbn in Z. congruence. }
  assert (S : forall c q, c <> c_quote -> seqb (c_quote :: body ++ [c_quote]) (c :: q) = false).
  { intros c q N. match goal with |- ?b = false => destruct b eqn:Z end; [|reflexivity].
    apply seqb_eq in Z. congruence. }
  rewrite !(P _ _ _ eq_refl) by discriminate. cbn [orb].
  unfold bs. cbn [list_ascii_of_string]. rewrite !S by discriminate. cbn [orb].
  destruct (parse_string_literal (c_quote :: body ++ [c_quote])) as [[v|]| |]; try reflexivity.
  replace (1 <? length (c_quote :: body ++ [c_quote])) with true; [reflexivity|].
  symmetry. apply Nat.ltb_lt. cbn. rewrite app_length. cbn. lia.
Qed.

(* nothing grows when it is read, and only a text without escapes keeps its length *)
Lemma denotes_length b v : denotes b v -> length v <= length b /\ (length v = length b -> v = b /\ ~ In c_bslash b).
Proof.
  induction 1 as [|c r v N D [L K]|c d r v I D [L K]|a b x y r v A B D [L K]]; cbn [length].
  - split; [lia|]. intros _. split; [reflexivity|intros []].
  - split; [lia|]. intros E. destruct (K ltac:(lia)) as [-> J]. split; [reflexivity|]. intros [X|X]; [apply N; exact X|apply J; exact X].
  - split; [lia|]. intros E. lia.
  - split; [lia|]. intros E. lia.
Qed.
Lemma unescape_length w v : Unescaped w v -> length v <= length w /\ (length v = length w -> v = w).
Proof.
  induction 1 as [|w v U [L K]|c w v N U [L K]]; cbn [length]; split; try lia; intros E; try reflexivity; try lia.
  rewrite K by lia. reflexivity.
Qed.
Lemma plain_denotes v : ~ In c_bslash v -> denotes v v.
Proof.
  induction v as [|c v IH]; intros N; constructor.
  - intros ->. apply N. left. reflexivity.
  - apply IH. intros I. apply N. right. exact I.
Qed.
Lemma unescape_plain v : ~ In c_bslash v -> unescape_quotes v = v.
Proof.
  intros N. pose proof (unescape_quotes_spec v) as U. remember (unescape_quotes v) as u eqn:Hu. clear Hu.
  induction U as [|w u U IH|c w u X U IH]; [reflexivity|destruct N; left; reflexivity|].
  f_equal. apply IH. intros I. apply N. right. exact I.
Qed.

Definition string_text (v : str) : str := bs "byte " ++ c_quote :: v ++ [c_quote; c_lf].
Lemma string_bytes_text v : text_of [StringBytes v] = Ret (string_text v).
Proof.
  rewrite (called_for_text _ _ (cf_bytes v)); [|intros n; discriminate]. unfold string_text.
  rewrite <- !app_assoc. cbn. rewrite <- app_assoc. reflexivity.
Qed.

Lemma string_text_lexes v ps : Lexes (c_quote :: v ++ [c_quote; c_lf]) ps ->
  Lexes (string_text v) (PWord (bs "byte") :: PBlank c_space :: ps).
Proof.
  intros L. unfold string_text. change (bs "byte " ++ c_quote :: v ++ [c_quote; c_lf]) with ("b"%char :: bs "yte" ++ (c_space :: c_quote :: v ++ [c_quote; c_lf])).
  apply (Lx_word "b"%char (bs "yte")); [discriminate|intros w'; discriminate| | |].
  - repeat (constructor; [intros [[|]|[|]]; discriminate|]). constructor.
  - cbn. left. left. reflexivity.
  - apply Lx_blank; [left; reflexivity|exact L].
Qed.

(* the string is read as it was given exactly when it has no quote and no backslash *)
Lemma string_bytes_read en v : (exists r f, process en (string_text v) = Ret r /\ r_listing r = [ByteExpr v f]) <->
  ~ In c_quote v /\ ~ In c_bslash v.
Proof.
  split.
  - intros [r [f [P R]]].
    destruct (lexes_exists (c_quote :: v ++ [c_quote; c_lf])) as [ps L].
    pose proof (tokenize_spec _ _ (string_text_lexes v ps L)) as T.
    destruct (process_result en _ r P) as [ts [errs [raw [lds [T' [Li [_ Ro]]]]]]]. rewrite T in T'.
    rewrite (ro_listing _ _ _ _ _ _ _ Ro), (ro_lines _ _ _ _ _ _ _ Ro) in R.
    cbn [layout fst snd] in T'. injection T' as <- _.
    inversion L as [|? ? ? B| | | |? ? ? ? ? E|w rest ps' Q NL L' E E'|w Q E E'|? ? ? ? N]; subst; try discriminate; try (exfalso; congruence).
    + destruct B; discriminate.
    + (* a string ends somewhere *)
      cbn [layout fst] in Li. apply lines_two in Li as [l [ls ->]]; [|reflexivity|reflexivity].
      cbn [map code_of until_comment is_comment tok_t all_entries] in R.
      unfold entries in R. cbn [kind_of tok_t tok_v] in R.
      change ["b"%char; "y"%char; "t"%char; "e"%char] with (bs "byte") in R.
      change (label_name (bs "byte")) with (@None str) in R. change (seqb (bs "byte") (bs "#pragma")) with false in R.
      cbv iota in R. rewrite ops_byte in R. cbn [texts map tok_v assemble] in R.
      unfold operand in R. unfold quote_str in R. change (("""" : string)%string) with ("""")%string in R.
      change (bs """" ++ unescape_quotes w ++ bs """") with (c_quote :: unescape_quotes w ++ [c_quote]) in R.
      rewrite quoted_operand in R.
      destruct (parse_string_literal (c_quote :: unescape_quotes w ++ [c_quote])) as [[x|]| |] eqn:Ex; cbn in R; try discriminate.
      apply literal_accepts in Ex. destruct (denotes_length _ _ Ex) as [L1 K1].
      destruct (unescape_length _ _ (unescape_quotes_spec w)) as [L2 K2].
      assert (X : x = v) by (destruct (map tok_v (until_comment l)); cbn in R; congruence). subst x.
      assert (W : length v = length w -> v = w).
      { intros Z. destruct (K1 ltac:(lia)) as [K1' _]. rewrite K1'. apply K2. lia. }
      assert (G : v = w).
      { apply W. destruct rest as [|a rest].
        - exfalso. change [c_quote; c_lf] with ([c_quote] ++ [c_lf]) in E. rewrite app_assoc in E. apply app_inj_tail in E as [_ E]. discriminate.
        - apply (f_equal (@length ascii)) in E. rewrite !app_length in E. cbn in E. lia. }
      subst w. destruct (K1 ltac:(lia)) as [K1' Nb]. rewrite <- K1' in Nb. split; [|exact Nb].
      intros I. apply In_nth_error in I as [i I]. destruct (Q i I) as [j [_ J]]. apply Nb. apply nth_error_In with j. exact J.
    + (* the string never ends *)
      cbn [layout fst] in Li.
      assert (Z : forall raw, Lines [Token (bs "byte") 0 0 4 TokValue] raw -> raw = [[Token (bs "byte") 0 0 4 TokValue]]).
      { clear. intros raw H. apply (Lines_fun _ _ H). apply Lines_last; [discriminate|reflexivity]. }
      rewrite (Z raw Li) in R. vm_compute in R. discriminate.
  - intros [Nq Nb].
    assert (L : Lexes (c_quote :: v ++ [c_quote; c_lf]) [PString v; PEol [c_lf]]).
    { apply (Lx_string v [c_lf]).
      - intros i I. destruct Nq. apply nth_error_In with i. exact I.
      - intros [w' ->]. apply Nb. apply in_or_app. right. left. reflexivity.
      - apply Lx_lf. constructor. }
    pose proof (tokenize_spec _ _ (string_text_lexes v _ L)) as T. cbn [layout fst snd] in T.
    rewrite (unescape_plain v Nb) in T. unfold quote_str in T.
    change (bs """" ++ v ++ bs """") with (c_quote :: v ++ [c_quote]) in T.
    match type of T with _ = Ret ([?a; ?b; ?c], _) =>
      assert (Li : Lines [a; b; c] [[a; b]]) by (apply (Lines_eol [a; b] c [] []); [reflexivity|reflexivity|constructor]) end.
    match type of Li with Lines _ [?l] =>
      assert (En : entries en 1 l = [ByteExpr v 0] /\ surplus en 1 l = false) end.
    { unfold entries, surplus. cbn [kind_of tok_t tok_v].
      change ["b"%char; "y"%char; "t"%char; "e"%char] with (bs "byte").
      change (label_name (bs "byte")) with (@None str). change (seqb (bs "byte") (bs "#pragma")) with false. cbv iota.
      rewrite ops_byte. cbn [texts map tok_v assemble operand]. rewrite quoted_operand.
      rewrite (proj2 (literal_accepts v v) (plain_denotes v Nb)). split; reflexivity. }
    destruct (process_returns en _ _ _ _ T Li) as [r P].
    { cbn [map code_of until_comment is_comment tok_t all_surplus]. rewrite (proj2 En). reflexivity. }
    exists r, 0%N. split; [exact P|].
    destruct (process_result en _ r P) as [ts [errs [raw [lds [T' [Li' [_ Ro]]]]]]]. rewrite T in T'. injection T' as <- _.
    rewrite (Lines_fun _ _ Li' _ Li) in Ro.
    rewrite (ro_listing _ _ _ _ _ _ _ Ro), (ro_lines _ _ _ _ _ _ _ Ro).
    cbn [map code_of until_comment is_comment tok_t all_entries]. rewrite (proj1 En). reflexivity.
Qed.
