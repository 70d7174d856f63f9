(* Proofs about the comment that sets the mode. *)
From Verif Require Import Base Utf8 LexSpec Lexer Expr Linter Fields Literals Codec OpTable Process ProcessSpec ProcessDoc ProcessThms DiagSpec DiagProofs ModeSpec.
From Coq Require Import Lia.

(* prefixes *)
Lemma strip_prefix_app p s : strip_prefix p (p ++ s) = Some s.
Proof.
  unfold strip_prefix. rewrite firstn_app, Nat.sub_diag, firstn_all, firstn_O, app_nil_r.
  rewrite (proj2 (seqb_eq p p) eq_refl). rewrite skipn_app, Nat.sub_diag, skipn_all, skipn_O. reflexivity.
Qed.
Lemma strip_prefix_sound p s t : strip_prefix p s = Some t -> s = p ++ t.
Proof.
  unfold strip_prefix. destruct (seqb (firstn (length p) s) p) eqn:E; [|discriminate]. apply seqb_eq in E.
  intros H. injection H as <-. rewrite <- E at 1. symmetry. apply firstn_skipn.
Qed.
Lemma strip_first_sound ps : forall s t, strip_first ps s = Some t -> exists p, In p ps /\ s = p ++ t.
Proof.
  induction ps as [|p ps IH]; intros s t; [discriminate|]. cbn [strip_first]. destruct (strip_prefix p s) as [u|] eqn:E.
  - intros H. injection H as <-. exists p. split; [left; reflexivity|apply strip_prefix_sound; exact E].
  - intros H. destruct (IH s t H) as [q [I Q]]. exists q. split; [right; exact I|exact Q].
Qed.

Definition prefix_free (ps : list str) : bool :=
  forallb (fun p => forallb (fun q => seqb p q || match strip_prefix p q with Some _ => false | None => true end) ps) ps.
Lemma two_prefixes (p q : str) : forall s t, p ++ s = q ++ t -> (exists u, q = p ++ u) \/ (exists u, p = q ++ u).
Proof.
  revert q. induction p as [|c p IH]; intros q s t E; [left; exists q; reflexivity|]. destruct q as [|d q]; [right; exists (c :: p); reflexivity|].
  cbn [app] in E. injection E as <- E. destruct (IH q s t E) as [[u ->]|[u ->]]; [left|right]; exists u; reflexivity.
Qed.
Lemma prefix_free_eq ps p q s t : prefix_free ps = true -> In p ps -> In q ps -> p ++ s = q ++ t -> p = q.
Proof.
  intros F P Q E. unfold prefix_free in F. rewrite forallb_forall in F.
  assert (X : forall a b u, In a ps -> In b ps -> b = a ++ u -> a = b).
  { intros a b u A B ->. pose proof (F a A) as Fa. rewrite forallb_forall in Fa. specialize (Fa _ B). rewrite strip_prefix_app, Bool.orb_false_r in Fa. apply seqb_eq. exact Fa. }
  destruct (two_prefixes p q s t E) as [[u U]|[u U]]; [eapply X; eassumption|symmetry; eapply X; eassumption].
Qed.
Lemma strip_first_app ps p s : prefix_free ps = true -> In p ps -> strip_first ps (p ++ s) = Some s.
Proof.
  intros F I. destruct (strip_first ps (p ++ s)) as [t|] eqn:E.
  - apply strip_first_sound in E as [q [Q E]]. assert (p = q) by (eapply prefix_free_eq; eassumption). subst q. apply app_inv_head in E. rewrite E. reflexivity.
  - exfalso. clear F. revert E. induction ps as [|q ps IH]; [destruct I|]. cbn [strip_first]. destruct I as [<-|I].
    + rewrite strip_prefix_app. discriminate.
    + destruct (strip_prefix q (p ++ s)); [discriminate|]. apply IH. exact I.
Qed.

(* a row of the texts ps *)
Inductive row (ps : list str) : str -> Prop :=
| row_nil : row ps []
| row_cons p s : In p ps -> row ps s -> row ps (p ++ s).
Lemma row_app ps a b : row ps a -> row ps b -> row ps (a ++ b).
Proof. induction 1 as [|p s I H IH]; intros B; [exact B|]. rewrite <- app_assoc. constructor; auto. Qed.
Lemma row_rev ps a : row ps a -> row (map (@rev ascii) ps) (rev a).
Proof.
  induction 1 as [|p s I H IH]; [constructor|]. rewrite rev_app_distr. apply row_app; [exact IH|].
  rewrite <- (app_nil_r (rev p)). constructor; [apply in_map; exact I|constructor].
Qed.
Lemma row_unrev ps a : row (map (@rev ascii) ps) a -> row ps (rev a).
Proof.
  induction 1 as [|p s I H IH]; [constructor|]. rewrite rev_app_distr. apply row_app; [exact IH|].
  apply in_map_iff in I as [q [<- I]]. rewrite rev_involutive, <- (app_nil_r q). constructor; [exact I|constructor].
Qed.

Lemma trim_left_sound ps fuel : forall s, exists a, row ps a /\ s = a ++ trim_left fuel ps s.
Proof.
  induction fuel as [|fuel IH]; intros s; [exists []; split; [constructor|reflexivity]|]. cbn [trim_left].
  destruct (strip_first ps s) as [t|] eqn:E; [|exists []; split; [constructor|reflexivity]].
  apply strip_first_sound in E as [p [I ->]]. destruct (IH t) as [a [R A]]. exists (p ++ a). split; [constructor; assumption|].
  rewrite <- app_assoc, <- A. reflexivity.
Qed.
Lemma trim_left_row ps : prefix_free ps = true -> (forall p, In p ps -> p <> []) -> forall a, row ps a -> forall fuel x, strip_first ps x = None -> length a <= fuel ->
  trim_left fuel ps (a ++ x) = x.
Proof.
  intros F N a R. induction R as [|p s I R IH]; intros fuel x X L.
  - cbn [app]. destruct fuel; [reflexivity|]. cbn [trim_left]. rewrite X. reflexivity.
  - rewrite app_length in L. assert (0 < length p) by (pose proof (N p I); destruct p; [congruence|cbn; lia]).
    destruct fuel as [|fuel]; [lia|]. cbn [trim_left]. rewrite <- app_assoc, strip_first_app by assumption. apply IH; [exact X|lia].
Qed.

(* the encodings are those of the white space *)
Lemma ascii_byte c n : byte c = n -> c = ascii_of_N n.
Proof. unfold byte. intros <-. symmetry. apply ascii_N_embedding. Qed.
Lemma white_space_chars c : In c white_space -> c <> [] /\ exists n, decode_rune c = (n, length c) /\ white_char n.
Proof.
  intros H. assert (F : forallb (fun c => negb (seqb c []) && (snd (decode_rune c) =? length c) &&
     existsb (N.eqb (fst (decode_rune c))) [9;10;11;12;13;32;133;160;5760;8192;8193;8194;8195;8196;8197;8198;8199;8200;8201;8202;8232;8233;8239;8287;12288]%N) white_space = true) by (vm_compute; reflexivity).
  rewrite forallb_forall in F. specialize (F c H). rewrite !Bool.andb_true_iff in F. destruct F as [[A B] C].
  split; [intros ->; discriminate|]. apply Nat.eqb_eq in B. exists (fst (decode_rune c)). split; [rewrite <- B; apply surjective_pairing|].
  apply existsb_exists in C as [n [I E]]. apply N.eqb_eq in E. rewrite E. unfold white_char. clear - I. cbn [In] in I.
  repeat (destruct I as [I|I]; [subst n; lia|]). destruct I.
Qed.
Lemma chars_white_space c n : decode_rune c = (n, length c) -> c <> [] -> white_char n -> In c white_space.
Proof.
  intros D N W. destruct c as [|c0 c]; [congruence|]. clear N. unfold decode_rune in D.
  assert (BAD : forall k m : nat, (rune_error, k) = (n, m) -> False).
  { intros k m E. assert (Q : rune_error = n) by congruence. rewrite <- Q in W. unfold white_char, rune_error in W. lia. }
  assert (R0 : c0 = ascii_of_N (byte c0)) by (apply ascii_byte; reflexivity).
  destruct (lead_size (byte c0)) as [|[|[|[|[|k]]]]] eqn:LS.
  - destruct (N.ltb_spec (byte c0) 128) as [L|L]; [|destruct (BAD _ _ D)].
    injection D as En El. destruct c; [|discriminate]. subst n.
    assert (X : In (byte c0) [9;10;11;12;13;32]%N) by (unfold white_char in W; cbn [In]; lia).
    rewrite R0. cbn [In] in X. repeat (destruct X as [X|X]; [rewrite <- X; vm_compute; tauto|]). destruct X.
  - destruct (BAD _ _ D).
  - destruct c as [|c1 c]; [destruct (BAD _ _ D)|].
    assert (R1 : c1 = ascii_of_N (byte c1)) by (apply ascii_byte; reflexivity).
    destruct (accept2 (byte c0) (byte c1)) eqn:A; [|destruct (BAD _ _ D)].
    injection D as En El. destruct c; [|discriminate].
    assert (B0 : (194 <= byte c0 <= 223)%N).
    { unfold lead_size in LS. destruct (N.leb_spec 194 (byte c0)), (N.leb_spec (byte c0) 223); cbn [andb] in LS; [lia|..];
        (destruct ((224 <=? byte c0) && (byte c0 <=? 239))%N; [discriminate|]; destruct ((240 <=? byte c0) && (byte c0 <=? 244))%N; discriminate). }
    assert (B1 : (128 <= byte c1 <= 191)%N).
    { revert A. unfold accept2, is_cont. repeat match goal with |- context [(byte c0 =? ?k)%N] => destruct (N.eqb_spec (byte c0) k); [lia|] end.
      rewrite Bool.andb_true_iff, !N.leb_le. tauto. }
    assert (X : (byte c0 = 194 /\ byte c1 = 133 \/ byte c0 = 194 /\ byte c1 = 160)%N) by (unfold white_char in W; lia).
    rewrite R0, R1. destruct X as [[-> ->]|[-> ->]]; vm_compute; tauto.
  - destruct c as [|c1 [|c2 c]]; try solve [destruct (BAD _ _ D)].
    assert (R1 : c1 = ascii_of_N (byte c1)) by (apply ascii_byte; reflexivity).
    assert (R2 : c2 = ascii_of_N (byte c2)) by (apply ascii_byte; reflexivity).
    destruct (accept2 (byte c0) (byte c1) && is_cont (byte c2)) eqn:A; [|destruct (BAD _ _ D)].
    injection D as En El. destruct c; [|discriminate]. rewrite Bool.andb_true_iff in A. destruct A as [A A2].
    unfold is_cont in A2. rewrite Bool.andb_true_iff, !N.leb_le in A2.
    assert (B0 : (224 <= byte c0 <= 239)%N).
    { unfold lead_size in LS. destruct ((194 <=? byte c0) && (byte c0 <=? 223))%N; [discriminate|].
      destruct (N.leb_spec 224 (byte c0)), (N.leb_spec (byte c0) 239); cbn [andb] in LS; [lia|..];
        destruct ((240 <=? byte c0) && (byte c0 <=? 244))%N; discriminate. }
    assert (B1 : (128 <= byte c1 <= 191)%N /\ (byte c0 = 224 -> 160 <= byte c1)%N).
    { revert A. unfold accept2, is_cont.
      destruct (N.eqb_spec (byte c0) 224); [rewrite Bool.andb_true_iff, !N.leb_le; lia|].
      destruct (N.eqb_spec (byte c0) 237); [rewrite Bool.andb_true_iff, !N.leb_le; lia|].
      destruct (N.eqb_spec (byte c0) 240); [lia|]. destruct (N.eqb_spec (byte c0) 244); [lia|].
      rewrite Bool.andb_true_iff, !N.leb_le. lia. }
    destruct B1 as [B1 B1'].
    assert (X : (byte c0 = 225 /\ byte c1 = 154 /\ byte c2 = 128 \/
                 byte c0 = 226 /\ byte c1 = 128 /\ (128 <= byte c2 <= 138 \/ byte c2 = 168 \/ byte c2 = 169 \/ byte c2 = 175) \/
                 byte c0 = 226 /\ byte c1 = 129 /\ byte c2 = 159 \/ byte c0 = 227 /\ byte c1 = 128 /\ byte c2 = 128)%N)
      by (unfold white_char in W; lia).
    rewrite R0, R1, R2. destruct X as [[-> [-> ->]]|[[-> [-> X]]|[[-> [-> ->]]|[-> [-> ->]]]]]; try (vm_compute; tauto).
    assert (Y : In (byte c2) [128;129;130;131;132;133;134;135;136;137;138;168;169;175]%N) by (cbn [In]; lia).
    cbn [In] in Y. repeat (destruct Y as [Y|Y]; [rewrite <- Y; vm_compute; tauto|]). destruct Y.
  - destruct c as [|c1 [|c2 [|c3 c]]]; try solve [destruct (BAD _ _ D)].
    destruct (accept2 (byte c0) (byte c1) && is_cont (byte c2) && is_cont (byte c3)) eqn:A; [|destruct (BAD _ _ D)].
    injection D as En El. rewrite !Bool.andb_true_iff in A. destruct A as [[A _] _]. exfalso.
    assert (B0 : (240 <= byte c0)%N).
    { unfold lead_size in LS. destruct ((194 <=? byte c0) && (byte c0 <=? 223))%N; [discriminate|].
      destruct ((224 <=? byte c0) && (byte c0 <=? 239))%N; [discriminate|].
      destruct (N.leb_spec 240 (byte c0)); cbn [andb] in LS; [lia|discriminate]. }
    assert (B1 : (byte c0 = 240 -> 144 <= byte c1)%N).
    { intros Q. revert A. rewrite Q. unfold accept2. cbn [N.eqb Pos.eqb]. rewrite Bool.andb_true_iff, !N.leb_le. lia. }
    unfold white_char in W. lia.
  - unfold lead_size in LS. destruct ((194 <=? byte c0) && (byte c0 <=? 223))%N; [discriminate|].
    destruct ((224 <=? byte c0) && (byte c0 <=? 239))%N; [discriminate|]. destruct ((240 <=? byte c0) && (byte c0 <=? 244))%N; discriminate.
Qed.

Lemma white_row s : white s <-> row white_space s.
Proof.
  split.
  - induction 1 as [|c s n D N W H IH]; [constructor|]. constructor; [eapply chars_white_space; eassumption|exact IH].
  - induction 1 as [|p s I H IH]; [constructor|]. destruct (white_space_chars p I) as [N [n [D W]]]. econstructor; eassumption.
Qed.

Lemma trim_mode w : trim_space w = mode_text <-> mode_comment w.
Proof.
  unfold trim_space. set (l := trim_left (length w) white_space w). split.
  - intros E. destruct (trim_left_sound white_space (length w) w) as [a [Ra A]]. fold l in A.
    destruct (trim_left_sound (map (@rev ascii) white_space) (length l) (rev l)) as [b [Rb B]].
    exists a, (rev b). split; [apply white_row; exact Ra|]. split; [apply white_row, row_unrev; exact Rb|].
    rewrite A at 1. f_equal. rewrite <- (rev_involutive l), B, rev_app_distr, E. reflexivity.
  - intros [a [b [Wa [Wb ->]]]]. apply white_row in Wa. apply white_row in Wb.
    assert (NE : forall p, In p white_space -> p <> []) by (intros p I; apply (white_space_chars p I)).
    assert (L : l = mode_text ++ b).
    { unfold l. apply trim_left_row; [vm_compute; reflexivity|exact NE|exact Wa|vm_compute; reflexivity|rewrite app_length; lia]. }
    rewrite L, rev_app_distr. rewrite trim_left_row; [apply rev_involutive|vm_compute; reflexivity| |apply row_rev; exact Wb|vm_compute; reflexivity|].
    + intros p I. apply in_map_iff in I as [q [<- I]]. intros Z. apply (NE q I). rewrite <- (rev_involutive q), Z. reflexivity.
    + rewrite rev_length, app_length. lia.
Qed.

(* the mode in force *)
Lemma mode_after_iff m l : mode_after m l = ModeSig <-> (exists t rest, l = t :: rest /\ tok_t t = TokComment /\ mode_comment (tok_v t)) \/ m = ModeSig.
Proof.
  unfold mode_after, kind_of. destruct l as [|t rest].
  - split; [auto|]. intros [[t [rest [Z _]]]|H]; [discriminate|exact H].
  - destruct (tok_t t) eqn:T.
    all: try (match goal with |- context [label_name ?w] => destruct (label_name w) end; [|destruct (seqb (tok_v t) (bs "#pragma")); [|destruct (ops_get (tok_v t))]];
      (split; [auto|]; intros [[t' [rest' [Z [T' _]]]]|H]; [injection Z as <- _; congruence|exact H])).
    destruct (seqb (trim_space (tok_v t)) (bs "#pragma mode logicsig")) eqn:S.
    + split; [|reflexivity]. intros _. left. exists t, rest. split; [reflexivity|]. split; [exact T|]. apply trim_mode, seqb_eq. exact S.
    + split; [auto|]. intros [[t' [rest' [Z [_ M]]]]|H]; [|exact H]. injection Z as <- _. exfalso. apply trim_mode in M.
      unfold mode_text in M. rewrite M in S. revert S. vm_compute. discriminate.
Qed.
Lemma last_mode_iff ls : forall m, last_mode m ls = ModeSig <-> (exists l, In l ls /\ mode_line l) \/ m = ModeSig.
Proof.
  induction ls as [|l ls IH]; intros m; cbn [last_mode].
  - split; [auto|]. intros [[l [[] _]]|H]; exact H.
  - rewrite IH, mode_after_iff. fold (mode_line l). split.
    + intros [[x [I M]]|[M|M]]; [left; exists x; split; [right; exact I|exact M]|left; exists l; split; [left; reflexivity|exact M]|right; exact M].
    + intros [[x [[<-|I] M]]|M]; [right; left; exact M|left; exists x; split; assumption|right; right; exact M].
Qed.
Lemma mode_after_two m l : m = ModeApp \/ m = ModeSig -> mode_after m l = ModeApp \/ mode_after m l = ModeSig.
Proof. intros H. unfold mode_after. destruct (kind_of l); try exact H. destruct (seqb _ _); [right; reflexivity|exact H]. Qed.
Lemma last_mode_two ls : forall m, m = ModeApp \/ m = ModeSig -> last_mode m ls = ModeApp \/ last_mode m ls = ModeSig.
Proof. induction ls as [|l ls IH]; intros m H; [exact H|]. cbn [last_mode]. apply IH, mode_after_two, H. Qed.
Theorem document_mode en src r : process en src = Ret r ->
  (r_mode r = ModeSig <-> exists l, In l (r_lines r) /\ mode_line l) /\ (r_mode r = ModeApp <-> ~ exists l, In l (r_lines r) /\ mode_line l).
Proof.
  intros E. pose proof (process_result en src r E) as [ts [errs [raw [lds [_ [_ [_ R]]]]]]].
  pose proof (ro_mode _ _ _ _ _ _ _ R) as M. clear E R.
  pose proof (last_mode_iff (r_lines r) ModeApp) as I. rewrite <- M in I.
  destruct (last_mode_two (r_lines r) ModeApp (or_introl eq_refl)) as [T|T]; rewrite <- M in T; rewrite T in *.
  - split.
    + rewrite I. split; [intros [H|H]; [exact H|discriminate]|auto].
    + split; [|reflexivity]. intros _ H. assert (Z : ModeApp = ModeSig) by (apply I; left; exact H). discriminate.
  - destruct (proj1 I eq_refl) as [H|H]; [|discriminate]. split; split; try discriminate; auto. intros N. destruct (N H).
Qed.

Lemma above_iff (r : presult) i : (exists l, In l (firstn i (r_lines r)) /\ mode_line l) <-> exists j l, j < i /\ nth_error (r_lines r) j = Some l /\ mode_line l.
Proof.
  split.
  - intros [l [I M]]. apply In_nth_error in I as [j J]. assert (L : j < length (firstn i (r_lines r))) by (apply nth_error_Some; rewrite J; discriminate).
    rewrite firstn_length in L. exists j, l. split; [lia|]. split; [|exact M]. rewrite <- (firstn_skipn i (r_lines r)).
    rewrite nth_error_app1 by (rewrite firstn_length; lia). exact J.
  - intros [j [l [L [J M]]]]. exists l. split; [|exact M]. apply (nth_error_In _ j).
    assert (K : j < length (r_lines r)) by (apply nth_error_Some; rewrite J; discriminate).
    rewrite <- (firstn_skipn i (r_lines r)) in J. rewrite nth_error_app1 in J by (rewrite firstn_length; lia). exact J.
Qed.
Theorem judged_by_mode en src r i t rest p args : process en src = Ret r -> nth_error (r_lines r) i = Some (t :: rest) ->
  kind_of (t :: rest) = LOp p args ->
  let above := exists j l, j < i /\ nth_error (r_lines r) j = Some l /\ mode_line l in
  ((exists b e, In (Diag i b e (KMode ModeApp)) (r_diag r)) <-> dc_app (doc_of p) = 0%N /\ ~ above) /\
  ((exists b e, In (Diag i b e (KMode ModeSig)) (r_diag r)) <-> dc_sig (doc_of p) = 0%N /\ above).
Proof.
  intros E N K above.
  assert (X : forall d, In d (r_diag r) <-> reported en src r d) by (intros d; apply reports_exact; exact E). clear E.
  assert (A : mode_at i (r_lines r) = ModeSig <-> above).
  { unfold mode_at, above. rewrite <- above_iff, last_mode_iff. split; [intros [H|H]; [exact H|discriminate]|auto]. }
  assert (T : mode_at i (r_lines r) = ModeApp \/ mode_at i (r_lines r) = ModeSig) by (apply last_mode_two; left; reflexivity).
  assert (Y : forall m, (exists b e, In (Diag i b e (KMode m)) (r_diag r)) <-> mode_at i (r_lines r) = m /\ min_version m p = 0%N).
  { intros m. split.
    - intros [b [e H]]. apply X in H. inversion H as [| |i' t' rest' p' args' N' K' M' Z| |]. subst i'.
      rewrite N in N'. injection N' as <- <-. rewrite K in K'. injection K' as <- <-. split; [reflexivity|exact M'].
    - intros [M Z]. exists (tok_b t), (tok_e t). apply X. rewrite <- M. eapply RMode; [exact N|exact K|rewrite M; exact Z]. }
  split.
  - rewrite Y. cbn [min_version]. split.
    + intros [M Z]. split; [exact Z|]. intros H. apply A in H. congruence.
    + intros [Z H]. split; [|exact Z]. destruct T as [T|T]; [exact T|]. destruct (H (proj1 A T)).
  - rewrite Y. cbn [min_version]. rewrite A. tauto.
Qed.
