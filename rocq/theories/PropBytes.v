(* Property C88: byte constants. *)
From Verif Require Import Base LexSpec Lexer Expr Linter Fields Strconv Literals LiteralsProofs Codec Base32 OpTable Process ProcessSpec ProcessThms
  ErrorSpec ErrorProofs IntSpec ByteSpec ByteProofs Byte32Proofs.
From Verif Require Import PropProcess.

(* ---------------------------------------------------------------- C88: bytes mean what they say *)
(* the environment with base32DecodeAnyPadding; which addresses are valid does not matter here *)
Definition real_env (addr : str -> bool) : env := Env b32_any addr.

(* the encodings *)
Theorem C88_hex s v : hex_decode s = Some v <-> hex_text s v.
Proof. exact (hex_exact s v). Qed.
Print Assumptions C88_hex.
Theorem C88_base64 s v : b64_decode s = Some v <-> base64_text s v.
Proof. exact (base64_exact s v). Qed.
Print Assumptions C88_base64.
Theorem C88_base32 s v : base32_text s v -> b32_any s = Some v.
Proof. intros H. apply (base32_exact s v); [exact (base32_shape s v H)|exact H]. Qed.
Print Assumptions C88_base32.
(* the converse fails for texts that no bytes are written as: a rest of one, three or six digits is
   dropped, and behind the padding anything goes *)
Theorem C88_base32_refuted : b32_any (bs "MZXW6YTBMZX") = Some (bs "fooba") /\ b32_any (bs "MZXW6YQ=!") = Some (bs "foob") /\
  (forall v, ~ base32_text (bs "MZXW6YTBMZX") v) /\ forall v, ~ base32_text (bs "MZXW6YQ=!") v.
Proof.
  split; [vm_compute; reflexivity|]. split; [vm_compute; reflexivity|].
  assert (K : forall s v, base32_text s v -> without_line_ends s = s ->
    exists p k, s = p ++ repeat "="%char k /\ ~ In "="%char p /\ In (length p mod 8) [0; 2; 4; 5; 7]).
  { intros s v H E. apply base32_shape in H. rewrite E in H. destruct H as [_ [p [k [H1 [H2 [H3 _]]]]]]. eauto. }
  split; intros v H.
  - destruct (K _ v H eq_refl) as [p [[|k] [E [_ J]]]].
    + rewrite app_nil_r in E. subst p. vm_compute in J. intuition discriminate.
    + assert (X : In "="%char (bs "MZXW6YTBMZX")) by (rewrite E; apply in_or_app; right; left; reflexivity).
      vm_compute in X. intuition discriminate.
  - destruct (K _ v H eq_refl) as [p [k [E [N J]]]]. destruct k as [|k].
    + rewrite app_nil_r in E. subst p. apply N. vm_compute. tauto.
    + assert (X : last (bs "MZXW6YQ=!") " "%char = "="%char).
      { rewrite E. replace (S k) with (k + 1) by lia. rewrite repeat_app. cbn [repeat]. rewrite app_assoc. apply last_last. }
      vm_compute in X. discriminate.
Qed.
Print Assumptions C88_base32_refuted.
Theorem C88_base32_partial s v : shape32 (without_line_ends s) -> b32_any s = Some v <-> base32_text s v.
Proof. exact (base32_exact s v). Qed.
Print Assumptions C88_base32_partial.

Example C88_codec_ex : hex_text (bs "4a4B") (bs "JK") /\ base64_text (bs "Zm9vYg==") (bs "foob") /\
  base32_text (bs "MZXW6YQ=") (bs "foob") /\ base32_text (bs "MZXW6YQ") (bs "foob").
Proof.
  split; [apply hex_exact; reflexivity|]. split; [apply base64_exact; reflexivity|].
  split; apply base32_exact; try (vm_compute; reflexivity); (split; [vm_compute; intuition discriminate|]).
  - exists (bs "MZXW6YQ"), 1. split; [reflexivity|]. split; [vm_compute; intuition discriminate|]. split; [vm_compute; tauto|right; split; [lia|reflexivity]].
  - exists (bs "MZXW6YQ"), 0. split; [reflexivity|]. split; [vm_compute; intuition discriminate|]. split; [vm_compute; tauto|left; reflexivity].
Qed.

(* ---------------------------------------------------------------- operands *)
Lemma index_of_app x s t : ~ In x s -> index_of x (s ++ x :: t) = Some (length s).
Proof.
  induction s as [|c s IH]; intros N; cbn [app index_of length].
  - rewrite Ascii.eqb_refl. reflexivity.
  - destruct (Ascii.eqb_spec c x) as [->|_]; [destruct N; left; reflexivity|].
    rewrite IH; [reflexivity|intros I; apply N; right; exact I].
Qed.
Lemma parens_text k x : ~ In "("%char (bs k) -> ~ In ")"%char (bs k) -> ~ In ")"%char x ->
  between_parens (bs k ++ bs "(" ++ x ++ bs ")") = Some x.
Proof.
  intros K1 K2 X. unfold between_parens.
  replace (bs k ++ bs "(" ++ x ++ bs ")") with ((bs k ++ bs "(" ++ x) ++ ")"%char :: []) by (rewrite <- !app_assoc; reflexivity).
  rewrite index_of_app.
  2:{ intros I. apply in_app_or in I. destruct I as [I|I]; [exact (K2 I)|]. destruct I as [I|I]; [discriminate|exact (X I)]. }
  replace ((bs k ++ bs "(" ++ x) ++ [")"%char]) with (bs k ++ "("%char :: x ++ bs ")") by (rewrite <- !app_assoc; reflexivity).
  rewrite index_of_app by exact K1. rewrite !app_length. cbn [length bs].
  replace (length (bs k) <? length (bs k) + (length (bs "(") + length x)) with true
    by (symmetry; apply Nat.ltb_lt; change (length (bs "(")) with 1; lia).
  f_equal. replace (bs k ++ "("%char :: x ++ bs ")") with ((bs k ++ ["("%char]) ++ x ++ bs ")") by (rewrite <- app_assoc; reflexivity).
  rewrite skipn_app, skipn_all2 by (rewrite app_length; cbn; lia). rewrite app_length. cbn [length app].
  replace (length (bs k) + 1 - (length (bs k) + 1)) with 0 by lia. cbn [skipn].
  replace (length (bs k) + (length (bs "(") + length x) - (length (bs k) + 1)) with (length x) by (change (length (bs "(")) with 1; lia).
  rewrite firstn_app, Nat.sub_diag, firstn_all. cbn. apply app_nil_r.
Qed.

Lemma has_prefix_app p s : has_prefix p (bs p ++ s) = true.
Proof. unfold has_prefix. rewrite firstn_app, Nat.sub_diag, firstn_all. cbn [firstn]. rewrite app_nil_r. apply seqb_refl. Qed.
Lemma has_prefix_inv p s : has_prefix p s = true -> exists r, s = bs p ++ r.
Proof.
  unfold has_prefix. intros H. apply seqb_eq in H. exists (skipn (length (bs p)) s). rewrite <- H at 1. symmetry. apply firstn_skipn.
Qed.

Lemma no_paren64 x v : base64_text x v -> ~ In ")"%char x.
Proof.
  intros [p [k [ds [E [_ [_ [F _]]]]]]] I.
  assert (J : In ")"%char (without_line_ends x)) by (apply filter_In; split; [exact I|reflexivity]).
  rewrite E in J. apply in_app_or in J. destruct J as [J|J]; [|apply repeat_spec in J; discriminate].
  clear - F J. induction F as [|c d p ds H F IH]; [destruct J|]. destruct J as [->|J]; [|auto].
  unfold stands_for in H. apply nth_error_In in H. vm_compute in H. intuition discriminate.
Qed.
Lemma no_paren32 x v : base32_text x v -> ~ In ")"%char x.
Proof.
  intros [p [k [ds [E [_ [F _]]]]]] I.
  assert (J : In ")"%char (without_line_ends x)) by (apply filter_In; split; [exact I|reflexivity]).
  rewrite E in J. apply in_app_or in J. destruct J as [J|J]; [|apply repeat_spec in J; discriminate].
  clear - F J. induction F as [|c d p ds H F IH]; [destruct J|]. destruct J as [->|J]; [|auto].
  unfold stands_for in H. apply nth_error_In in H. vm_compute in H. intuition discriminate.
Qed.

Lemma constant_operand addr args v more : byte_constant args v ->
  exists a r, args = a :: r /\ byte_operand (real_env addr) a (r ++ more) = Some (v, more).
Proof.
  intros H. destruct H as [h v H|k x v K H|k x v K H|k x v K H|k x v K H|body v H].
  - exists (bs "0x" ++ h), []. split; [reflexivity|]. apply hex_exact in H. unfold byte_operand.
    change (has_prefix "base32(" (bs "0x" ++ h)) with false. change (has_prefix "b32(" (bs "0x" ++ h)) with false.
    change (has_prefix "base64(" (bs "0x" ++ h)) with false. change (has_prefix "b64(" (bs "0x" ++ h)) with false.
    change (has_prefix "0x" (bs "0x" ++ h)) with true. cbn [orb]. change (skipn 2 (bs "0x" ++ h)) with h. rewrite H. reflexivity.
  - exists (bs k), [x]. split; [reflexivity|]. apply base64_exact in H.
    destruct K as [<-|[<-|[]]]; unfold byte_operand; cbn -[b64_decode]; rewrite H; reflexivity.
  - exists (bs k ++ bs "(" ++ x ++ bs ")"), []. split; [reflexivity|]. pose proof (no_paren64 x v H) as NP. apply base64_exact in H.
    assert (B : between_parens (bs k ++ bs "(" ++ x ++ bs ")") = Some x).
    { destruct K as [<-|[<-|[]]]; apply parens_text; try exact NP; vm_compute; intuition discriminate. }
    unfold byte_operand. rewrite B.
    destruct K as [<-|[<-|[]]]; cbn -[b64_decode]; rewrite H; reflexivity.
  - exists (bs k), [x]. split; [reflexivity|]. apply C88_base32 in H.
    destruct K as [<-|[<-|[]]]; unfold byte_operand; cbn -[b64_decode b32_any]; rewrite H; reflexivity.
  - exists (bs k ++ bs "(" ++ x ++ bs ")"), []. split; [reflexivity|]. pose proof (no_paren32 x v H) as NP. apply C88_base32 in H.
    assert (B : between_parens (bs k ++ bs "(" ++ x ++ bs ")") = Some x).
    { destruct K as [<-|[<-|[]]]; apply parens_text; try exact NP; vm_compute; intuition discriminate. }
    unfold byte_operand. rewrite B.
    destruct K as [<-|[<-|[]]]; cbn -[b64_decode b32_any]; rewrite H; reflexivity.
  - exists (c_quote :: body ++ [c_quote]), []. split; [reflexivity|]. apply literal_accepts in H. unfold byte_operand.
    change (has_prefix "base32(" (c_quote :: body ++ [c_quote])) with false. change (has_prefix "b32(" (c_quote :: body ++ [c_quote])) with false.
    change (has_prefix "base64(" (c_quote :: body ++ [c_quote])) with false. change (has_prefix "b64(" (c_quote :: body ++ [c_quote])) with false.
    change (has_prefix "0x" (c_quote :: body ++ [c_quote])) with false. cbn [orb].
    change (seqb (c_quote :: body ++ [c_quote]) (bs "base32")) with false. change (seqb (c_quote :: body ++ [c_quote]) (bs "b32")) with false.
    change (seqb (c_quote :: body ++ [c_quote]) (bs "base64")) with false. change (seqb (c_quote :: body ++ [c_quote]) (bs "b64")) with false. cbn [orb].
    rewrite H. replace (1 <? length (c_quote :: body ++ [c_quote])) with true; [reflexivity|].
    symmetry. apply Nat.ltb_lt. cbn [length]. rewrite app_length. cbn. lia.
Qed.

Lemma operand_constant addr a r v : tidy (a :: r) -> byte_operand (real_env addr) a r = Some (v, []) -> byte_constant (a :: r) v.
Proof.
  intros [T1 T2]. unfold byte_operand.
  assert (PAR : forall k x, In k ["base64"; "b64"; "base32"; "b32"] -> a = bs k ++ bs "(" ++ x -> r = [] ->
    exists y, a = bs k ++ bs "(" ++ y ++ bs ")" /\ between_parens a = Some y).
  { intros k x K E ->. destruct (T1 k x K ltac:(rewrite E; reflexivity)) as [y [-> N]]. exists y. split; [exact E|]. rewrite E.
    cbn [In] in K. destruct K as [<-|[<-|[<-|[<-|[]]]]]; apply parens_text; try exact N; vm_compute; intuition discriminate. }
  destruct (has_prefix "base32(" a || has_prefix "b32(" a) eqn:P1.
  { assert (X : exists k x, In k ["base32"; "b32"] /\ a = bs k ++ bs "(" ++ x).
    { apply Bool.orb_true_iff in P1. destruct P1 as [P|P]; apply has_prefix_inv in P; destruct P as [x ->];
      [exists "base32", x|exists "b32", x]; (split; [cbn; auto|reflexivity]). }
    destruct X as [k [x [K E]]]. intros H.
    assert (r = []) as ->. { destruct (between_parens a); [|discriminate]. cbn [obind] in H. destruct (b32_decode _ _); [|discriminate]. cbn in H. congruence. }
    destruct (PAR k x ltac:(cbn [In] in K |- *; tauto) E eq_refl) as [y [Ey By]]. rewrite By in H. cbn [obind] in H.
    destruct (b32_decode (real_env addr) y) as [w|] eqn:D; [|discriminate]. cbn in H. injection H as ->.
    rewrite Ey. apply bc_base32_paren; [exact K|]. apply base32_exact; [|exact D].
    apply (T2 k y K). right. rewrite Ey. reflexivity. }
  destruct (has_prefix "base64(" a || has_prefix "b64(" a) eqn:P2.
  { assert (X : exists k x, In k ["base64"; "b64"] /\ a = bs k ++ bs "(" ++ x).
    { apply Bool.orb_true_iff in P2. destruct P2 as [P|P]; apply has_prefix_inv in P; destruct P as [x ->];
      [exists "base64", x|exists "b64", x]; (split; [cbn; auto|reflexivity]). }
    destruct X as [k [x [K E]]]. intros H.
    assert (r = []) as ->. { destruct (between_parens a); [|discriminate]. cbn [obind] in H. destruct (b64_decode _); [|discriminate]. cbn in H. congruence. }
    destruct (PAR k x ltac:(cbn [In] in K |- *; tauto) E eq_refl) as [y [Ey By]]. rewrite By in H. cbn [obind] in H.
    destruct (b64_decode y) as [w|] eqn:D; [|discriminate]. cbn in H. injection H as ->.
    rewrite Ey. apply bc_base64_paren; [exact K|]. apply base64_exact. exact D. }
  destruct (has_prefix "0x" a) eqn:P3.
  { apply has_prefix_inv in P3. destruct P3 as [h ->]. change (skipn 2 (bs "0x" ++ h)) with h. intros H.
    destruct (hex_decode h) as [w|] eqn:D; [|discriminate]. cbn in H. injection H as -> ->. apply bc_hex. apply hex_exact. exact D. }
  destruct (seqb a (bs "base32") || seqb a (bs "b32")) eqn:P4.
  { assert (X : exists k, In k ["base32"; "b32"] /\ a = bs k).
    { apply Bool.orb_true_iff in P4. destruct P4 as [P|P]; apply seqb_eq in P; [exists "base32"|exists "b32"]; (split; [cbn; auto|exact P]). }
    destruct X as [k [K E]]. destruct r as [|l r]; [discriminate|]. intros H.
    destruct (b32_decode (real_env addr) l) as [w|] eqn:D; [|discriminate]. cbn in H. injection H as -> ->. rewrite E.
    apply bc_base32; [exact K|]. apply base32_exact; [|exact D]. apply (T2 k l K). left. rewrite E. reflexivity. }
  destruct (seqb a (bs "base64") || seqb a (bs "b64")) eqn:P5.
  { assert (X : exists k, In k ["base64"; "b64"] /\ a = bs k).
    { apply Bool.orb_true_iff in P5. destruct P5 as [P|P]; apply seqb_eq in P; [exists "base64"|exists "b64"]; (split; [cbn; auto|exact P]). }
    destruct X as [k [K E]]. destruct r as [|l r]; [discriminate|]. intros H.
    destruct (b64_decode l) as [w|] eqn:D; [|discriminate]. cbn in H. injection H as -> ->. rewrite E.
    apply bc_base64; [exact K|]. apply base64_exact. exact D. }
  destruct (parse_string_literal a) as [[w|]| |] eqn:D; try discriminate. destruct (1 <? length a) eqn:L; [|discriminate].
  intros H. injection H as -> ->. assert (NQ : a <> [c_quote]) by (intros ->; discriminate).
  destruct (literal_needs_quotes a v NQ D) as [body [-> B]]. apply bc_literal. exact B.
Qed.

Lemma byte_line t args : tok_t t <> TokComment -> tok_v t = bs "byte" -> kind_of (t :: args) = LOp opByte (texts args).
Proof.
  intros NC E. unfold kind_of. destruct (tok_t t); try congruence; rewrite E;
  change (label_name (bs "byte")) with (@None str); cbv iota; change (seqb (bs "byte") (bs "#pragma")) with false; cbv iota;
  replace (ops_get (bs "byte")) with (Some opByte) by (vm_compute; reflexivity); reflexivity.
Qed.

(* a line with byte: the bytes of its operand are loaded *)
Theorem C88 addr src r i t args v : process (real_env addr) src = Ret r -> filter is_surplus_diag (r_diag r) = [] ->
  nth_error (r_lines r) i = Some (t :: args) -> tok_t t <> TokComment -> tok_v t = bs "byte" ->
  byte_constant (texts args) v ->
  nth_error (r_listing r) i = Some (ByteExpr v 0%N) /\ errors_on i (r_diag r) = [].
Proof.
  intros P F L NC E B.
  destruct (listing_lines _ src r P F) as [_ LL]. destruct (LL i _ L) as [e [Le Ee]]. clear LL.
  pose proof (errors_exact _ src r i _ P L) as X. unfold version_at in X.
  pose proof (byte_line t args NC E) as K.
  destruct (constant_operand addr (texts args) v [] B) as [a [r' [T O]]]. rewrite app_nil_r in O.
  assert (A : forall w, assemble (real_env addr) w opByte (texts args) = Some (ByteExpr v 0%N, [])).
  { intros w. rewrite T. unfold opByte. cbn [assemble operand]. rewrite O. reflexivity. }
  unfold entries in Ee. rewrite K, A in Ee. injection Ee as <-. split; [exact Le|].
  destruct X as [[_ X]|[u [rs [X _]]]]; [exact X|]. destruct X. unfold statement. rewrite K, A. eauto.
Qed.
Print Assumptions C88.

(* anything else is reported, where the operand has nothing behind its parenthesis and the length of its
   base32 text is one that base32 has *)
Theorem C88_partial addr src r i t args : process (real_env addr) src = Ret r -> filter is_surplus_diag (r_diag r) = [] ->
  nth_error (r_lines r) i = Some (t :: args) -> tok_t t <> TokComment -> tok_v t = bs "byte" -> tidy (texts args) ->
  (forall v, ~ byte_constant (texts args) v) ->
  nth_error (r_listing r) i = Some EmptyExpr /\ errors_on i (r_diag r) <> [].
Proof.
  intros P F L NC E T B.
  destruct (listing_lines _ src r P F) as [_ LL]. destruct (LL i _ L) as [e [Le Ee]]. clear LL.
  pose proof (errors_exact _ src r i _ P L) as X. unfold version_at in X.
  pose proof (byte_line t args NC E) as K. set (w := last_version 1 (firstn i (r_lines r))) in *.
  assert (NS : ~ statement (real_env addr) w (t :: args)).
  { unfold statement. rewrite K. intros [e' A]. destruct (texts args) as [|a r'] eqn:TA; [discriminate|].
    unfold opByte in A. cbn [assemble operand] in A. destruct (byte_operand (real_env addr) a r') as [[v q]|] eqn:O; [|discriminate].
    cbn in A. injection A as _ ->. exact (B v (operand_constant addr a r' v T O)). }
  destruct X as [[X _]|[u [rs [_ [X _]]]]]; [contradiction|]. split; [|rewrite X; discriminate].
  unfold entries in Ee. rewrite K in Ee. unfold statement in NS. rewrite K in NS.
  destruct (assemble (real_env addr) w opByte (texts args)) as [[e' [|x l]]|].
  - destruct NS. eauto.
  - discriminate.
  - injection Ee as <-. exact Le.
Qed.
Print Assumptions C88_partial.

(* not reported: something behind the parenthesis, and base32 texts of other lengths *)
Theorem C88_refuted : exists src r, process (real_env (fun _ => true)) src = Ret r /\ r_diag r = [] /\
  map (fun l => texts (tl l)) (r_lines r) = [[bs "b64(Zm9v)bar"]; [bs "b32"; bs "MZX"]] /\
  (forall v, ~ byte_constant [bs "b64(Zm9v)bar"] v) /\ (forall v, ~ byte_constant [bs "b32"; bs "MZX"] v) /\
  r_listing r = [ByteExpr (bs "foo") 0; ByteExpr [] 0]%N.
Proof.
  exists (lines ["byte b64(Zm9v)bar"; "byte b32 MZX"]).
  destruct (process (real_env (fun _ => true)) (lines ["byte b64(Zm9v)bar"; "byte b32 MZX"])) as [r| |] eqn:E; vm_compute in E; try discriminate.
  injection E as <-. eexists. split; [reflexivity|]. split; [reflexivity|]. split; [vm_compute; reflexivity|]. split; [|split; [|reflexivity]].
  - intros v H.
    assert (LAST : forall A (l : list A) a d, last (l ++ [a]) d = a) by (intros; apply last_last).
    remember [bs "b64(Zm9v)bar"] as args eqn:Q. destruct H as [h w Hh|k x w K Hx|k x w K Hx|k x w K Hx|k x w K Hx|body w Hb]; try discriminate Q.
    all: injection Q as Q.
    all: assert (Z : last (bs k ++ bs "(" ++ x ++ bs ")") " "%char = ")"%char) by (rewrite !app_assoc; apply LAST).
    all: replace (bs k ++ bs "(" ++ x ++ bs ")") with (bs "b64(Zm9v)bar") in Z by (symmetry; exact Q).
    all: vm_compute in Z; discriminate.
  - intros v H.
    remember [bs "b32"; bs "MZX"] as args eqn:Q. destruct H as [h w Hh|k x w K Hx|k x w K Hx|k x w K Hx|k x w K Hx|body w Hb]; try discriminate Q.
    + injection Q as Q _. destruct K as [<-|[<-|[]]]; discriminate.
    + assert (x = bs "MZX") as -> by (injection Q; auto). apply base32_shape in Hx.
      change (without_line_ends (bs "MZX")) with (bs "MZX") in Hx. destruct Hx as [_ [p [[|j] [Ep [_ [Jp _]]]]]].
      * rewrite app_nil_r in Ep. subst p. vm_compute in Jp. intuition discriminate.
      * assert (Y : In "="%char (bs "MZX")) by (rewrite Ep; apply in_or_app; right; left; reflexivity).
        vm_compute in Y. intuition discriminate.
Qed.
Print Assumptions C88_refuted.

(* blocks of byte constants *)
Theorem C88_blocks addr l vs : byte_constants l vs -> forall fuel, length l <= fuel -> all_bytes (real_env addr) fuel l = Some vs.
Proof.
  induction 1 as [|a v r vs B _ IH]; intros fuel LF; [destruct fuel; reflexivity|].
  destruct (constant_operand addr a v r B) as [x [q [-> O]]]. cbn [app length] in LF.
  destruct fuel as [|fuel]; [lia|]. cbn [app all_bytes]. rewrite O. cbn [obind snd fst].
  rewrite IH; [reflexivity|]. rewrite app_length in LF. lia.
Qed.
Print Assumptions C88_blocks.

Example C88_ex : match process (real_env (fun _ => true)) (lines ["byte 0x4a4B"; "byte b64(Zm9vYg==)"; "byte base32 MZXW6YQ"; "byte b32(MZXW6YQ=)";
    "byte ""a b"""; "byte 0x4"; "byte base64 Zm9vYg"; "byte 4a"; "bytecblock 0x41 b64 Qg== ""C"""]) with
  Ret r => r_listing r = [ByteExpr (bs "JK") 0; ByteExpr (bs "foob") 0; ByteExpr (bs "foob") 0; ByteExpr (bs "foob") 0;
             ByteExpr (bs "a b") 0; EmptyExpr; EmptyExpr; EmptyExpr; BytecBlockExpr [bs "A"; bs "B"; bs "C"]]%N /\
           map dg_line (r_diag r) = [5; 6; 7] | _ => False end.
Proof. vm_compute. split; reflexivity. Qed.
