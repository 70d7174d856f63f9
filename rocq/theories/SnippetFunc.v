(* Proofs about the snippet of a subroutine. *)
From Verif Require Import Base LexSpec Lexer LexerProofs LexerThms Expr Linter Fields Literals Codec CodecProofs OpTable Print Process ProcessSpec ProcessDoc ProcessThms
  RoundTripSpec RoundTripLex RoundTrip DocProofs EditProofs FixLines ErrorSpec ErrorProofs DiagSpec DiagProofs InsertProofs InsertSub InsertDoc
  VmOps Vm VmSpec LangSpec RealSpec Snippets SnippetSpec SnippetProofs SnippetRun.
From Verif Require Flow LintSpec.
From Coq Require Import Lia.

Definition func_rows (c : func_choice) : list (bool * list str) :=
  [(false, [colon (fc_name c)]); (false, []); (true, [bs "proto"; dec (fc_args c); dec (fc_results c)]); (true, fc_line c); (true, [bs "retsub"])].
Lemma func_text_rows c : inserted (func_typed c) func_text = crlf_text (func_rows c).
Proof.
  assert (X : forall t n x y z, t 1 = Some n -> t 2 = Some x -> t 3 = Some y -> t 4 = Some z ->
    inserted t func_text = n ++ bs ":" ++ [c_cr; c_lf] ++ [c_cr; c_lf] ++ [c_tab] ++ bs "proto " ++ x ++ bs " " ++ y ++ [c_cr; c_lf] ++ [c_tab] ++ z ++ [c_cr; c_lf] ++ [c_tab] ++ bs "retsub" ++ [c_cr; c_lf]).
  { intros t n x y z A B C D. vm_compute. rewrite A, B, C, D. reflexivity. }
  rewrite (X _ _ _ _ _ eq_refl eq_refl eq_refl eq_refl). destruct c as [n a r ws]. cbn [fc_name fc_args fc_results fc_line func_rows crlf_text].
  change (join [bs "proto"; dec a; dec r]) with (bs "proto" ++ " "%char :: dec a ++ " "%char :: dec r). change (join [colon n]) with (colon n). change (join [bs "retsub"]) with (bs "retsub"). change (join []) with (@nil ascii).
  unfold colon. repeat (rewrite <- app_assoc || rewrite <- app_comm_cons). reflexivity.
Qed.

Lemma body_words en v ws e : body_line en v ws e -> Forall (fun w => one_token w = true) ws.
Proof. intros H. inversion H; subst; [constructor|assumption]. Qed.
Lemma body_plain en v ws e : body_line en v ws e -> ~ LintSpec.unconditional e /\ (forall m, ~ Flow.names e m) /\ (forall m, e <> LabelExpr m) /\ (forall x, e <> PragmaExpr x).
Proof.
  intros H. inversion H; subst; [|auto]. split; [intros X; inversion X|]. split; [intros m X; inversion X|]. split; intros ? X; discriminate.
Qed.
Lemma func_rows_fine c : label_word (fc_name c) -> Forall (fun w => one_token w = true) (fc_line c) ->
  Forall (fun x => Forall (fun w => one_token w = true) (snd x)) (func_rows c).
Proof.
  intros N L. pose proof (colon_word _ N) as C. unfold func_rows.
  repeat (apply Forall_cons || apply Forall_nil); cbn [snd]; try exact L; repeat (apply Forall_cons || apply Forall_nil); try reflexivity; try apply token_dec.
  unfold one_token. rewrite C. reflexivity.
Qed.

Lemma adds_body en m v l ws e : m <> ModeNone -> body_line en v ws e -> word_line l ws -> adds en m v l e.
Proof.
  intros M B W. inversion B as [|w args p e0 F Nl Og A V1 V2 P1 P2 P3 P4]; subst; [apply adds_blank; exact W|].
  eapply adds_op; [exact Nl| |exact Og|exact A| |exact W].
  - destruct (seqb w (bs "#pragma")) eqn:S; [|reflexivity]. apply seqb_eq in S. subst w. exfalso. revert Og. vm_compute. discriminate.
  - destruct m; [congruence|exact V1|exact V2].
Qed.
Lemma adds_proto en m v l a r : m <> ModeNone -> (8 <= v)%N -> (a < 256)%N -> (r < 256)%N -> word_line l [bs "proto"; dec a; dec r] -> adds en m v l (ProtoExpr a r).
Proof.
  intros M V A R W. eapply (adds_op _ _ _ _ (bs "proto") [dec a; dec r] opProto); [reflexivity|reflexivity|vm_compute; reflexivity| | |exact W].
  - unfold opProto. cbn [assemble operand operand_value obind fst snd]. rewrite (read_uint8_dec a A). cbn [assemble operand operand_value obind fst snd fst_of]. rewrite (read_uint8_dec r R). reflexivity.
  - destruct m; [congruence| |]; (split; [vm_compute; reflexivity|]); (eapply N.le_trans; [|exact V]; vm_compute; discriminate).
Qed.
Lemma adds_retsub en m v l : m <> ModeNone -> (8 <= v)%N -> word_line l [bs "retsub"] -> adds en m v l RetSubExpr.
Proof.
  intros M V W. eapply adds_op; [| | | | |exact W]; try (vm_compute; reflexivity).
  destruct m; [congruence| |]; (split; [vm_compute; reflexivity|]); (eapply N.le_trans; [|exact V]; vm_compute; discriminate).
Qed.
Lemma func_adds en m v c e rs : m <> ModeNone -> (8 <= v)%N -> label_word (fc_name c) -> (fc_args c < 256)%N -> (fc_results c < 256)%N ->
  body_line en v (fc_line c) e -> Forall2 word_line rs (map snd (func_rows c)) -> all_add en m v rs (func_listing c e).
Proof.
  intros M V N A R B. unfold func_rows, func_listing. cbn [map snd]. intros F.
  repeat match goal with F : Forall2 _ _ (_ :: _) |- _ => inversion F; clear F; subst end.
  match goal with F : Forall2 _ _ [] |- _ => inversion F; clear F; subst end. cbn [all_add].
  repeat match goal with |- _ /\ _ => apply conj end; try exact I.
  - apply adds_label; [|assumption]. intros X. unfold label_word in N. rewrite X in N. discriminate.
  - apply adds_blank. assumption.
  - apply adds_proto; assumption.
  - eapply adds_body; eassumption.
  - apply adds_retsub; assumption.
Qed.

(* the subroutine typed into a document that lacks nothing but it *)
Theorem func_clean en pre a post r0 c e : Lexes pre a -> ends_line a -> last pre c_lf = c_lf ->
  process en (pre ++ post) = Ret r0 ->
  (forall d, In d (r_diag r0) -> exists i from to, d = Diag i from to (KLint (MissingLabelError i (fc_name c)))) ->
  (8 <= version_at (eols a) (r_lines r0))%N ->
  label_word (fc_name c) -> (fc_args c < 256)%N -> (fc_results c < 256)%N ->
  body_line en (version_at (eols a) (r_lines r0)) (fc_line c) e ->
  Flow.used (r_listing r0) (fc_name c) -> (forall i, ~ Flow.defines (r_listing r0) i (fc_name c)) ->
  (forall i, nth_error (r_listing r0) i <> Some (BExpr (fc_name c))) ->
  (forall i, eols a <= i -> ~ LintSpec.pragma_at (r_listing r0) i) ->
  exists r, process en (pre ++ inserted (func_typed c) func_text ++ post) = Ret r /\ r_diag r = [] /\
    r_listing r = firstn (eols a) (r_listing r0) ++ func_listing c e ++ skipn (eols a) (r_listing r0).
Proof.
  intros L O E P D V W A R B U Nd Nb Pr. rewrite func_text_rows. pose proof (func_rows_fine c W (body_words _ _ _ _ B)) as Wf.
  assert (NO : forall ps w, ~ Lexes (pre ++ post) (ps ++ [POpen w])).
  { intros ps w Lx. destruct (D _ (proj2 (reports_exact en _ r0 _ P) (ROpen en _ r0 ps w Lx))) as [i [f [t X]]]. discriminate. }
  assert (FN : forall f, finding (r_listing r0) f -> exists i, f = MissingLabelError i (fc_name c)).
  { intros f F. destruct (finding_placed en _ r0 f P F) as [l Nl]. destruct (D _ (proj2 (reports_exact en _ r0 _ P) (RFinding en _ r0 f l F Nl))) as [i [x [y X]]].
    injection X as _ _ _ X. eauto. }
  assert (ST : forall i l, nth_error (r_lines r0) i = Some l ->
     statement en (version_at i (r_lines r0)) l /\ available (mode_at i (r_lines r0)) (version_at i (r_lines r0)) l).
  { assert (H : forall d, DiagSpec.reported en (pre ++ post) r0 d -> exists i from to, d = Diag i from to (KLint (MissingLabelError i (fc_name c)))) by (intros d Q; apply D; apply (proj2 (reports_exact en _ r0 _ P)); exact Q).
    intros i l N. split.
    - destruct (errors_exact en _ r0 _ _ P N) as [[S _]|(t' & rs' & _ & Q & M')]; [exact S|]. destruct (H _ (RMistake en _ r0 _ _ _ _ N M')) as [? [? [? X]]]; discriminate.
    - intros p args Kl. destruct l as [|t rest]; [discriminate Kl|].
      destruct (N.eq_dec (min_version (mode_at i (r_lines r0)) p) 0) as [Z|Z]; [destruct (H _ (RMode en _ r0 _ _ _ _ _ N Kl Z)) as [? [? [? X]]]; discriminate|].
      destruct (N.lt_ge_cases (version_at i (r_lines r0)) (min_version (mode_at i (r_lines r0)) p)) as [Y|Y];
        [destruct (H _ (RVersion en _ r0 _ _ _ _ _ _ N Kl eq_refl Y)) as [? [? [? X]]]; discriminate|]. lia. }
  destruct (insert_doc en pre a post _ _ _ (func_listing c e) r0 L O E (crlf_lexes _ Wf) (crlf_ends _) ltac:(discriminate) (crlf_last _) (crlf_lines _ Wf) P NO ST) as [r [Pr1 [G0 [Ln [G [NO1 ST1]]]]]].
  { intros m rs M F. apply func_adds; assumption. }
  exists r. split; [exact Pr1|]. split; [|exact G].
  apply (proj2 (nothing_reported en _ r Pr1)). split; [exact NO1|]. split; [exact ST1|].
  rewrite G. remember (firstn (eols a) (r_listing r0)) as l1 eqn:R1. remember (skipn (eols a) (r_listing r0)) as l2 eqn:R2. clear R1 R2. rewrite G0 in *. rewrite <- Ln in Pr.
  apply (sub_sound l1 (func_listing c e) l2 (fc_name c)); try assumption.
  - reflexivity.
  - intros i x X. unfold func_listing in X. destruct i as [|[|[|[|i]]]]; cbn in X.
    + injection X as <-. split; [intros Q; inversion Q|]. split; [intros ? Q; inversion Q|]. split; intros ? Q; discriminate.
    + injection X as <-. split; [intros Q; inversion Q|]. split; [intros ? Q; inversion Q|]. split; intros ? Q; discriminate.
    + injection X as <-. eapply body_plain. exact B.
    + injection X as <-. split; [intros Q; inversion Q|]. split; [intros ? Q; inversion Q|]. split; intros ? Q; discriminate.
    + destruct i; discriminate.
Qed.

(* calling the subroutine *)
Section Call.
Variables (w : world) (c : func_choice) (e : expr) (l1 l2 : listing).
Let l := l1 ++ func_listing c e ++ l2.
Let k := length l1.
Hypothesis once : Flow.unique_labels l.

Lemma in_func i x : nth_error (func_listing c e) i = Some x -> nth_error l (k + i) = Some x.
Proof.
  intros H. unfold l, k. rewrite nth_error_app2 by lia. replace (length l1 + i - length l1) with i by lia. rewrite nth_error_app1; [exact H|].
  apply nth_error_Some. congruence.
Qed.
Lemma func_call i args s results locals cs m m' :
  nth_error l i = Some (CallSubExpr (fc_name c)) -> length args = N.to_nat (fc_args c) -> length results = N.to_nat (fc_results c) ->
  (let here := Call i (length (args ++ s)) (Some (fc_args c, fc_results c)) :: cs in
   instruction w l e (Real (k + 3) (args ++ s) here m) (Real (k + 4) (results ++ locals ++ args ++ s) here m')) ->
  steps w l 6 (Real i (args ++ s) cs m) (Real (S i) (results ++ s) cs m').
Proof.
  intros Ci La Lr Body. pose proof (in_func 0 _ eq_refl) as N0. pose proof (in_func 1 _ eq_refl) as N1. pose proof (in_func 2 _ eq_refl) as N2.
  pose proof (in_func 3 _ eq_refl) as N3. pose proof (in_func 4 _ eq_refl) as N4.
  apply (steps_S w l 5 _ (Real k (args ++ s) (Call i (length (args ++ s)) None :: cs) m) _ (CallSubExpr (fc_name c))); [exact Ci| |].
  { apply i_callsub. rewrite Nat.add_0_r in N0. split; [exact N0|]. intros j L X. pose proof (once _ _ _ X N0). lia. }
  apply (steps_S w l 4 _ (Real (k + 1) (args ++ s) (Call i (length (args ++ s)) None :: cs) m) _ (LabelExpr (fc_name c))).
  { cbn [c_line]. rewrite Nat.add_0_r in N0. exact N0. }
  { replace (k + 1) with (S k) by lia. apply i_nop. reflexivity. }
  apply (steps_S w l 3 _ (Real (k + 2) (args ++ s) (Call i (length (args ++ s)) None :: cs) m) _ EmptyExpr); [exact N1| |].
  { replace (k + 2) with (S (k + 1)) by lia. apply i_nop. reflexivity. }
  apply (steps_S w l 2 _ (Real (k + 3) (args ++ s) (Call i (length (args ++ s)) (Some (fc_args c, fc_results c)) :: cs) m) _ (ProtoExpr (fc_args c) (fc_results c))); [exact N2| |].
  { replace (k + 3) with (S (k + 2)) by lia. apply i_proto. rewrite app_length. lia. }
  apply (steps_S w l 1 _ (Real (k + 4) (results ++ locals ++ args ++ s) (Call i (length (args ++ s)) (Some (fc_args c, fc_results c)) :: cs) m') _ e); [exact N3|exact Body|].
  apply (steps_S w l 0 _ (Real (S i) (results ++ s) cs m') _ RetSubExpr); [exact N4| |constructor].
  apply i_retsub_proto; auto.
Qed.
End Call.
