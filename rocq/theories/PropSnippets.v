(* Property C108: the code of the snippets. *)
From Verif Require Import Base LexSpec Lexer Expr Linter Fields Literals Codec OpTable Print Process ProcessSpec RoundTripSpec RoundTripLex FixLines DiagSpec
  VmOps Vm VmSpec LangSpec RealSpec Snippets SnippetSpec SnippetProofs SnippetRun SnippetFunc PropProcess.
From Verif Require Flow LintSpec.
From Coq Require Import Lia.

(* In a document of version 7 in which nothing is wrong the code of both snippets is refused. *)
Theorem C108_refuted :
  (exists r0 r d, process env0 (lines ["#pragma version 7"]) = Ret r0 /\ r_diag r0 = [] /\
     process env0 (lines ["#pragma version 7"] ++ inserted (fun _ => None) soc_text) = Ret r /\ r_diag r = [d]) /\
  (exists r0 r d, process env0 (lines ["#pragma version 7"; "callsub sub"; "int 1"; "return"]) = Ret r0 /\
     process env0 (lines ["#pragma version 7"; "callsub sub"; "int 1"; "return"] ++ inserted (fun _ => None) func_text) = Ret r /\ r_diag r = [d]).
Proof.
  split.
  - destruct (process env0 (lines ["#pragma version 7"])) as [r0| |] eqn:E0; vm_compute in E0; try discriminate.
    destruct (process env0 (lines ["#pragma version 7"] ++ inserted (fun _ => None) soc_text)) as [r| |] eqn:E; vm_compute in E; try discriminate.
    injection E0 as <-. injection E as <-. do 3 eexists. split; [reflexivity|]. split; [reflexivity|]. split; reflexivity.
  - destruct (process env0 (lines ["#pragma version 7"; "callsub sub"; "int 1"; "return"])) as [r0| |] eqn:E0; vm_compute in E0; try discriminate.
    destruct (process env0 (lines ["#pragma version 7"; "callsub sub"; "int 1"; "return"] ++ inserted (fun _ => None) func_text)) as [r| |] eqn:E; vm_compute in E; try discriminate.
    injection E0 as <-. injection E as <-. do 3 eexists. split; [reflexivity|]. split; reflexivity.
Qed.
Print Assumptions C108_refuted.

(* Below version 8 the dispatch skeleton is refused wherever it is typed, at its switch. *)
Theorem C108_too_old en pre a post r0 c r : Lexes pre a -> ends_line a -> last pre c_lf = c_lf ->
  process en (pre ++ post) = Ret r0 -> (version_at (eols a) (r_lines r0) < 8)%N -> Forall label_word (soc_names c) ->
  process en (pre ++ inserted (soc_typed c post) soc_text) = Ret r ->
  exists from to, In (Diag (S (eols a)) from to (KVersion 8 (version_at (eols a) (r_lines r0)))) (r_diag r).
Proof. exact (soc_needs_8 en pre a post r0 c r). Qed.
Print Assumptions C108_too_old.

(* What the snippet shows before anything is typed: the names of the kinds of calls in lower case. *)
Theorem C108_untouched : inserted (fun _ => None) soc_text = inserted (soc_typed soc_default []) soc_text /\
  (forall n t, nth_error (soc_calls soc_default) n = Some t -> exists name, nth_error on_completion_map n = Some (name, N.of_nat n) /\ t = to_lower (bs name)) /\
  length (soc_calls soc_default) = length on_completion_map.
Proof.
  split; [vm_compute; reflexivity|]. split; [|reflexivity]. intros n t.
  do 6 (destruct n as [|n]; [intros E; injection E as <-; eexists; split; [reflexivity|vm_compute; reflexivity]|]). destruct n; discriminate.
Qed.
Print Assumptions C108_untouched.

(* The dispatch skeleton typed between two lines of a document of version 8 or later in which nothing is wrong, with names that are
   new, at a place that is reached: nothing is wrong with the result, and it is the old program with the skeleton in it. *)
Theorem C108_soc_partial en pre a post r0 c : Lexes pre a -> ends_line a -> last pre c_lf = c_lf ->
  process en (pre ++ post) = Ret r0 -> r_diag r0 = [] ->
  (8 <= version_at (eols a) (r_lines r0))%N ->
  Forall label_word (soc_names c) -> NoDup (soc_names c) ->
  (forall n, In n (soc_names c) -> ~ Flow.used (r_listing r0) n /\ forall i, ~ Flow.defines (r_listing r0) i n) ->
  alive_at (r_listing r0) (eols a) -> (forall i, eols a <= i -> ~ LintSpec.pragma_at (r_listing r0) i) ->
  exists r, process en (pre ++ inserted (soc_typed c post) soc_text) = Ret r /\ r_diag r = [] /\
    r_listing r = firstn (eols a) (r_listing r0) ++ soc_listing c ++ skipn (eols a) (r_listing r0).
Proof. exact (soc_clean en pre a post r0 c). Qed.
Print Assumptions C108_soc_partial.

Definition version_line : list (list str * bool) := [([bs "#pragma"; bs "version"; bs "8"], false)].
Definition after_it : str := lines ["int 1"; "return"].
Example C108_soc_ex : exists r, process env0 (word_text version_line ++ inserted (soc_typed soc_default after_it) soc_text) = Ret r /\ r_diag r = [] /\
  r_listing r = [PragmaExpr 8] ++ soc_listing soc_default ++ [IntExpr 1; ReturnExpr].
Proof.
  destruct (process env0 (word_text version_line ++ after_it)) as [r0| |] eqn:E; [|vm_compute in E; discriminate|vm_compute in E; discriminate].
  assert (L : r_listing r0 = [PragmaExpr 8; IntExpr 1; ReturnExpr]) by (vm_compute in E; injection E as <-; reflexivity).
  destruct (C108_soc_partial env0 (word_text version_line) (text_pieces version_line) after_it r0 soc_default) as [r [P [D R]]].
  - apply word_text_lexes. repeat constructor.
  - apply InsertDoc.text_pieces_ends.
  - reflexivity.
  - exact E.
  - vm_compute in E. injection E as <-. reflexivity.
  - vm_compute in E. injection E as <-. vm_compute. discriminate.
  - clear E. repeat constructor.
  - clear E. vm_compute. repeat constructor; cbn; intuition discriminate.
  - clear E. intros n H. rewrite L. split.
    + intros [i [e [N U]]]. destruct i as [|[|[|i]]]; cbn in N; try (injection N as <-; inversion U). destruct i; discriminate.
    + intros i N. unfold Flow.defines in N. destruct i as [|[|[|i]]]; cbn in N; try discriminate. destruct i; discriminate.
  - clear E. rewrite L. intros [j [e [J [N [U _]]]]]. assert (j = 0) as -> by (vm_compute in J; lia). injection N as <-. inversion U.
  - clear E. rewrite L. intros i H [v N]. destruct i as [|[|[|i]]]; [vm_compute in H; lia|discriminate|discriminate|destruct i; discriminate].
  - exists r. split; [exact P|]. split; [exact D|]. rewrite R, L. reflexivity.
Qed.

(* Running it: the first two instructions go to the code for the kind of the call, and from there two more go to the end of the
   skeleton.  Nothing else can happen, and stack, calls and slots are as before. *)
Theorem C108_dispatch w c l1 l2 n t s cs m st : lawful w -> call_kind w n ->
  let l := l1 ++ soc_listing c ++ l2 in
  Flow.unique_labels l -> nth_error (soc_calls c) (N.to_nat n) = Some t ->
  let there := length l1 + (2 + 3 * N.to_nat n) in let behind := length l1 + 19 in
  nth_error l there = Some (LabelExpr t) /\ nth_error l behind = Some (LabelExpr (sc_then c)) /\
  (steps w l 2 (Real (length l1) s cs m) st <-> st = Real there s cs m) /\
  (steps w l 2 (Real there s cs m) st <-> st = Real behind s cs m).
Proof.
  intros La W l U T there behind. split; [apply in_block; apply call_line; exact T|]. split; [apply in_block; reflexivity|].
  split; [exact (soc_dispatch w c l1 l2 U n t s cs m st La W T)|]. apply (soc_join w c l1 l2 U (N.to_nat n) s cs m st La).
  change 6 with (length (soc_calls c)). apply nth_error_Some. congruence.
Qed.
Print Assumptions C108_dispatch.

Definition clearing : world := World (fun e args res => e = TxnExpr on_completion /\ args = [] /\ res = [CInt 3]) (fun s => s).
Example C108_dispatch_ex st : steps clearing (soc_listing soc_default) 2 beginning st <-> st = Real 11 [] [] (fun _ => CInt 0).
Proof.
  assert (La : lawful clearing).
  { intros e args res [-> [-> ->]]. exists [], [TAny]. split; [reflexivity|]. split; [constructor|]. split; [repeat constructor|].
    intros specs f sp c rest F S R. injection F as <- <-. injection R as <- <-. vm_compute in S. injection S as <-. exact I. }
  assert (W : call_kind clearing 3) by (intros res; cbn; intuition congruence).
  assert (U : Flow.unique_labels ([] ++ soc_listing soc_default ++ [])).
  { rewrite app_nil_r. apply soc_once. vm_compute. repeat constructor; cbn; intuition discriminate. }
  destruct (C108_dispatch clearing soc_default [] [] 3 (bs "clearstate") [] [] (fun _ => CInt 0) st La W U eq_refl) as [_ [_ [X _]]].
  rewrite app_nil_r in X. exact X.
Qed.

(* The subroutine typed into a document of version 8 or later that lacks nothing but a label of that name, which nothing branches to:
   nothing is wrong with the result, and it is the old program with the subroutine in it. *)
Theorem C108_func_partial en pre a post r0 c e : Lexes pre a -> ends_line a -> last pre c_lf = c_lf ->
  process en (pre ++ post) = Ret r0 ->
  (forall d, In d (r_diag r0) -> exists i from to, d = Diag i from to (KLint (MissingLabelError i (fc_name c)))) ->
  (8 <= version_at (eols a) (r_lines r0))%N ->
  label_word (fc_name c) -> (fc_args c < 256)%N -> (fc_results c < 256)%N ->
  body_line en (version_at (eols a) (r_lines r0)) (fc_line c) e ->
  Flow.used (r_listing r0) (fc_name c) -> (forall i, ~ Flow.defines (r_listing r0) i (fc_name c)) ->
  (forall i, nth_error (r_listing r0) i <> Some (BExpr (fc_name c))) ->
  (forall i, eols a <= i -> ~ LintSpec.pragma_at (r_listing r0) i) ->
  exists r, process en (pre ++ inserted (func_typed c) func_text ++ post) = Ret r /\ r_diag r = [] /\
    r_listing r = firstn (eols a) (r_listing r0) ++ func_listing c e ++ skipn (eols a) (r_listing r0).
Proof. exact (func_clean en pre a post r0 c e). Qed.
Print Assumptions C108_func_partial.

Definition caller : list (list str * bool) :=
  version_line ++ [([bs "int"; bs "2"], false); ([bs "callsub"; bs "double"], false); ([bs "return"], false)].
Definition double : func_choice := Func (bs "double") 1 1 [bs "frame_dig"; bs "-1"].
Example C108_func_ex : exists r, process env0 (word_text caller ++ inserted (func_typed double) func_text ++ []) = Ret r /\ r_diag r = [] /\
  r_listing r = [PragmaExpr 8; IntExpr 2; CallSubExpr (bs "double"); ReturnExpr] ++ func_listing double (FrameDigExpr (-1)).
Proof.
  destruct (process env0 (word_text caller ++ [])) as [r0| |] eqn:E; [|vm_compute in E; discriminate|vm_compute in E; discriminate].
  assert (L : r_listing r0 = [PragmaExpr 8; IntExpr 2; CallSubExpr (bs "double"); ReturnExpr]) by (vm_compute in E; injection E as <-; reflexivity).
  assert (V : version_at (eols (text_pieces caller)) (r_lines r0) = 8%N) by (vm_compute in E; injection E as <-; vm_compute; reflexivity).
  destruct (C108_func_partial env0 (word_text caller) (text_pieces caller) [] r0 double (FrameDigExpr (-1))) as [r [P [D R]]].
  - apply word_text_lexes. repeat constructor.
  - apply InsertDoc.text_pieces_ends.
  - reflexivity.
  - exact E.
  - vm_compute in E. injection E as <-. cbn [r_diag In]. intros d [<-|[]]. do 3 eexists. reflexivity.
  - rewrite V. lia.
  - reflexivity.
  - reflexivity.
  - reflexivity.
  - clear E. rewrite V. eapply body_op; try (vm_compute; reflexivity); try (split; [vm_compute; reflexivity|vm_compute; discriminate]); try discriminate.
    + repeat constructor.
    + intros X. inversion X.
    + intros m X. inversion X.
  - rewrite L. exists 2, (CallSubExpr (bs "double")). split; [reflexivity|constructor].
  - clear E. rewrite L. intros i N. unfold Flow.defines in N. destruct i as [|[|[|[|i]]]]; cbn in N; try discriminate. destruct i; discriminate.
  - clear E. rewrite L. intros i N. destruct i as [|[|[|[|i]]]]; cbn in N; try discriminate. destruct i; discriminate.
  - clear E. rewrite L. intros i H [v N]. destruct i as [|[|[|[|i]]]]; [vm_compute in H; lia|discriminate|discriminate|discriminate|destruct i; discriminate].
  - exists r. split; [exact P|]. split; [exact D|]. rewrite R, L. reflexivity.
Qed.

(* Calling it: the arguments on top of the stack give way to the results, and the program goes on behind the call. *)
Theorem C108_call w c e l1 l2 i args s results locals cs m m' :
  let l := l1 ++ func_listing c e ++ l2 in
  Flow.unique_labels l -> nth_error l i = Some (CallSubExpr (fc_name c)) ->
  length args = N.to_nat (fc_args c) -> length results = N.to_nat (fc_results c) ->
  (let here := Call i (length (args ++ s)) (Some (fc_args c, fc_results c)) :: cs in
   instruction w l e (Real (length l1 + 3) (args ++ s) here m) (Real (length l1 + 4) (results ++ locals ++ args ++ s) here m')) ->
  steps w l 6 (Real i (args ++ s) cs m) (Real (S i) (results ++ s) cs m').
Proof. intros l U. exact (func_call w c e l1 l2 U i args s results locals cs m m'). Qed.
Print Assumptions C108_call.

Example C108_call_ex w s cs m n : steps w ([CallSubExpr (bs "double"); ReturnExpr] ++ func_listing double (FrameDigExpr (-1)) ++ []) 6
  (Real 0 (CInt n :: s) cs m) (Real 1 (CInt n :: s) cs m).
Proof.
  apply (C108_call w double (FrameDigExpr (-1)) [CallSubExpr (bs "double"); ReturnExpr] [] 0 [CInt n] s [CInt n] [] cs m m); try reflexivity.
  - intros i j x A B. transitivity 2; [|symmetry]; [clear B|clear A; rename B into A; clear i; rename j into i];
    unfold Flow.defines in A; destruct i as [|[|[|[|[|[|[|i]]]]]]]; cbn in A; try discriminate; try reflexivity; destruct i; discriminate.
  - cbn [length app]. apply i_frame_dig; [lia|]. cbn [length rev app]. rewrite nth_error_app2; rewrite rev_length; [|lia].
    replace (Z.to_nat (Z.of_nat (S (length s)) + -1) - length s) with 0 by lia. reflexivity.
Qed.
