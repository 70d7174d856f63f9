(* Properties C48 and C65-C70: what the language server answers at a position. *)
From Verif Require Import Base Lexer Codec Expr Fields Strconv OpTable Process ProcessSpec ProcessAvm AvmVersions Semantics Query Lsp QueryProofs RenameSpec
  AnswerSpec AnswerProofs PropProcess PropLsp.

(* ---------------------------------------------------------------- C48: position queries *)
(* Exactly these requests fail: negative lines, and hovering over a negative number where a named field belongs. *)
Theorem C48_exact_partial en cf uri src r q p : process (l_env en) src = Ret r -> at_position q p ->
  (answer_query en cf uri src r q = Panic <->
   ((q = QHover p \/ q = QCompletion p) /\ (ps_line p < 0)%Z) \/
   (q = QHover p /\ (0 <= ps_line p)%Z /\
    exists a t sp v, on_operand r p a t /\ documented (oa_type a) sp /\ atoi (tok_v t) = Some v /\ (v < 0)%Z)) /\
  (answer_query en cf uri src r q = Panic \/ exists a, answer_query en cf uri src r q = Ret a).
Proof. exact (position_panics en cf uri src r q p). Qed.
Print Assumptions C48_exact_partial.
Example C48_exact_ex : match process env0 (lines ["int 1"; "txna -2 0"]) with
  | Ret r => answer_query len0 (s_config start) doc1 [] r (QHover (Pos 1 6)) = Panic /\
             answer_query len0 (s_config start) doc1 [] r (QHover (Pos 1 8)) = Ret (AHover NoDoc) /\
             answer_query len0 (s_config start) doc1 [] r (QCompletion (Pos (-1) 0)) = Panic
  | _ => False end.
Proof. vm_compute. repeat split. Qed.

(* ---------------------------------------------------------------- C65: highlights *)
Theorem C65 en cf uri src r p : process (l_env en) src = Ret r ->
  exists l, answer_query en cf uri src r (QDocumentHighlight p) = Ret (ADocumentHighlight l) /\
  ((exists n, named r p n /\ l = occurrences r n) \/ ((forall n, ~ named r p n) /\ l = [])).
Proof. intros E. exists (highlights r p). split; [reflexivity|]. exact (highlights_exact _ _ _ _ E). Qed.
Print Assumptions C65.
(* Without quoted references there is at most one such name. *)
Theorem C65_unique en cf uri src r p n : process (l_env en) src = Ret r ->
  Forall (fun t => starts_quote (tok_v t) = false) (r_refs r) -> named r p n ->
  answer_query en cf uri src r (QDocumentHighlight p) = Ret (ADocumentHighlight (occurrences r n)).
Proof. intros E Q N. cbn [answer_query]. rewrite (highlights_named _ _ _ _ _ E Q N). reflexivity. Qed.
Print Assumptions C65_unique.
Definition loop_text : str := lines ["int 3"; "loop:"; "int 1"; "-"; "dup"; "bnz loop"; "b loop"; "b other"].
Example C65_ex : match process env0 loop_text with
  | Ret r => occurrences r (bs "loop") = [Range 1 0 1 4; Range 5 4 5 8; Range 6 2 6 6] /\
             answer_query len0 (s_config start) doc1 loop_text r (QDocumentHighlight (Pos 6 3)) =
               Ret (ADocumentHighlight [Range 1 0 1 4; Range 5 4 5 8; Range 6 2 6 6]) /\
             answer_query len0 (s_config start) doc1 loop_text r (QDocumentHighlight (Pos 7 3)) = Ret (ADocumentHighlight [Range 7 2 7 7]) /\
             answer_query len0 (s_config start) doc1 loop_text r (QDocumentHighlight (Pos 0 1)) = Ret (ADocumentHighlight [])
  | _ => False end.
Proof. vm_compute. repeat split. Qed.

(* ---------------------------------------------------------------- C66: code lenses *)
Theorem C66 en cf uri src r : process (l_env en) src = Ret r -> c_lens cf = true ->
  answer_query en cf uri src r QCodeLens = Ret (ACodeLens (filter (fun x => 0 <? snd x)
    (map (fun s => (sy_l s, length (filter (fun t => seqb (tok_v t) (sy_name s)) (r_refs r)))) (r_syms r)))).
Proof. intros E C. cbn [answer_query]. rewrite C, (code_lens_exact _ _ _ E). reflexivity. Qed.
Print Assumptions C66.
Example C66_ex : match process env0 loop_text with
  | Ret r => answer_query len0 (Config true true true true) doc1 loop_text r QCodeLens = Ret (ACodeLens [(1, 2)])
  | _ => False end.
Proof. vm_compute. reflexivity. Qed.

(* ---------------------------------------------------------------- C67: completion of operands *)
(* The version at the end of the document decides, not the one at the line. *)
Definition late_pragma : str := lines ["global "; "#pragma version 8"].
Theorem C67_refuted : exists r p a x, process env0 late_pragma = Ret r /\ completes r p a /\
  completions r p = Ret (CompleteArgs (arg_vals r a)) /\ In x (arg_vals r a) /\
  value_read env0 (version_at (Z.to_nat (ps_line p)) (r_lines r)) (oa_type a) (av_name x) = None.
Proof.
  destruct (process env0 late_pragma) as [r| |] eqn:E; vm_compute in E; try discriminate. injection E as <-.
  eexists. exists (Pos 0 7), (OpArg "field" IGlobal false false), (ArgVal (bs "GroupID") (Some 11%N) 5%N).
  split; [reflexivity|]. split.
  - eexists _, _, _. split; [reflexivity|]. split; [reflexivity|]. split; [vm_compute; reflexivity|]. split; [right; intros t []|vm_compute; reflexivity].
  - split; [vm_compute; reflexivity|]. split; [vm_compute; tauto|]. vm_compute. reflexivity.
Qed.
Print Assumptions C67_refuted.
(* Array fields the parser accepts are not offered. *)
Theorem C67_array_refuted : exists r p a s n, process env0 (bs "txna ") = Ret r /\ completes r p a /\
  completions r p = Ret (CompleteArgs (arg_vals r a)) /\
  value_read env0 (version_at (Z.to_nat (ps_line p)) (r_lines r)) (oa_type a) s = Some n /\ (exists x, In x txnFieldSpecs /\ f_name x = s) /\
  forall x, In x (arg_vals r a) -> av_name x <> s.
Proof.
  destruct (process env0 (bs "txna ")) as [r| |] eqn:E; vm_compute in E; try discriminate. injection E as <-.
  eexists. exists (Pos 0 5), (OpArg "f" ITxnaField false false), (bs "Accounts"), 28%N.
  split; [reflexivity|]. split.
  - eexists _, _, _. split; [reflexivity|]. split; [reflexivity|]. split; [vm_compute; reflexivity|]. split; [right; intros t []|vm_compute; reflexivity].
  - split; [vm_compute; reflexivity|]. split; [vm_compute; reflexivity|]. split.
    + assert (existsb (fun x => seqb (f_name x) (bs "Accounts")) txnFieldSpecs = true) as H by (vm_compute; reflexivity).
      apply existsb_exists in H. destruct H as [x [I X]]. exists x. split; [exact I|]. apply seqb_eq. exact X.
    + intros x []. 
Qed.
Print Assumptions C67_array_refuted.

Theorem C67_sound_partial en src r p a : process en src = Ret r -> (0 <= ps_line p)%Z -> completes r p a ->
  version_at (Z.to_nat (ps_line p)) (r_lines r) = r_version r ->
  exists vs, completions r p = Ret (CompleteArgs vs) /\
  forall x, In x vs ->
  (oa_type a = ILabel /\ exists s, In s (r_syms r) /\ sy_name s = av_name x) \/
  (exists n, av_value x = Some n /\ value_read en (version_at (Z.to_nat (ps_line p)) (r_lines r)) (oa_type a) (av_name x) = Some n).
Proof.
  intros E N C V. exists (arg_vals r a). split; [exact (completes_vals _ _ _ _ _ E N C)|]. intros x. exact (completion_sound _ _ _ _ _ x E N C V).
Qed.
Print Assumptions C67_sound_partial.
Theorem C67_complete_partial en src r p a : process en src = Ret r -> (0 <= ps_line p)%Z -> completes r p a ->
  version_at (Z.to_nat (ps_line p)) (r_lines r) = r_version r ->
  exists vs, completions r p = Ret (CompleteArgs vs) /\
  (forall s, oa_type a = ILabel -> In s (r_syms r) -> exists x, In x vs /\ av_name x = sy_name s) /\
  (forall sp s n, field_table (oa_type a) = Some sp -> oa_type a <> ITxnaField -> In s sp ->
     value_read en (version_at (Z.to_nat (ps_line p)) (r_lines r)) (oa_type a) (f_name s) = Some n ->
     exists x, In x vs /\ av_name x = f_name s /\ av_value x = Some n).
Proof.
  intros E N C V. exists (arg_vals r a). split; [exact (completes_vals _ _ _ _ _ E N C)|]. split.
  - intros s. exact (completion_labels r a s).
  - intros sp s n T K I H. apply In_nth_error in I. destruct I as [j J]. exact (completion_complete _ _ _ _ _ _ _ _ _ E N C V T K J H).
Qed.
Print Assumptions C67_complete_partial.
Example C67_ex : match process env0 (lines ["#pragma version 5"; "lab:"; "b "; "itxn_field "; "acct_params_get "]) with
  | Ret r => version_at 3 (r_lines r) = r_version r /\
             completions r (Pos 2 2) = Ret (CompleteArgs [ArgVal (bs "lab") None 0]) /\
             match completions r (Pos 3 11) with Ret (CompleteArgs vs) => existsb (fun x => seqb (av_name x) (bs "Receiver")) vs = true /\
               existsb (fun x => seqb (av_name x) (bs "Note")) vs = false | _ => False end /\
             completions r (Pos 4 16) = Ret (CompleteArgs [])
  | _ => False end.
Proof. vm_compute. repeat split. Qed.

(* ---------------------------------------------------------------- C68: signature help *)
(* In the gap in front of an operand the parameter after the last operand is shown. *)
Theorem C68_refuted : exists r p op rest q, process env0 (bs "gtxn 0  Sender") = Ret r /\ line_at_pos r p = Some (op :: rest) /\
  ops_get (tok_v op) = Some q /\ operands_before (ps_char p) rest = 1 /\
  signature_help r p = Ret (Some (bs "gtxn", 2%Z)) /\ parameter (dc_args (doc_of q)) 1 = 1.
Proof.
  destruct (process env0 (bs "gtxn 0  Sender")) as [r| |] eqn:E; vm_compute in E; try discriminate. injection E as <-.
  eexists. exists (Pos 0 7). eexists _, _, _. split; [reflexivity|]. split; [reflexivity|]. split; [vm_compute; reflexivity|].
  split; [reflexivity|]. split; vm_compute; reflexivity.
Qed.
Print Assumptions C68_refuted.
Theorem C68_partial en src r p op rest q : process en src = Ret r -> (0 <= ps_line p)%Z -> line_at_pos r p = Some (op :: rest) ->
  tok_t op <> TokComment -> ops_get (tok_v op) = Some q -> at_operand (ps_char p) rest ->
  signature_help r p = Ret (Some (tok_v op, Z.of_nat (parameter (dc_args (doc_of q)) (operands_before (ps_char p) rest)))).
Proof. exact (signature_exact en src r p op rest q). Qed.
Print Assumptions C68_partial.
Theorem C68_elsewhere en src r p : process en src = Ret r ->
  (forall op rest q, line_at_pos r p = Some (op :: rest) -> (0 <= ps_line p)%Z -> ops_get (tok_v op) = Some q -> tok_t op = TokComment) ->
  signature_help r p = Ret None.
Proof.
  intros E H. apply (signature_nowhere _ _ _ _ E). intros t I L. pose proof I as J. apply (ops_on_lines _ _ _ _ E) in J.
  destruct J as [rest [q [J1 [J2 J3]]]]. apply J3. apply (H t rest q); [unfold line_at_pos; rewrite L, Nat2Z.id; exact J1|rewrite L; apply Zle_0_nat|exact J2].
Qed.
Print Assumptions C68_elsewhere.
Example C68_ex : match process env0 (lines ["gtxn 0 Sender"; "match a b c"; "// int 1"]) with
  | Ret r => signature_help r (Pos 0 8) = Ret (Some (bs "gtxn", 1%Z)) /\ signature_help r (Pos 0 6) = Ret (Some (bs "gtxn", 0%Z)) /\
             signature_help r (Pos 1 10) = Ret (Some (bs "match", 0%Z)) /\ signature_help r (Pos 2 4) = Ret None
  | _ => False end.
Proof. vm_compute. repeat split. Qed.

(* ---------------------------------------------------------------- C69: hover *)
(* A comment that reads like an opcode gets the documentation of that opcode. *)
Theorem C69_refuted : exists r p t, process env0 (bs "//int") = Ret r /\ line_at_pos r p = Some [t] /\ tok_t t = TokComment /\
  doc_at r (ps_line p) (ps_char p) = Ret (OpDoc (bs "int")).
Proof.
  destruct (process env0 (bs "//int")) as [r| |] eqn:E; vm_compute in E; try discriminate. injection E as <-.
  eexists. exists (Pos 0 2). eexists. split; [reflexivity|]. split; [reflexivity|]. split; vm_compute; reflexivity.
Qed.
Print Assumptions C69_refuted.
(* The curves of the ec opcodes are not documented. *)
Theorem C69_ec_refuted : exists r p a t sp, process env0 (bs "ec_add BN254_G1") = Ret r /\ on_operand r p a t /\
  field_table (oa_type a) = Some sp /\ denotes sp (tok_v t) 0 /\ doc_at r (ps_line p) (ps_char p) = Ret NoDoc.
Proof.
  destruct (process env0 (bs "ec_add BN254_G1")) as [r| |] eqn:E; vm_compute in E; try discriminate. injection E as <-.
  eexists. exists (Pos 0 8). eexists _, _, _. split; [reflexivity|]. split.
  - eexists _, _, _, 0. split; [reflexivity|]. split; [vm_compute; reflexivity|]. split; vm_compute; reflexivity.
  - split; [vm_compute; reflexivity|]. split; [left; eexists; split; vm_compute; reflexivity|vm_compute; reflexivity].
Qed.
Print Assumptions C69_ec_refuted.
Theorem C69_opcode_partial en src r p n : process en src = Ret r -> (0 <= ps_line p)%Z ->
  (forall t rest, line_at_pos r p = Some (t :: rest) -> tok_t t <> TokComment) ->
  (doc_at r (ps_line p) (ps_char p) = Ret (OpDoc n) <-> exists t, In t (r_ops r) /\ under p t /\ tok_v t = n).
Proof. exact (hover_opcode en src r p n). Qed.
Print Assumptions C69_opcode_partial.
Theorem C69_field_partial r p k f : (0 <= ps_line p)%Z ->
  (doc_at r (ps_line p) (ps_char p) = Ret (FieldDoc k f) <->
   exists a t sp, on_operand r p a t /\ oa_type a = k /\ documented k sp /\ denotes sp (tok_v t) f).
Proof. exact (hover_field r p k f). Qed.
Print Assumptions C69_field_partial.
Example C69_ex : match process env0 (lines ["gtxn 0 Sender"; "txn 1"; "int 1"]) with
  | Ret r => doc_at r 0 2 = Ret (OpDoc (bs "gtxn")) /\ doc_at r 0 9 = Ret (FieldDoc ITxnField 0) /\
             doc_at r 1 4 = Ret (FieldDoc ITxnField 1) /\ doc_at r 2 4 = Ret NoDoc
  | _ => False end.
Proof. vm_compute. repeat split. Qed.

(* ---------------------------------------------------------------- C70: completion of opcodes *)
(* Opcodes that applications do not have are offered in every application, and two snippets in every program. *)
Theorem C70_refuted : exists r p l, process env0 [] = Ret r /\ r_mode r = ModeApp /\ typed r p [] /\ completions r p = Ret (CompleteOps l) /\
  In (bs "arg") l /\ avm_version_app "arg" = 0%N /\ In (bs "soc") l /\ ops_get (bs "soc") = None.
Proof.
  destruct (process env0 []) as [r| |] eqn:E; vm_compute in E; try discriminate. injection E as <-.
  eexists. exists (Pos 0 0). eexists. split; [reflexivity|]. split; [reflexivity|]. split; [vm_compute; reflexivity|]. split; [vm_compute; reflexivity|].
  split; [|split; [vm_compute; reflexivity|split; [left; reflexivity|vm_compute; reflexivity]]].
  match goal with |- In _ ?l => assert (mem (bs "arg") l = true) as H by (vm_compute; reflexivity) end. apply mem_In. exact H.
Qed.
Print Assumptions C70_refuted.
Theorem C70_offered_partial r p s : (0 <= ps_line p)%Z -> typed r p s ->
  exists l, completions r p = Ret (CompleteOps (bs "soc" :: bs "func" :: l)) /\
  forall n, In n l <-> exists q, ops_get n = Some q /\ (dc_app (doc_of q) <= r_version r)%N /\ exists w, n = s ++ w.
Proof. exact (completion_ops r p s). Qed.
Print Assumptions C70_offered_partial.
(* Among the opcodes that applications have, exactly those of the version that extend the text. *)
Theorem C70_partial r p s l n : (0 <= ps_line p)%Z -> typed r p s ->
  completions r p = Ret (CompleteOps (bs "soc" :: bs "func" :: l)) -> In n (map fst ops_list) -> ~ In n unlisted ->
  (In (bs n) l <-> (avm_version_app n <= r_version r)%N /\ exists w, bs n = s ++ w).
Proof. exact (completion_published r p s l n). Qed.
Print Assumptions C70_partial.
Example C70_ex : match process env0 (lines ["#pragma version 5"; "itxn"]) with
  | Ret r => typed r (Pos 1 4) (bs "itxn") /\
    match completions r (Pos 1 4) with Ret (CompleteOps l) => mem (bs "itxn_begin") l = true /\ mem (bs "itxn_next") l = false /\ mem (bs "int") l = false | _ => False end
  | _ => False end.
Proof. vm_compute. repeat split; discriminate. Qed.
