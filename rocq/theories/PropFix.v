(* Properties C71 to C74: the quick fixes that edit lines, and formatting. *)
From Verif Require Import Base LexSpec Lexer LexerProofs LexerThms DocLines DocProofs Codec Expr Flow FlowProofs Linter LintSpec LinterThms OpTable Process ProcessSpec ProcessThms Semantics Query Lsp LspSpec Edit RoundTripSpec QueryProofs EditProofs FixProofs FixVersion FixCommands PropProcess PropLsp PropEdit.

Definition one_per_line (src : str) : Prop := exists ps, Lexes src ps /\ strings_on_one_line ps /\ forall w, ~ In (POpen w) ps.
Lemma unquoted_one s : ~ In c_quote s -> one_per_line s.
Proof.
  intros N. destruct (unquoted_lines s N) as [ps [L O]]. exists ps. split; [exact L|]. split; [exact O|]. intros w I. apply N.
  rewrite <- (lexes_text _ _ L). apply in_concat. exists (piece_text (POpen w)). split; [apply in_map; exact I|left; reflexivity].
Qed.

(* ---------------------------------------------------------------- C71: removing a redundant line *)
(* A string over two lines: the lines of the tokens are not the lines of the editor. *)
Definition two_line_string : str := bs "byte ""x" ++ [c_lf] ++ bs "y""" ++ [c_lf] ++ lines ["b l"; "l:"; "return"].
Theorem C71_refuted : exists src r r' rg acts i, process env0 src = Ret r /\ unique_labels (r_listing r) /\
  filter is_surplus_diag (r_diag r) = [] /\ code_actions r rg = Ret acts /\ In (FixRemoveLine i) acts /\
  process env0 (apply_edits (remove_line i) src) = Ret r' /\ ~ same_behaviour (r_listing r) (r_listing r').
Proof.
  exists two_line_string. destruct (process env0 two_line_string) as [r| |] eqn:E; vm_compute in E; try discriminate. injection E as <-.
  destruct (process env0 (apply_edits (remove_line 1) two_line_string)) as [r'| |] eqn:E; vm_compute in E; try discriminate. injection E as <-.
  do 2 eexists. exists (Range 0 0 9 0). do 2 eexists. split; [reflexivity|]. split.
  { intros i j n A B. cbn [r_listing] in A, B. unfold defines in A, B.
    destruct i as [|[|[|[|[|i]]]]]; try discriminate A; destruct j as [|[|[|[|[|j]]]]]; try discriminate B; reflexivity. }
  split; [reflexivity|]. split; [vm_compute; reflexivity|]. split; [left; reflexivity|]. split; [vm_compute; reflexivity|].
  cbn [r_listing]. intros H. match type of H with same_behaviour (?b :: _) _ => specialize (H [(b, 0); (ReturnExpr, 0)]) as [[H _] _] end.
  destruct H as [c H].
  - exists Halted. eapply run_event; [apply F_plain; [reflexivity|repeat split; discriminate]|]. eapply run_quiet; [eapply F_b; [reflexivity|apply (goto_def _ _ _ 2); reflexivity]|].
    eapply run_quiet; [eapply F_silent; [reflexivity|constructor]|]. eapply run_event; [eapply F_return; reflexivity|]. apply run_refl.
  - destruct (may_do_line _ _ (ReturnExpr, 0) (ex_intro _ c H)) as [i [_ Hi]]; [right; left; reflexivity|]. destruct i as [|[|i]]; [discriminate Hi|discriminate Hi|destruct i; discriminate Hi].
Qed.
Print Assumptions C71_refuted.
(* Surplus operands shift the listing: the fix then removes another line, and the next check panics. *)
Theorem C71_surplus_refuted : exists src r rg acts i, one_per_line src /\ process env0 src = Ret r /\ code_actions r rg = Ret acts /\ In (FixRemoveLine i) acts /\
  process env0 (apply_edits (remove_line i) src) = Panic.
Proof.
  exists (lines ["int 1 2"; "int 1 2"; "b l"; "l:"; "return"]).
  destruct (process env0 (lines ["int 1 2"; "int 1 2"; "b l"; "l:"; "return"])) as [r| |] eqn:E; vm_compute in E; try discriminate. injection E as <-.
  eexists. exists (Range 0 0 9 0). do 2 eexists. split; [apply unquoted_one; vm_compute; intros H; repeat (destruct H as [H|H]; [discriminate H|]); exact H|].
  split; [reflexivity|]. split; [vm_compute; reflexivity|]. split; [left; reflexivity|]. vm_compute. reflexivity.
Qed.
Print Assumptions C71_surplus_refuted.

Theorem C71_partial en src ps r rg acts i : Lexes src ps -> strings_on_one_line ps -> process en src = Ret r ->
  filter is_surplus_diag (r_diag r) = [] -> unique_labels (r_listing r) ->
  code_actions r rg = Ret acts -> In (FixRemoveLine i) acts ->
  exists r', process en (apply_edits (remove_line i) src) = Ret r' /\ same_behaviour (r_listing r) (r_listing r') /\ unique_labels (r_listing r').
Proof. exact (remove_line_safe en src ps r rg acts i). Qed.
Print Assumptions C71_partial.
(* the edit takes one line out of the program; with a lone CR it may join with an empty line behind it *)
Theorem C71_line_partial en src ps r i l : Lexes src ps -> strings_on_one_line ps -> process en src = Ret r ->
  filter is_surplus_diag (r_diag r) = [] -> nth_error (r_lines r) i = Some l -> no_pragma l ->
  exists r', process en (apply_edits (remove_line i) src) = Ret r' /\
    (r_listing r' = delete_line i (r_listing r) \/
     In (PEol [c_cr]) ps /\ nth_error (r_listing r) (S i) = Some EmptyExpr /\ r_listing r' = delete_line i (delete_line i (r_listing r))).
Proof. exact (remove_line_listing en src ps r i l). Qed.
Print Assumptions C71_line_partial.
Theorem C71_command en es s out uri t i : run en start es = Ret (s, out) -> s_exit s = false -> s_shutdown s = false ->
  latest uri es = Some t -> sent en s (LineRemove (Some [(uri, Z.of_nat i)])) uri (remove_line i).
Proof. exact (fun A B C D => line_remove_sent en es s out uri t A B C D i). Qed.
Print Assumptions C71_command.

Definition detour : str := lines ["#pragma version 8"; "int 1"; "b l // next"; "l:"; "return"].
Example C71_ex : one_per_line detour /\
  match process env0 detour with
  | Ret r => filter is_surplus_diag (r_diag r) = [] /\ code_actions r (Range 2 0 2 0) = Ret [FixRemoveLine 2] /\
      apply_edits (remove_line 2) detour = lines ["#pragma version 8"; "int 1"; "l:"; "return"] /\
      exists l, nth_error (r_lines r) 2 = Some l /\ no_pragma l
  | _ => False end.
Proof.
  split; [apply unquoted_one; vm_compute; intros H; repeat (destruct H as [H|H]; [discriminate H|]); exact H|].
  destruct (process env0 detour) as [r| |] eqn:E; vm_compute in E; try discriminate. injection E as <-.
  split; [reflexivity|]. split; [vm_compute; reflexivity|]. split; [vm_compute; reflexivity|]. eexists. split; [reflexivity|]. vm_compute. intros. discriminate.
Qed.
(* sent to an editor *)
Example C71_command_ex : outputs [open_ detour; said 1 (ExecuteCommand (Params (LineRemove (Some [(doc1, 2%Z)]))))] =
  Ret [ApplyEdit (bs "1") doc1 [TextEdit (Range 2 0 3 0) []]].
Proof. vm_compute. reflexivity. Qed.

(* ---------------------------------------------------------------- C72: creating a missing label *)
(* The name of a quoted operand cannot be a label: the fix leaves the reference without target. *)
Theorem C72_refuted : exists src r r' rg acts name, process env0 src = Ret r /\ code_actions r rg = Ret acts /\ In (FixCreateLabel name) acts /\
  process env0 (apply_edits (create_label r name) src) = Ret r' /\ In name (map tok_v (r_miss r')).
Proof.
  exists (lines ["b ""x"""]). destruct (process env0 (lines ["b ""x"""])) as [r| |] eqn:E; vm_compute in E; try discriminate. injection E as <-.
  do 2 eexists. exists (Range 0 0 9 9). do 2 eexists. split; [reflexivity|]. split; [vm_compute; reflexivity|]. split; [left; reflexivity|]. split; [vm_compute; reflexivity|]. left. reflexivity.
Qed.
Print Assumptions C72_refuted.
(* In a document with a string that is not closed, or that runs over a line end, the label ends up in the string. *)
Theorem C72_open_refuted : exists src r r' rg acts name, process env0 src = Ret r /\ code_actions r rg = Ret acts /\ In (FixCreateLabel name) acts /\
  is_word name = true /\ process env0 (apply_edits (create_label r name) src) = Ret r' /\ In name (map tok_v (r_miss r')).
Proof.
  pose (d := bs "b x" ++ [c_lf] ++ bs "byte """ ++ [c_lf] ++ bs "y""").
  exists d. destruct (process env0 d) as [r| |] eqn:E; vm_compute in E; try discriminate. injection E as <-.
  do 2 eexists. exists (Range 0 0 9 9). do 2 eexists. split; [reflexivity|]. split; [vm_compute; reflexivity|]. split; [left; reflexivity|]. split; [reflexivity|]. split; [vm_compute; reflexivity|]. left. reflexivity.
Qed.
Print Assumptions C72_open_refuted.

Theorem C72_partial en src ps r name : Lexes src ps -> strings_on_one_line ps -> (forall w, ~ In (POpen w) ps) -> process en src = Ret r ->
  filter is_surplus_diag (r_diag r) = [] -> is_word name = true ->
  exists r' pre, process en (apply_edits (create_label r name) src) = Ret r' /\ (pre = [] \/ pre = [EmptyExpr]) /\
    r_listing r' = r_listing r ++ pre ++ [LabelExpr name] /\
    map sy_name (r_syms r') = map sy_name (r_syms r) ++ [name] /\ map tok_v (r_refs r') = map tok_v (r_refs r) /\
    map tok_v (r_miss r') = filter (fun v => negb (seqb v name)) (map tok_v (r_miss r)).
Proof. exact (create_label_result en src ps r name). Qed.
Print Assumptions C72_partial.
(* the fix is offered for missing labels, and these are words unless they are quoted *)
Theorem C72_offered en src r rg acts name : process en src = Ret r -> code_actions r rg = Ret acts -> In (FixCreateLabel name) acts ->
  In name (map tok_v (r_miss r)) /\ (starts_quote name = false -> is_word name = true).
Proof. exact (offered_label en src r rg acts name). Qed.
Print Assumptions C72_offered.
Theorem C72_command en es s out uri t r name : run en start es = Ret (s, out) -> s_exit s = false -> s_shutdown s = false ->
  latest uri es = Some t -> process (l_env en) t = Ret r -> sent en s (LabelCreate (Some [(uri, name)])) uri (create_label r name).
Proof. exact (fun A B C D E => label_create_sent en es s out uri t r A B C D E name). Qed.
Print Assumptions C72_command.

Definition undefined : str := lines ["#pragma version 8"; "b x"; "bz y"] ++ bs " " ++ [c_lf] ++ bs "b x".
Example C72_ex : one_per_line undefined /\
  match process env0 undefined with
  | Ret r => filter is_surplus_diag (r_diag r) = [] /\ code_actions r (Range 1 0 1 9) = Ret [FixCreateLabel (bs "x")] /\
      apply_edits (create_label r (bs "x")) undefined = undefined ++ [c_cr; c_lf] ++ bs "x:" ++ [c_cr; c_lf] /\
      map tok_v (r_miss r) = [bs "x"; bs "y"; bs "x"] /\
      match process env0 (apply_edits (create_label r (bs "x")) undefined) with
      | Ret r' => map tok_v (r_miss r') = [bs "y"] /\ r_listing r' = r_listing r ++ [LabelExpr (bs "x")]
      | _ => False end
  | _ => False end.
Proof.
  split; [apply unquoted_one; vm_compute; intros H; repeat (destruct H as [H|H]; [discriminate H|]); exact H|].
  vm_compute. repeat split.
Qed.

(* ---------------------------------------------------------------- C73: changing the version *)
(* Only the last pragma is changed: an opcode between two pragmas keeps its problem. *)
Theorem C73_refuted : exists src r r' rg acts v, one_per_line src /\ process env0 src = Ret r /\ code_actions r rg = Ret acts /\ In (FixVersion v) acts /\
  process env0 (apply_edits (update_version r v) src) = Ret r' /\ exists q, In q (r_vers r') /\ (rq_version q <= v)%N.
Proof.
  pose (d := lines ["#pragma version 1"; "addw"; "#pragma version 2"]).
  exists d. destruct (process env0 d) as [r| |] eqn:E; vm_compute in E; try discriminate. injection E as <-.
  do 2 eexists. exists (Range 0 0 9 9). do 2 eexists. split; [apply unquoted_one; vm_compute; intros H; repeat (destruct H as [H|H]; [discriminate H|]); exact H|].
  split; [reflexivity|]. split; [vm_compute; reflexivity|]. split; [left; reflexivity|]. split; [vm_compute; reflexivity|]. eexists. split; [left; reflexivity|]. vm_compute. discriminate.
Qed.
Print Assumptions C73_refuted.

(* with the pragmas in front: the version is the one asked for, and what is still reported needs a newer one *)
Theorem C73_partial en src ps r v r' : Lexes src ps -> strings_on_one_line ps -> process en src = Ret r -> versions_first (r_lines r) -> (0 < v < 2 ^ 64)%N ->
  process en (apply_edits (update_version r v) src) = Ret r' ->
  r_version r' = v /\ map rq_version (r_vers r') = filter (fun d => (v <? d)%N) (demands ModeApp (r_lines r)).
Proof. exact (update_version_result en src ps r v r'). Qed.
Print Assumptions C73_partial.
Theorem C73_command en es s out uri t r v : run en start es = Ret (s, out) -> s_exit s = false -> s_shutdown s = false ->
  latest uri es = Some t -> process (l_env en) t = Ret r -> sent en s (VersionUpdate (Some [(uri, v)])) uri (update_version r v).
Proof. exact (fun A B C D E => version_update_sent en es s out uri t r A B C D E v). Qed.
Print Assumptions C73_command.

Definition old_program : str := lines ["// old"; "#pragma  version 3 // three"; "int 1"; "box_del"; "bzero"].
Example C73_ex : one_per_line old_program /\
  match process env0 old_program with
  | Ret r => versions_first (r_lines r) /\ demands ModeApp (r_lines r) = [1; 8; 4]%N /\
      code_actions r (Range 3 0 3 9) = Ret [FixVersion 8] /\
      apply_edits (update_version r 8) old_program = lines ["// old"; "#pragma  version 8 // three"; "int 1"; "box_del"; "bzero"] /\
      match process env0 (apply_edits (update_version r 4) old_program) with
      | Ret r' => r_version r' = 4%N /\ map rq_version (r_vers r') = [8]%N
      | _ => False end
  | _ => False end.
Proof.
  split; [apply unquoted_one; vm_compute; intros H; repeat (destruct H as [H|H]; [discriminate H|]); exact H|].
  destruct (process env0 old_program) as [r| |] eqn:E; vm_compute in E; try discriminate. injection E as <-. split; [|vm_compute; repeat split].
  cbn [r_lines]. match goal with |- versions_first [?a; ?b; ?c; ?d; ?e] => exists [a; b], [c; d; e] end.
  split; [reflexivity|]. split; intros l [<-|[<-|H]]; try reflexivity; [destruct H|destruct H as [<-|[]]; reflexivity].
Qed.
Example C73_none_ex : match process env0 (lines ["bzero"]) with
  | Ret r => apply_edits (update_version r 4) (lines ["bzero"]) = bs "#pragma version 4" ++ [c_cr; c_lf] ++ lines ["bzero"]
  | _ => False end.
Proof. vm_compute. reflexivity. Qed.

(* ---------------------------------------------------------------- C74: formatting *)
(* Blanks on a last line without tokens stay behind the formatted text. *)
Theorem C74_refuted : exists en src r e, one_per_line src /\ process (l_env en) src = Ret r /\
  answer_query en (s_config start) doc1 src r QFormatting = Ret (AFormatting e) /\ apply_edits [e] src <> l_format en src.
Proof.
  exists len0, (lines ["int 1"] ++ bs " "). destruct (process (l_env len0) (lines ["int 1"] ++ bs " ")) as [r| |] eqn:E; vm_compute in E; try discriminate. injection E as <-.
  do 2 eexists. split; [apply unquoted_one; vm_compute; intros H; repeat (destruct H as [H|H]; [discriminate H|]); exact H|].
  split; [reflexivity|]. split; [reflexivity|]. vm_compute. discriminate.
Qed.
Print Assumptions C74_refuted.

Theorem C74_partial en src ps r cf uri a : Lexes src ps -> strings_on_one_line ps -> (forall w, ~ In (POpen w) ps) -> process (l_env en) src = Ret r ->
  answer_query en cf uri src r QFormatting = Ret a ->
  exists e body tail, a = AFormatting e /\ src = body ++ tail /\ (body = [] \/ exists u c, body = u ++ [c] /\ is_eolc c) /\ one_line tail /\
    ((Forall is_blank tail /\ apply_edits [e] src = l_format en src ++ tail) \/ (~ Forall is_blank tail /\ apply_edits [e] src = l_format en src)).
Proof. exact (formatting_result en src ps r cf uri a). Qed.
Print Assumptions C74_partial.
Example C74_ex : match process env0 (lines ["int  1"; "pop"]) with
  | Ret r => apply_edits [TextEdit (Range 0 0 2 0) (bs "new")] (lines ["int  1"; "pop"]) = bs "new" /\
      answer_query (Lenv env0 (fun _ => bs "new")) (s_config start) doc1 (lines ["int  1"; "pop"]) r QFormatting = Ret (AFormatting (TextEdit (Range 0 0 2 0) (bs "new")))
  | _ => False end.
Proof. vm_compute. split; reflexivity. Qed.
