(* Property C95: removing a label. *)
From Verif Require Import Base LexSpec Lexer LexerProofs LexerThms DocLines DocProofs Codec Expr Linter OpTable Process ProcessSpec ProcessThms Semantics Query Lsp LspSpec Edit RoundTripSpec QueryProofs EditProofs FixCommands RemoveSpec RemoveProofs PropProcess PropLsp PropEdit PropFix.

(* What follows a label on its line is not read.  Without the label it is code. *)
Definition crowded : str := lines ["#pragma version 8"; "int 1"; "bnz x"; "err"; "x: err"; "int 1"; "return"].
Theorem C95_refuted : exists src r r' name, one_per_line src /\ ~ In c_cr src /\ process env0 src = Ret r /\ r_diag r = [] /\
  process env0 (apply_edits (remove_label r name) src) = Ret r' /\
  nth_error (map (unlabel name) (r_listing r)) 4 = Some EmptyExpr /\ nth_error (r_listing r') 4 = Some ErrExpr.
Proof.
  exists crowded. destruct (process env0 crowded) as [r| |] eqn:E; [|exfalso; vm_compute in E; discriminate E..].
  assert (D : r_diag r = []) by (apply (f_equal (mapr r_diag)) in E; vm_compute in E; injection E as E; auto).
  assert (L : r_listing r = [PragmaExpr 8; IntExpr 1; BnzExpr (bs "x"); ErrExpr; LabelExpr (bs "x"); IntExpr 1; ReturnExpr]) by (apply (f_equal (mapr r_listing)) in E; vm_compute in E; injection E as E; auto).
  assert (R : remove_label r (bs "x") = [TextEdit (Range 4 0 4 2) []]) by (apply (f_equal (mapr (fun r => remove_label r (bs "x")))) in E; vm_compute in E; injection E as E; auto).
  destruct (process env0 (apply_edits (remove_label r (bs "x")) crowded)) as [r'| |] eqn:E'; rewrite R in E'; [|exfalso; vm_compute in E'; discriminate E'..].
  exists r, r', (bs "x"). rewrite R, L. split; [apply unquoted_one; vm_compute; intros H; repeat (destruct H as [H|H]; [discriminate H|]); exact H|].
  split; [vm_compute; intros H; repeat (destruct H as [H|H]; [discriminate H|]); exact H|].
  split; [reflexivity|]. split; [exact D|]. split; [exact E'|]. split; [reflexivity|].
  apply (f_equal (mapr r_listing)) in E'. vm_compute in E'. injection E' as E'.
  assert (X : r_listing r' = [PragmaExpr 8; IntExpr 1; BnzExpr (bs "x"); ErrExpr; ErrExpr; IntExpr 1; ReturnExpr]) by auto. rewrite X. reflexivity.
Qed.
Print Assumptions C95_refuted.
(* A label between a lone carriage return and a line feed holds the two apart: without it they are one line end, and a line is lost. *)
Definition mixed_ends : str := bs "int 1" ++ [c_cr] ++ bs "x:" ++ [c_lf] ++ bs "return".
Theorem C95_ends_refuted : exists src r r' name, one_per_line src /\ process env0 src = Ret r /\ stands_alone name (r_lines r) /\
  process env0 (apply_edits (remove_label r name) src) = Ret r' /\ length (r_listing r) = 3 /\ length (r_listing r') = 2 /\
  last (r_listing r') EmptyExpr = ReturnExpr.
Proof.
  exists mixed_ends. destruct (process env0 mixed_ends) as [r| |] eqn:E; [|exfalso; vm_compute in E; discriminate E..].
  assert (S : map (@length token) (r_lines r) = [2; 1; 1]) by (apply (f_equal (mapr (fun r => map (@length token) (r_lines r)))) in E; vm_compute in E; injection E as E; auto).
  assert (K0 : map (fun l => match kind_of l with LLabel _ => true | _ => false end) (firstn 1 (r_lines r)) = [false]).
  { apply (f_equal (mapr (fun r => map (fun l => match kind_of l with LLabel _ => true | _ => false end) (firstn 1 (r_lines r))))) in E. vm_compute in E. injection E as E; auto. }
  assert (L : length (r_listing r) = 3) by (apply (f_equal (mapr (fun r => length (r_listing r)))) in E; vm_compute in E; injection E as E; auto).
  assert (R : remove_label r (bs "x") = [TextEdit (Range 1 0 1 2) []]) by (apply (f_equal (mapr (fun r => remove_label r (bs "x")))) in E; vm_compute in E; injection E as E; auto).
  destruct (process env0 (apply_edits (remove_label r (bs "x")) mixed_ends)) as [r'| |] eqn:E'; rewrite R in E'; [|exfalso; vm_compute in E'; discriminate E'..].
  exists r, r', (bs "x"). rewrite R. split; [apply unquoted_one; vm_compute; intros H; repeat (destruct H as [H|H]; [discriminate H|]); exact H|].
  split; [reflexivity|]. split.
  { intros l I Kl. destruct (r_lines r) as [|a [|b [|c [|? ?]]]]; try discriminate S. cbn in S. injection S as Sa Sb Sc. cbn in K0, I.
    destruct I as [<-|[<-|[<-|[]]]]; [|exact Sb|exact Sc]. rewrite Kl in K0. discriminate K0. }
  split; [exact E'|]. split; [exact L|].
  apply (f_equal (mapr r_listing)) in E'. vm_compute in E'. injection E' as E'.
  assert (X : r_listing r' = [IntExpr 1; ReturnExpr]) by auto. rewrite X. split; reflexivity.
Qed.
Print Assumptions C95_ends_refuted.

(* The command sends the deletion of the tokens that define the label, and of nothing else. *)
Theorem C95_command en es s out uri t r name : run en start es = Ret (s, out) -> s_exit s = false -> s_shutdown s = false ->
  latest uri es = Some t -> process (l_env en) t = Ret r -> name <> [] ->
  sent en s (LabelRemove (Some [(uri, name)])) uri (map delete_token (label_tokens name (r_lines r))).
Proof.
  intros A B C D E N. rewrite <- (def_of_tokens name _ N), <- (remove_edits _ _ _ name E). exact (label_remove_sent en es s out uri t r name A B C D E).
Qed.
Print Assumptions C95_command.

(* With nothing but comments behind the label, and no lone carriage returns, the label is gone from the
   listing and everything else stays.  A label that ends the text takes its line along. *)
Theorem C95_partial en src ps r name : process en src = Ret r -> Lexes src ps -> strings_on_one_line ps -> ~ In (PEol [c_cr]) ps ->
  filter is_surplus_diag (r_diag r) = [] -> name <> [] -> stands_alone name (r_lines r) ->
  exists r', process en (apply_edits (map delete_token (label_tokens name (r_lines r))) src) = Ret r' /\
    (r_listing r' = map (unlabel name) (r_listing r) \/ r_listing r' ++ [EmptyExpr] = map (unlabel name) (r_listing r)) /\
    map sy_name (r_syms r') = filter (fun n => negb (seqb n name)) (map sy_name (r_syms r)) /\
    map tok_v (r_refs r') = map tok_v (r_refs r).
Proof.
  intros P L O C S N A. rewrite <- (def_of_tokens name _ N), <- (remove_edits _ _ _ name P). exact (remove_label_result en src r ps name P L O C S N A).
Qed.
Print Assumptions C95_partial.

Definition labelled_doc : str := lines ["#pragma version 8"; "b y"; "x: // old"; "y:"; "int 1"; "  x:"; "return"] ++ bs "x:".
Definition unlabelled_doc : str := lines ["#pragma version 8"; "b y"; " // old"; "y:"; "int 1"; "  "; "return"].
Example C95_ex : one_per_line labelled_doc /\ ~ In c_cr labelled_doc /\
  match process env0 labelled_doc with
  | Ret r => filter is_surplus_diag (r_diag r) = [] /\
      forallb (fun l => match kind_of l with LLabel _ => length l =? 1 | _ => true end) (r_lines r) = true /\
      map te_range (map delete_token (label_tokens (bs "x") (r_lines r))) = [Range 2 0 2 2; Range 5 2 5 4; Range 7 0 7 2] /\
      apply_edits (map delete_token (label_tokens (bs "x") (r_lines r))) labelled_doc = unlabelled_doc /\
      match process env0 unlabelled_doc with
      | Ret r' => r_listing r' ++ [EmptyExpr] = map (unlabel (bs "x")) (r_listing r) /\ map sy_name (r_syms r') = [bs "y"]
      | _ => False end
  | _ => False end.
Proof.
  split; [apply unquoted_one; vm_compute; intros H; repeat (destruct H as [H|H]; [discriminate H|]); exact H|].
  split; [vm_compute; intros H; repeat (destruct H as [H|H]; [discriminate H|]); exact H|].
  vm_compute. repeat split.
Qed.
Example C95_command_ex : outputs [open_ crowded; said 1 (ExecuteCommand (Params (LabelRemove (Some [(doc1, bs "x")]))))] =
  Ret [ApplyEdit (bs "1") doc1 [TextEdit (Range 4 0 4 2) []]].
Proof. vm_compute. reflexivity. Qed.
