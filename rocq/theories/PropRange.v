(* Properties C75 and C76, and what rename is prepared with (C43): answers about a range. *)
From Verif Require Import Base LexSpec Lexer LexerProofs LexerThms DocLines DocProofs Linter Codec Expr OpTable Process ProcessSpec ProcessThms Literals Semantics Query Lsp Edit RoundTripSpec QueryProofs RenameSpec RenameProofs HintSpec HintProofs RangeSpec RangeProofs PropProcess PropLsp PropEdit.
From Coq Require Import Sorted.

(* ---------------------------------------------------------------- C43: what is to be renamed *)
Theorem C43_prepare en src ps r p old new cf uri a :
  Lexes src ps -> strings_on_one_line ps -> process (l_env en) src = Ret r ->
  Forall (fun t => starts_quote (tok_v t) = false) (r_refs r) -> named r p old ->
  answer_query en cf uri src r (QPrepareRename p) = Ret a ->
  exists rg, a = APrepareRename (Some (rg, old)) /\ In (TextEdit rg new) (rename_edits r p new) /\ r_sl rg = ps_line p /\
    forall ls, lines_of src ls -> covers ls rg old.
Proof.
  intros L O E Q N H. destruct (prepare_exact (l_env en) src ps r p old new L O E Q N) as [rg [A B]]. exists rg. split; [|exact B].
  injection H as <-. rewrite A. reflexivity.
Qed.
Print Assumptions C43_prepare.
Theorem C43_prepare_elsewhere en cf uri src r p : (forall n, ~ named r p n) ->
  answer_query en cf uri src r (QPrepareRename p) = Ret (APrepareRename None).
Proof. intros N. cbn [answer_query]. rewrite (prepare_nothing r p N). reflexivity. Qed.
Print Assumptions C43_prepare_elsewhere.
Example C43_prepare_ex : match process env0 looping with
  | Ret r => named r (Pos 5 9) (bs "a") /\
      answer_query len0 (s_config start) doc1 looping r (QPrepareRename (Pos 5 9)) = Ret (APrepareRename (Some (Range 5 9 5 10, bs "a"))) /\
      answer_query len0 (s_config start) doc1 looping r (QPrepareRename (Pos 1 0)) = Ret (APrepareRename (Some (Range 1 0 1 1, bs "a"))) /\
      answer_query len0 (s_config start) doc1 looping r (QPrepareRename (Pos 0 0)) = Ret (APrepareRename None)
  | _ => False end.
Proof.
  destruct (process env0 looping) as [r| |] eqn:E; vm_compute in E; try discriminate. injection E as <-.
  split; [right; eexists; split; [right; right; left; reflexivity|]; vm_compute; repeat split; discriminate|].
  vm_compute. repeat split.
Qed.

(* ---------------------------------------------------------------- C75: inlay hints *)
(* In a range over several lines an operand is left out if it starts behind the last column of the range. *)
Definition two_lines : str := lines ["txn 1"; "b x"].
Theorem C75_refuted : exists r rg t n, process env0 two_lines = Ret r /\ (0 <= r_sl rg)%Z /\ proper rg /\
  names_field r t n /\ touches rg t /\
  answer_query len0 (s_config start) doc1 two_lines r (QInlayHint rg) = Ret (AInlayHint []).
Proof.
  destruct (process env0 two_lines) as [r| |] eqn:E; vm_compute in E; try discriminate. injection E as <-.
  eexists. exists (Range 0 0 1 2), (Token (bs "1") 0 4 5 TokValue), (bs "Fee"). split; [reflexivity|]. split; [cbn; discriminate|]. split; [left; reflexivity|].
  split.
  { exists ITxnField. do 3 eexists. split; [do 5 eexists; split; [exact (eq_refl (Some (_ :: [] ++ _ :: []))) |]; split; [reflexivity|]; split; reflexivity|].
    split; [reflexivity|]. split; [exact (eq_refl (Some (Z.of_nat 1)))|]. split; [reflexivity|]. split; [reflexivity|]. split; [reflexivity|discriminate]. }
  split; [|vm_compute; reflexivity].
  exists 0%Z, 4%Z. unfold in_range, tok_range. cbn. split; (split; [right; split; [reflexivity|discriminate]|]); [left; reflexivity|right; split; [reflexivity|discriminate]].
Qed.
Print Assumptions C75_refuted.

Theorem C75_partial en cf uri src r rg : process (l_env en) src = Ret r -> (0 <= r_sl rg)%Z -> proper rg -> exists ns ds,
  answer_query en cf uri src r (QInlayHint rg) = Ret (AInlayHint (
    (if c_named cf then map (fun x => (behind (fst x), snd x)) ns else []) ++ (if c_decoded cf then map (fun x => (behind (fst x), snd x)) ds else []))) /\
  StronglySorted before (map fst ns) /\ StronglySorted before (map fst ds) /\
  (forall t n, In (t, n) ns -> names_field r t n /\ touches rg t) /\ (forall t w, In (t, w) ds -> decodes r t w /\ touches rg t) /\
  (single_line rg -> (forall t n, names_field r t n -> touches rg t -> In (t, n) ns) /\ (forall t w, decodes r t w -> touches rg t -> In (t, w) ds)).
Proof. intros E. exact (hint_answer (l_env en) src r E en cf uri rg). Qed.
Print Assumptions C75_partial.
Definition hinted_text : str := lines ["txn 1"; "byte 0x4142"; "gtxn 0 7 // 1"].
Example C75_ex : match process env0 hinted_text with
  | Ret r => let ask cf rg := answer_query len0 cf doc1 hinted_text r (QInlayHint rg) in
      ask (Config true true true true) (Range 1 0 1 20) = Ret (AInlayHint [(Pos 1 11, bs "AB")]) /\
      ask (Config true true true true) (Range 0 0 2 20) = Ret (AInlayHint [(Pos 0 5, bs "Fee"); (Pos 2 8, bs "Receiver"); (Pos 1 11, bs "AB")]) /\
      ask (Config true false true true) (Range 0 0 2 20) = Ret (AInlayHint [(Pos 1 11, bs "AB")]) /\
      ask (Config true true true true) (Range 2 0 2 6) = Ret (AInlayHint [])
  | _ => False end.
Proof. vm_compute. repeat split. Qed.

(* ---------------------------------------------------------------- C76: quick fixes *)
Theorem C76_refuted : exists r rg a, process env0 two_lines = Ret r /\ (0 <= r_sl rg)%Z /\ proper rg /\
  fix_for r rg a /\ answer_query len0 (s_config start) doc1 two_lines r (QCodeAction rg) = Ret (ACodeAction doc1 []).
Proof.
  destruct (process env0 two_lines) as [r| |] eqn:E; vm_compute in E; try discriminate. injection E as <-.
  eexists. exists (Range 0 6 1 2). eexists. split; [reflexivity|]. split; [cbn; discriminate|]. split; [left; reflexivity|].
  split; [|vm_compute; reflexivity]. apply (Fix_label _ _ (Token (bs "x") 1 2 3 TokValue)); [left; reflexivity|intros s []|].
  exists 1%Z, 2%Z. unfold in_range, tok_range. cbn. split; (split; [|right; split; [reflexivity|discriminate]]); [left; reflexivity|right; split; [reflexivity|discriminate]].
Qed.
Print Assumptions C76_refuted.

Theorem C76_partial en cf uri src r rg : process (l_env en) src = Ret r -> (0 <= r_sl rg)%Z -> proper rg -> exists acts,
  answer_query en cf uri src r (QCodeAction rg) = Ret (ACodeAction uri acts) /\
  (forall a, In a acts -> fix_for r rg a) /\ (single_line rg -> forall a, fix_for r rg a -> In a acts).
Proof. intros E. exact (action_answer (l_env en) src r E en cf uri rg). Qed.
Print Assumptions C76_partial.
Definition fixable : str := lines ["#pragma version 4"; "b x"; "txn 1"; "byte 0x41"; "box_get"; "b next"; "next:"; "int 1"; "y:"].
Example C76_ex : match process env0 fixable with
  | Ret r => let ask l := answer_query len0 (s_config start) doc1 fixable r (QCodeAction (Range l 0 l 9)) in
      ask 1%Z = Ret (ACodeAction doc1 [FixCreateLabel (bs "x")]) /\
      ask 2%Z = Ret (ACodeAction doc1 [FixReplace (Range 2 4 2 5) (bs "Fee")]) /\
      ask 3%Z = Ret (ACodeAction doc1 [FixReplace (Range 3 5 3 9) (bs """A""")]) /\
      ask 4%Z = Ret (ACodeAction doc1 [FixVersion 8]) /\
      ask 5%Z = Ret (ACodeAction doc1 [FixRemoveLine 5]) /\
      ask 7%Z = Ret (ACodeAction doc1 []) /\
      ask 8%Z = Ret (ACodeAction doc1 [FixRemoveLine 8])
  | _ => False end.
Proof. vm_compute. repeat split. Qed.
