(* Properties C43, C46 and C47: edits that keep the program. *)
From Verif Require Import Base LexSpec Lexer LexerProofs LexerThms DocLines DocProofs Codec Expr OpTable Process ProcessSpec ProcessThms Literals Semantics Query Lsp Edit RoundTripSpec QueryProofs RenameSpec RenameProofs HintSpec HintProofs PropProcess PropLsp.
From Coq Require Import Sorted.

(* a document without quotes has no string over several lines *)
Lemma unquoted_lines s : ~ In c_quote s -> exists ps, Lexes s ps /\ strings_on_one_line ps.
Proof.
  intros N. destruct (lexes_exists s) as [ps L]. exists ps. split; [exact L|]. intros w H. exfalso. apply N.
  rewrite <- (lexes_text _ _ L). apply in_concat. 
  destruct H as [H|H]; [exists (piece_text (PString w))|exists (piece_text (POpen w))]; (split; [apply in_map; exact H|left; reflexivity]).
Qed.

(* ---------------------------------------------------------------- C43: rename *)
(* Two references may touch if they are quoted; between them every edit is sent twice. *)
Theorem C43_refuted : exists src r p new, process env0 src = Ret r /\ is_word new = true /\
  ~ ForallOrdPairs (fun a b => separate (te_range a) (te_range b)) (rename_edits r p new).
Proof.
  exists (bs "switch ""a""""a"""). destruct (process env0 (bs "switch ""a""""a""")) as [r| |] eqn:E; vm_compute in E; try discriminate. injection E as <-.
  eexists. exists (Pos 0 10), (bs "b"). split; [reflexivity|]. split; [reflexivity|].
  intros H. vm_compute in H. inversion H as [|? ? F _]; subst. inversion F as [|? ? _ F']; subst. inversion F' as [|? ? S _]; subst.
  unfold separate in S. cbn in S. destruct S as [S|[S|S]]; apply S; reflexivity.
Qed.
Print Assumptions C43_refuted.

Theorem C43_partial en src ps r p old new :
  Lexes src ps -> strings_on_one_line ps -> process en src = Ret r ->
  Forall (fun t => starts_quote (tok_v t) = false) (r_refs r) -> is_word new = true -> named r p old ->
  (forall e, In e (rename_edits r p new) <-> te_text e = new /\
     ((exists s, In s (r_syms r) /\ sy_name s = old /\ te_range e = name_range s) \/
      (exists t, In t (r_refs r) /\ tok_v t = old /\ te_range e = tok_range t))) /\
  length (rename_edits r p new) = length (filter (fun s => seqb (sy_name s) old) (r_syms r)) + length (filter (fun t => seqb (tok_v t) old) (r_refs r)) /\
  ForallOrdPairs (fun a b => separate (te_range a) (te_range b)) (rename_edits r p new) /\
  (forall ls e, lines_of src ls -> In e (rename_edits r p new) -> covers ls (te_range e) old) /\
  (filter is_surplus_diag (r_diag r) = [] -> exists r', process en (apply_edits (rename_edits r p new) src) = Ret r') /\
  (forall r', process en (apply_edits (rename_edits r p new) src) = Ret r' ->
     r_listing r' = map (rename_expr (ren old new)) (r_listing r) /\
     map sy_name (r_syms r') = map (ren old new) (map sy_name (r_syms r)) /\
     map tok_v (r_refs r') = map (ren old new) (map tok_v (r_refs r))).
Proof. exact (rename_exact en src ps r p old new). Qed.
Print Assumptions C43_partial.

(* elsewhere nothing is edited *)
Theorem C43_elsewhere r p new : (forall n, ~ named r p n) -> rename_edits r p new = [].
Proof. exact (rename_nothing r p new). Qed.
Print Assumptions C43_elsewhere.

Definition looping : str := lines ["int 1"; "a:"; "b a // a"; "a: "; "int 0"; "switch c a a"].
Example C43_ex : (exists ps, Lexes looping ps /\ strings_on_one_line ps) /\
  match process env0 looping with
  | Ret r => Forall (fun t => starts_quote (tok_v t) = false) (r_refs r) /\ named r (Pos 5 9) (bs "a") /\
      filter is_surplus_diag (r_diag r) = [] /\
      apply_edits (rename_edits r (Pos 5 9) (bs "loop")) looping = lines ["int 1"; "loop:"; "b loop // a"; "loop: "; "int 0"; "switch c loop loop"] /\
      rename_edits r (Pos 4 1) (bs "loop") = []
  | _ => False end.
Proof.
  split; [apply unquoted_lines; vm_compute; intros H; repeat (destruct H as [H|H]; [discriminate H|]); exact H|].
  destruct (process env0 looping) as [r| |] eqn:E; vm_compute in E; try discriminate. injection E as <-.
  split; [repeat constructor|]. split; [right; eexists; split; [right; right; left; reflexivity|]; vm_compute; repeat split; discriminate|].
  vm_compute. repeat split.
Qed.

(* ---------------------------------------------------------------- C46: named values *)
(* The hint ignores the version of the document. *)
Theorem C46_refuted : exists src r r' rg hs t n, process env0 src = Ret r /\ inlay_hints r rg = Ret hs /\ In (t, n) (fst hs) /\
  process env0 (apply_edits (replace_token t n) src) = Ret r' /\ r_listing r' <> r_listing r.
Proof.
  exists (bs "txn 3"). destruct (process env0 (bs "txn 3")) as [r| |] eqn:E; vm_compute in E; try discriminate. injection E as <-.
  destruct (process env0 (bs "txn FirstValidTime")) as [r'| |] eqn:E; vm_compute in E; try discriminate. injection E as <-.
  do 2 eexists. exists (Range 0 0 0 9). do 3 eexists. split; [reflexivity|]. split; [reflexivity|]. split; [left; reflexivity|].
  split; [vm_compute; reflexivity|]. vm_compute. discriminate.
Qed.
Print Assumptions C46_refuted.
(* It is also offered for numerals with a sign, which are errors as operands. *)
Theorem C46_sign_refuted : exists src r r' rg hs t n, process env0 src = Ret r /\ inlay_hints r rg = Ret hs /\ In (t, n) (fst hs) /\
  process env0 (apply_edits (replace_token t n) src) = Ret r' /\ r_listing r' <> r_listing r.
Proof.
  exists (bs "txn +1"). destruct (process env0 (bs "txn +1")) as [r| |] eqn:E; vm_compute in E; try discriminate. injection E as <-.
  destruct (process env0 (bs "txn Fee")) as [r'| |] eqn:E; vm_compute in E; try discriminate. injection E as <-.
  do 2 eexists. exists (Range 0 0 0 9). do 3 eexists. split; [reflexivity|]. split; [reflexivity|]. split; [left; reflexivity|].
  split; [vm_compute; reflexivity|]. vm_compute. discriminate.
Qed.
Print Assumptions C46_sign_refuted.

Theorem C46_partial en src ps r rg hs t n :
  Lexes src ps -> strings_on_one_line ps -> process en src = Ret r -> inlay_hints r rg = Ret hs -> In (t, n) (fst hs) ->
  read_uint8 (tok_v t) <> None -> (forall k, operand_kind r t k -> (field_since k n <= version_on r (tok_l t))%N) ->
  (filter is_surplus_diag (r_diag r) = [] -> exists r', process en (apply_edits (replace_token t n) src) = Ret r') /\
  (forall r', process en (apply_edits (replace_token t n) src) = Ret r' -> r_listing r' = r_listing r).
Proof. exact (named_hint_same en src ps r rg hs t n). Qed.
Print Assumptions C46_partial.
Definition numbered : str := lines ["#pragma version 8"; "gtxn 1 7"; "pop"; "txn 3"].
Example C46_ex : (exists ps, Lexes numbered ps /\ strings_on_one_line ps) /\
  match process env0 numbered with
  | Ret r => exists t1 t2, inlay_hints r (Range 0 0 9 9) = Ret ([(t1, bs "Receiver"); (t2, bs "FirstValidTime")], []) /\
      read_uint8 (tok_v t2) <> None /\ operand_kind r t2 ITxnField /\ version_on r (tok_l t2) = 8%N /\ field_since ITxnField (bs "FirstValidTime") = 7%N /\
      apply_edits (replace_token t1 (bs "Receiver")) numbered = lines ["#pragma version 8"; "gtxn 1 Receiver"; "pop"; "txn 3"] /\
      filter is_surplus_diag (r_diag r) = []
  | _ => False end.
Proof.
  split; [apply unquoted_lines; vm_compute; intros H; repeat (destruct H as [H|H]; [discriminate H|]); exact H|].
  destruct (process env0 numbered) as [r| |] eqn:E; vm_compute in E; try discriminate. injection E as <-.
  do 2 eexists. split; [reflexivity|]. split; [discriminate|].
  split; [do 5 eexists; split; [exact (eq_refl (Some (_ :: [] ++ _ :: []))) |]; split; [reflexivity|]; split; reflexivity|].
  vm_compute. repeat split.
Qed.

(* ---------------------------------------------------------------- C47: literals *)
(* Only quotes are escaped: a backslash in the decoded bytes starts an escape sequence. *)
Theorem C47_refuted : exists src r r' rg hs t v, process env0 src = Ret r /\ inlay_hints r rg = Ret hs /\ In (t, v) (snd hs) /\ byte_constant r t /\
  process env0 (apply_edits (replace_token t (literal_of v)) src) = Ret r' /\ r_listing r' <> r_listing r.
Proof.
  exists (bs "byte 0x5c6e"). destruct (process env0 (bs "byte 0x5c6e")) as [r| |] eqn:E; vm_compute in E; try discriminate. injection E as <-.
  destruct (process env0 (bs "byte ""\n""")) as [r'| |] eqn:E; vm_compute in E; try discriminate. injection E as <-.
  do 2 eexists. exists (Range 0 0 0 9). do 3 eexists. split; [reflexivity|]. split; [reflexivity|]. split; [left; reflexivity|].
  split. { do 4 eexists. split; [exact (eq_refl (Some (_ :: [] ++ _ :: []))) |]. split; [reflexivity|]. split; [eexists; split; [left; reflexivity|reflexivity]|]. intros x [|y w] Q; discriminate Q. }
  split; [vm_compute; reflexivity|]. vm_compute. discriminate.
Qed.
Print Assumptions C47_refuted.
(* It is also offered for operands that are not byte constants. *)
Theorem C47_int_refuted : exists src r r' rg hs t v, process env0 src = Ret r /\ inlay_hints r rg = Ret hs /\ In (t, v) (snd hs) /\ ~ In c_bslash v /\
  process env0 (apply_edits (replace_token t (literal_of v)) src) = Ret r' /\ r_listing r' <> r_listing r.
Proof.
  exists (bs "int 0x41"). destruct (process env0 (bs "int 0x41")) as [r| |] eqn:E; vm_compute in E; try discriminate. injection E as <-.
  destruct (process env0 (bs "int ""A""")) as [r'| |] eqn:E; vm_compute in E; try discriminate. injection E as <-.
  do 2 eexists. exists (Range 0 0 0 9). do 3 eexists. split; [reflexivity|]. split; [reflexivity|]. split; [left; reflexivity|].
  split; [vm_compute; intros [Q|Q]; [discriminate Q|exact Q]|]. split; [vm_compute; reflexivity|]. vm_compute. discriminate.
Qed.
Print Assumptions C47_int_refuted.

Theorem C47_partial en src ps r rg hs t v :
  Lexes src ps -> strings_on_one_line ps -> process en src = Ret r -> inlay_hints r rg = Ret hs -> In (t, v) (snd hs) ->
  ~ In c_bslash v -> byte_constant r t ->
  (filter is_surplus_diag (r_diag r) = [] -> exists r', process en (apply_edits (replace_token t (literal_of v)) src) = Ret r') /\
  (forall r', process en (apply_edits (replace_token t (literal_of v)) src) = Ret r' -> r_listing r' = r_listing r).
Proof. exact (decoded_hint_same en src ps r rg hs t v). Qed.
Print Assumptions C47_partial.
Definition encoded : str := lines ["bytecblock b64 QQ== 0x612262"; "int 1"].
Example C47_ex : (exists ps, Lexes encoded ps /\ strings_on_one_line ps) /\
  match process env0 encoded with
  | Ret r => exists t, inlay_hints r (Range 0 0 9 90) = Ret ([], [(t, bs "a""b")]) /\ byte_constant r t /\
      apply_edits (replace_token t (literal_of (bs "a""b"))) encoded = lines ["bytecblock b64 QQ== ""a\""b"""; "int 1"] /\
      r_listing r = [BytecBlockExpr [bs "A"; bs "a""b"]; IntExpr 1] /\ filter is_surplus_diag (r_diag r) = []
  | _ => False end.
Proof.
  split; [apply unquoted_lines; vm_compute; intros H; repeat (destruct H as [H|H]; [discriminate H|]); exact H|].
  destruct (process env0 encoded) as [r| |] eqn:E; vm_compute in E; try discriminate. injection E as <-.
  eexists. split; [reflexivity|].
  split. { do 4 eexists. split; [exact (eq_refl (Some (_ :: [_; _] ++ _ :: []))) |]. split; [reflexivity|]. split; [eexists; split; [left; reflexivity|reflexivity]|].
    intros x w Q. change ([?a; ?b]) with ([a] ++ [b]) in Q. destruct w as [|y [|z w]]; [discriminate Q|injection Q as _ <-; reflexivity|destruct w; discriminate Q]. }
  vm_compute. repeat split.
Qed.
