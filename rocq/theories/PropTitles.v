(* Properties C105 and C106: the titles of the quick fixes. *)
From Verif Require Import Base LexSpec Lexer Linter Codec Expr Literals OpTable Process ProcessSpec ProcessThms Semantics Query Lsp RenameSpec HintSpec RangeSpec RangeProofs Titles TitleSpec TitleProofs PropProcess PropLsp.

(* the fixes of C76, each with a title *)
Theorem C105_actions en cf uri src r rg os : code_offers r rg = Ret os ->
  answer_query en cf uri src r (QCodeAction rg) = Ret (ACodeAction uri (map of_action os)).
Proof. intros H. cbn [answer_query]. rewrite <- offers_actions, H. reflexivity. Qed.
Print Assumptions C105_actions.

(* ---------------------------------------------------------------- C105: a fix does what its title says *)
(* Behind a line with too many operands the listing is ahead of the document: the line named is another one. *)
Definition shifted : str := lines ["int 1 2"; "int 7"; "dead:"; "int 8"; "return"].
Theorem C105_refuted : exists r rg os o, process env0 shifted = Ret r /\ proper rg /\ (0 <= r_sl rg)%Z /\ code_offers r rg = Ret os /\ In o os /\
  of_title o = bs "Remove label 'dead'" /\ ~ says r (of_title o) (of_action o).
Proof.
  destruct (process env0 shifted) as [r| |] eqn:E; vm_compute in E; try discriminate. injection E as <-.
  eexists. exists (Range 0 0 9 0). do 2 eexists. split; [reflexivity|]. split; [left; reflexivity|]. split; [cbn; discriminate|].
  split; [vm_compute; reflexivity|]. split; [left; reflexivity|]. split; [reflexivity|]. cbn [of_title of_action].
  intros H. inversion H as [i n (t & w & N & _ & V) T A|i B T A| | | |]; clear H.
  - cbn in N. injection N as <- _. cbn in V. repeat (destruct n as [|? n]; [discriminate V|]; cbn in V; injection V as <- V). destruct n; discriminate V.
Qed.
Print Assumptions C105_refuted.
(* The text of a constant is not always a way to write it: 0x5c6e is a backslash and an n, "\n" is a line end. *)
Theorem C105_literal_refuted : exists r rg os o, process env0 (lines ["byte 0x5c6e"; "int 1"]) = Ret r /\ filter is_surplus_diag (r_diag r) = [] /\
  proper rg /\ (0 <= r_sl rg)%Z /\ code_offers r rg = Ret os /\ In o os /\ ~ says r (of_title o) (of_action o).
Proof.
  destruct (process env0 (lines ["byte 0x5c6e"; "int 1"])) as [r| |] eqn:E; vm_compute in E; try discriminate. injection E as <-.
  eexists. exists (Range 0 0 0 9). do 2 eexists. split; [reflexivity|]. split; [reflexivity|]. split; [right; cbn; split; [reflexivity|discriminate]|]. split; [cbn; discriminate|].
  split; [vm_compute; reflexivity|]. split; [left; reflexivity|]. cbn [of_title of_action].
  intros H. inversion H as [| | | |t w x D S T [A X]|]; clear H.
  assert (W : w = bs "\n") by (apply (app_inv_tail (bs "'")); exact T).
  subst w. destruct S as (b & u & Q & _ & _ & U & De).
  assert (B : b = bs "\n") by (injection Q as Q; apply (app_inv_tail [c_quote]); symmetry; exact Q).
  subst b. inversion U as [| |? ? v _ U']; subst. inversion U' as [| |? ? v' _ U'']; subst. inversion U''; subst.
  inversion De as [|? ? ? N _|? ? ? ? _ Y|]; subst; [apply N; reflexivity|inversion Y].
Qed.
Print Assumptions C105_literal_refuted.

Theorem C105_partial en src r rg os o : process en src = Ret r -> (0 <= r_sl rg)%Z -> proper rg -> code_offers r rg = Ret os -> In o os ->
  filter is_surplus_diag (r_diag r) = [] -> (forall t w, decodes r t w -> touches rg t -> ~ In c_bslash w) ->
  says r (of_title o) (of_action o).
Proof. exact (fun E => titles_say en src r E rg os o). Qed.
Print Assumptions C105_partial.
(* too many operands mislead only the fixes that remove a line *)
Theorem C105_others_partial en src r rg os o : process en src = Ret r -> (0 <= r_sl rg)%Z -> proper rg -> code_offers r rg = Ret os -> In o os ->
  (forall i, of_action o <> FixRemoveLine i) -> (forall t w, decodes r t w -> touches rg t -> ~ In c_bslash w) ->
  says r (of_title o) (of_action o).
Proof. exact (fun E => other_titles_say en src r E rg os o). Qed.
Print Assumptions C105_others_partial.
Definition fixable : str := lines ["#pragma version 4"; "b x"; "txn 1"; "byte 0x4122"; "box_get"; "b next"; "next:"; "int 1"; "y:"].
Example C105_ex : match process env0 fixable with
  | Ret r => filter is_surplus_diag (r_diag r) = [] /\ code_offers r (Range 0 0 9 20) = Ret [
      Offer (bs "Remove label 'y'") (bs "Remove label 'y'") (FixRemoveLine 8);
      Offer (bs "Remove b call") (bs "Remove b call") (FixRemoveLine 5);
      Offer (bs "Create label 'x'") (bs "Create label") (FixCreateLabel (bs "x"));
      Offer (bs "Replace with 'Fee'") (bs "Replace with named const") (FixReplace (Range 2 4 2 5) (bs "Fee"));
      Offer (bs "Replace with literal 'A""'") (bs "Replace with literal") (FixReplace (Range 3 5 3 11) (bs """A\"""""));
      Offer (bs "Update version to 8") (bs "Update version") (FixVersion 8)]
  | _ => False end.
Proof. vm_compute. repeat split. Qed.

(* ---------------------------------------------------------------- C106: titles tell the fixes apart *)
Theorem C106_refuted : exists src r rg os o o', process env0 src = Ret r /\ filter is_surplus_diag (r_diag r) = [] /\ single_line rg /\ proper rg /\ (0 <= r_sl rg)%Z /\
  code_offers r rg = Ret os /\ In o os /\ In o' os /\ of_title o = of_title o' /\ of_action o <> of_action o'.
Proof.
  exists (lines ["#pragma version 8"; "bytecblock 0x41 0x41"; "int 1"]).
  destruct (process env0 (lines ["#pragma version 8"; "bytecblock 0x41 0x41"; "int 1"])) as [r| |] eqn:E; vm_compute in E; try discriminate. injection E as <-.
  eexists. exists (Range 1 0 1 20). do 3 eexists. split; [reflexivity|]. split; [reflexivity|]. split; [reflexivity|].
  split; [right; cbn; split; [reflexivity|discriminate]|]. split; [cbn; discriminate|].
  split; [vm_compute; reflexivity|]. split; [left; reflexivity|]. split; [right; left; reflexivity|]. split; [reflexivity|]. discriminate.
Qed.
Print Assumptions C106_refuted.
(* wherever the fixes are offered: the title tells what is done, if not where *)
Theorem C106_place_partial en src r rg os o o' : process en src = Ret r -> (0 <= r_sl rg)%Z -> proper rg -> code_offers r rg = Ret os ->
  In o os -> In o' os -> of_title o = of_title o' -> same_but_place (of_action o) (of_action o').
Proof.
  intros E B P H I I'. exact (titles_apart r rg o o' (offers_are en src r E rg os o B P H I) (offers_are en src r E rg os o' B P H I')).
Qed.
Print Assumptions C106_place_partial.
(* at the cursor it tells everything *)
Theorem C106_partial en src r rg os o o' : process en src = Ret r -> (0 <= r_sl rg)%Z -> cursor rg -> code_offers r rg = Ret os ->
  In o os -> In o' os -> of_title o = of_title o' -> of_action o = of_action o'.
Proof.
  intros E B C H I I'. assert (P : proper rg) by (right; destruct C; lia).
  exact (titles_one en src r E rg o o' C (offers_are en src r E rg os o B P H I) (offers_are en src r E rg os o' B P H I')).
Qed.
Print Assumptions C106_partial.
Example C106_ex : match process env0 fixable with
  | Ret r => code_offers r (Range 2 5 2 5) = Ret [Offer (bs "Replace with 'Fee'") (bs "Replace with named const") (FixReplace (Range 2 4 2 5) (bs "Fee"))]
  | _ => False end.
Proof. vm_compute. reflexivity. Qed.
