(* Property C90: what is known about a label. *)
From Verif Require Import Base LexSpec Lexer Expr Fields Literals Codec OpTable Process ProcessSpec LabelSpec LabelProofs PropProcess.

(* ---------------------------------------------------------------- C90: documentation of labels *)
(* The documentation of a label is the comments right above it. *)
Definition documented (r : presult) : Prop := forall s cs, In s (r_syms r) -> right_above (r_lines r) (sy_l s) cs -> sy_docs s = in_lines cs.

(* What is explained elsewhere, about another instruction, is taken for it. *)
Definition d_note : str := lines ["// pay the fee"; "int 1"; "a:"; "b a"]%string.
Theorem C90_refuted : ~ forall src r, process env0 src = Ret r -> documented r.
Proof.
  intros H. specialize (H d_note). destruct (process env0 d_note) as [r| |] eqn:E; vm_compute in E; try discriminate.
  injection E as <-. specialize (H _ eq_refl). unfold documented in H.
  match type of H with forall s cs, In s (r_syms ?r) -> _ => destruct (r_syms r) as [|s ss] eqn:Es; vm_compute in Es; [discriminate|] end.
  injection Es as <- <-.
  specialize (H _ [] (or_introl eq_refl)). cbn [r_lines sy_l] in H. 
  match type of H with right_above ?ls ?i [] -> _ => assert (X : right_above ls i []) end.
  { eexists _, []. split; [symmetry; apply app_nil_r|]. split; [|reflexivity]. right.
    match goal with |- context [firstn ?i ?l] => let v := eval vm_compute in (firstn i l) in change (firstn i l) with v end.
    match goal with |- exists a l, [?x; ?y] = _ /\ _ => exists [x], y end. split; [reflexivity|vm_compute; reflexivity]. }
  specialize (H X). vm_compute in H. discriminate H.
Qed.
Print Assumptions C90_refuted.

(* It is the comments since the label before it, whatever is between them. *)
Theorem C90 en src r s : process en src = Ret r -> In s (r_syms r) ->
  exists i l t, nth_error (r_lines r) i = Some l /\ defines l = [(t, sy_name s)] /\ sy_l s = i /\
    exists cs, since_label (r_lines r) i cs /\ sy_docs s = in_lines cs.
Proof. exact (docs_since en src r s). Qed.
Print Assumptions C90.

(* These are the comments right above it if every other comment is above another label. *)
Theorem C90_partial en src r s cs : process en src = Ret r -> In s (r_syms r) -> right_above (r_lines r) (sy_l s) cs ->
  (forall j l, j < sy_l s - length cs -> nth_error (r_lines r) j = Some l -> comment_on l <> [] ->
     exists k l', j < k < sy_l s /\ nth_error (r_lines r) k = Some l' /\ ~ labels_nothing l') ->
  sy_docs s = in_lines cs.
Proof.
  intros E I A H. destruct (docs_since en src r s E I) as (i & l & t & N & _ & <- & ds & D & ->).
  f_equal. apply (since_above (r_lines r) (sy_l s)); [|exact D|exact A|exact H].
  apply Nat.lt_le_incl. apply nth_error_Some. congruence.
Qed.
Print Assumptions C90_partial.

(* The signature of a label is that of the last proto below a label of its name, before the next
   label; there is none without such a proto. *)
Theorem C90_signature en src r s : process en src = Ret r -> In s (r_syms r) ->
  match sy_sig s with
  | Some (a, n) => exists d, proto_below (r_listing r) (sy_name s) d a n /\
                             forall d' a' n', proto_below (r_listing r) (sy_name s) d' a' n' -> d' <= d
  | None => forall d a n, ~ proto_below (r_listing r) (sy_name s) d a n
  end.
Proof. exact (signature_below en src r s). Qed.
Print Assumptions C90_signature.

(* So it may be that of a proto that does not belong to the subroutine. *)
Definition d_proto : str := lines ["#pragma version 8"; "a:"; "retsub"; "proto 2 1"; "b a"]%string.
Theorem C90_signature_refuted : ~ forall src r s a n, process env0 src = Ret r -> In s (r_syms r) -> sy_sig s = Some (a, n) ->
  exists d, proto_first (r_listing r) (sy_name s) d a n.
Proof.
  intros H. specialize (H d_proto). destruct (process env0 d_proto) as [r| |] eqn:E; vm_compute in E; try discriminate.
  injection E as <-. specialize (H _ _ 2%N 1%N eq_refl (or_introl eq_refl) eq_refl). cbn [r_listing sy_name] in H.
  destruct H as (d & P & k & K & L & M). destruct d as [|[|[|[|[|[|d]]]]]]; try discriminate P; try (destruct d; discriminate P).
  destruct k as [|[|[|[|k]]]]; try discriminate L; try lia.
  destruct (M 2 _ ltac:(lia) eq_refl) as [Q|[v Q]]; discriminate Q.
Qed.
Print Assumptions C90_signature_refuted.

(* It is that of the proto the subroutine begins with if there are no other protos and no other
   label of the name. *)
Theorem C90_signature_partial en src r s : process en src = Ret r -> In s (r_syms r) ->
  (forall d a n, proto_below (r_listing r) (sy_name s) d a n -> proto_first (r_listing r) (sy_name s) d a n) ->
  (forall i j, nth_error (r_listing r) i = Some (LabelExpr (sy_name s)) -> nth_error (r_listing r) j = Some (LabelExpr (sy_name s)) -> i = j) ->
  forall a n, sy_sig s = Some (a, n) <-> exists d, proto_first (r_listing r) (sy_name s) d a n.
Proof. exact (signature_first en src r s). Qed.
Print Assumptions C90_signature_partial.

Definition d_doc : str := lines ["#pragma version 8"; "// start"; "main:"; "b f"; "// doubles"; "// a number"; "f:"; "// in place"; "proto 1 1"; "retsub"; "b main"]%string.
Example C90_ex : match process env0 d_doc with
  | Ret r => map (fun s => (sy_name s, sy_l s, sy_docs s, sy_sig s)) (r_syms r) =
      [(bs "main", 2, bs " start", None); (bs "f", 6, in_lines [bs " doubles"; bs " a number"], Some (1%N, 1%N))]
  | _ => False
  end.
Proof. vm_compute. reflexivity. Qed.
