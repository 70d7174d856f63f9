(* Properties C44 and C48: queries at a position. *)
From Verif Require Import Base Lexer Codec Expr OpTable Process Semantics Query Lsp QueryProofs PropProcess PropLsp.

(* ---------------------------------------------------------------- C44: go to definition *)
(* A quoted string may touch the next operand; at the boundary only the first of the two is looked up. *)
Definition touching : str := lines ["lab:"; "int 0"; "switch ""x""lab"].
Theorem C44_refuted : exists r p s t, process env0 touching = Ret r /\ In s (r_syms r) /\ In t (r_refs r) /\
  under p t /\ sy_name s = tok_v t /\ ~ In (name_range s) (map name_range (symbols_for_ref r (pos_range p))).
Proof.
  destruct (process env0 touching) as [r| |] eqn:E; vm_compute in E; try discriminate. injection E as <-.
  eexists. exists (Pos 2 10). eexists _, _. split; [reflexivity|]. split; [left; reflexivity|].
  split; [right; left; reflexivity|]. split; [split; vm_compute; [reflexivity|split; discriminate]|]. split; [reflexivity|].
  vm_compute. intros H; exact H.
Qed.
Print Assumptions C44_refuted.

Theorem C44_partial en src r p cf uri a : process (l_env en) src = Ret r ->
  Forall (fun t => starts_quote (tok_v t) = false) (r_refs r) ->
  answer_query en cf uri src r (QDefinition p) = Ret a ->
  exists rgs, a = ADefinition uri rgs /\ forall rg, In rg rgs <->
    exists s t, In s (r_syms r) /\ In t (r_refs r) /\ under p t /\ sy_name s = tok_v t /\ rg = name_range s.
Proof. exact (definition_answer en src r p cf uri a). Qed.
Print Assumptions C44_partial.
Example C44_ex : match process env0 (lines ["a:"; "b a"; "a:"; "int 1"; "switch c a"]) with
  | Ret r => Forall (fun t => starts_quote (tok_v t) = false) (r_refs r) /\
      map name_range (symbols_for_ref r (pos_range (Pos 4 9))) = [Range 0 0 0 1; Range 2 0 2 1] /\
      map name_range (symbols_for_ref r (pos_range (Pos 4 7))) = []
  | _ => False end.
Proof. vm_compute. split; [repeat constructor|split; reflexivity]. Qed.

(* ---------------------------------------------------------------- C48: position queries *)
(* Hovering over a negative field index panics. *)
Theorem C48_refuted : exists src r p, process env0 src = Ret r /\ (0 <= ps_line p)%Z /\
  answer_query len0 (s_config start) doc1 src r (QHover p) = Panic.
Proof.
  exists (bs "txn -1"). destruct (process env0 (bs "txn -1")) as [r| |] eqn:E; vm_compute in E; try discriminate. injection E as <-.
  eexists. exists (Pos 0 4). split; [reflexivity|]. split; vm_compute; [discriminate|reflexivity].
Qed.
Print Assumptions C48_refuted.
(* So does a negative line. *)
Theorem C48_line_refuted : exists src r p, process env0 src = Ret r /\
  answer_query len0 (s_config start) doc1 src r (QCompletion p) = Panic.
Proof.
  exists (bs "txn Sender"). destruct (process env0 (bs "txn Sender")) as [r| |] eqn:E; vm_compute in E; try discriminate. injection E as <-.
  eexists. exists (Pos (-1) 0). split; reflexivity.
Qed.
Print Assumptions C48_line_refuted.

Theorem C48_partial en cf uri src r q p : process (l_env en) src = Ret r -> at_position q p -> (0 <= ps_line p)%Z ->
  (forall ln t, q = QHover p -> nth_error (r_lines r) (Z.to_nat (ps_line p)) = Some ln -> In t ln ->
     (Z.of_nat (tok_b t) <= ps_char p <= Z.of_nat (tok_e t))%Z -> ~ negative t) ->
  exists a, answer_query en cf uri src r q = Ret a.
Proof. exact (position_queries en cf uri src r q p). Qed.
Print Assumptions C48_partial.
Example C48_ex : match process env0 (lines ["txn Sender"; ""; "int -1"]) with
  | Ret r => answer_query len0 (s_config start) doc1 [] r (QHover (Pos 0 5)) = Ret (AHover (FieldDoc ITxnField 0)) /\
             answer_query len0 (s_config start) doc1 [] r (QHover (Pos 2 5)) = Ret (AHover NoDoc) /\
             answer_query len0 (s_config start) doc1 [] r (QSignatureHelp (Pos 0 4)) = Ret (ASignatureHelp (Some (bs "txn", 0%Z))) /\
             answer_query len0 (s_config start) doc1 [] r (QDocumentHighlight (Pos 1 (-5))) = Ret (ADocumentHighlight [])
  | _ => False end.
Proof. vm_compute. repeat split. Qed.
