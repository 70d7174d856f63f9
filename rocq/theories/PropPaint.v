(* Property C77: semantic tokens. *)
From Verif Require Import Base LexSpec Lexer Linter Codec Expr OpTable Process ProcessSpec Literals Semantics SemanticsProofs Query Lsp HintSpec PaintSpec PaintProofs PaintDoc PaintThms PropProcess PropLsp.
From Coq Require Import Sorted Permutation.

(* The numbers of a list of integers are shown twice. *)
Definition listing_ints : str := bs "intcblock 1".
Theorem C77_refuted : exists r l, process env0 listing_ints = Ret r /\
  answer_query len0 (s_config start) doc1 listing_ints r QSemanticTokens = Ret (ASemanticTokens l) /\ ~ NoDup l.
Proof.
  destruct (process env0 listing_ints) as [r| |] eqn:E; vm_compute in E; try discriminate. injection E as <-.
  eexists. eexists. split; [reflexivity|]. split; [cbn [answer_query]; vm_compute; reflexivity|].
  intros N. inversion N as [|? ? _ N2]; subst. inversion N2 as [|? ? N3 _]; subst. apply N3. left. reflexivity.
Qed.
Print Assumptions C77_refuted.

(* The semantic tokens are the tokens of the document that have a role, each shown in that role, no two over each other, and no token twice
   unless it is in a list of integers. *)
Theorem C77_partial en cf uri src r : process (l_env en) src = Ret r -> exists l,
  answer_query en cf uri src r QSemanticTokens = Ret (ASemanticTokens l) /\
  (forall s, In s l <-> exists k t, In (k, t) (doc_roles (l_env en) 1 r) /\ shows k t s) /\
  (forall a b, In a l -> In b l -> a = b \/ separate_tokens a b) /\
  ((forall w, In w (r_lines r) -> ~ has_int_list w) -> NoDup l).
Proof.
  intros E. exists (semantic_tokens r). split; [reflexivity|]. split; [exact (semantic_in _ _ _ E)|].
  split; [exact (semantic_apart _ _ _ E)|exact (semantic_once _ _ _ E)].
Qed.
Print Assumptions C77_partial.

(* with the repetitions *)
Theorem C77_twice en cf uri src r : process (l_env en) src = Ret r -> exists l l',
  answer_query en cf uri src r QSemanticTokens = Ret (ASemanticTokens l) /\ Permutation l l' /\
  Forall2 (fun x s => shows (fst x) (snd x) s) (doc_roles (l_env en) 2 r) l'.
Proof. intros E. destruct (semantic_exact _ _ _ E) as [l [P F]]. exists (semantic_tokens r), l. auto. Qed.
Print Assumptions C77_twice.

(* The tokens of a line that have a role are its first ones, and all of them if the line is an opcode that is read to its end. *)
Theorem C77_line en v l : exists w, l = map snd (line_roles en 1 v l) ++ w.
Proof. exact (line_prefix en v l). Qed.
Print Assumptions C77_line.
Theorem C77_whole_line en v t l p e : kind_of (t :: l) = LOp p (texts l) -> assemble en v p (texts l) = Some (e, []) ->
  map snd (line_roles en 1 v (t :: l)) = t :: l.
Proof. exact (line_covered en v t l p e). Qed.
Print Assumptions C77_whole_line.

(* What the client decodes is the semantic tokens in the order of the document. *)
Theorem C77_wire en cf uri src r l out : process (l_env en) src = Ret r -> (Z.of_nat (length src) < 4294967296)%Z ->
  answer_query en cf uri src r QSemanticTokens = Ret (ASemanticTokens l) -> encodes l out ->
  exists s, decode out = Some s /\ Permutation l s /\ StronglySorted in_order s.
Proof.
  intros E B A Q. injection A as <-. exact (encode_lossless _ _ (semantic_fits _ _ _ E B) Q).
Qed.
Print Assumptions C77_wire.

Definition painted_text : str := lines ["#pragma version 8"; "a: // loop"; "int pay"; "byte b64 AA=="; "txna Accounts 1"; "switch a b"; "pushbytess 0x01 b32(AA) base64 QQ=="; "intcblock 1 x"; "itxn"].
Example C77_ex : match process env0 painted_text with
  | Ret r => doc_roles env0 1 r =
      [(Macro, Token (bs "#pragma") 0 0 7 TokValue); (Macro, Token (bs "version") 0 8 15 TokValue); (Number, Token (bs "8") 0 16 17 TokValue);
       (LabelDef, Token (bs "a:") 1 0 2 TokValue);
       (Opcode, Token (bs "int") 2 0 3 TokValue); (Number, Token (bs "pay") 2 4 7 TokValue);
       (Opcode, Token (bs "byte") 3 0 4 TokValue); (Encoding, Token (bs "b64") 3 5 8 TokValue); (Literal, Token (bs "AA==") 3 9 13 TokValue);
       (Opcode, Token (bs "txna") 4 0 4 TokValue); (Literal, Token (bs "Accounts") 4 5 13 TokValue); (Number, Token (bs "1") 4 14 15 TokValue);
       (Opcode, Token (bs "switch") 5 0 6 TokValue); (LabelRef, Token (bs "a") 5 7 8 TokValue); (LabelRef, Token (bs "b") 5 9 10 TokValue)]
      ++ skipn 15 (doc_roles env0 1 r) /\
      length (doc_roles env0 1 r) = 21 /\
      answer_query len0 (s_config start) doc1 painted_text r QSemanticTokens = Ret (ASemanticTokens (semantic_tokens r)) /\ length (semantic_tokens r) = 22
  | _ => False end.
Proof. vm_compute. repeat split. Qed.
