(* Property C109: the comment that makes a document a logic signature. *)
From Verif Require Import Base Utf8 LexSpec Lexer Expr Linter Fields Literals Codec OpTable Process ProcessSpec ProcessDoc ProcessThms DiagSpec DiagProofs ModeSpec ModeProofs PropProcess.

(* A document that says that it is a logic signature can be told that an opcode of logic
   signatures is not available in an application: the comment stands below the opcode. *)
Theorem C109_refuted : exists src r, process env0 src = Ret r /\ r_mode r = ModeSig /\ r_diag r = [Diag 0 0 3 (KMode ModeApp)].
Proof.
  exists (lines ["arg 0"; "//#pragma mode logicsig"]).
  destruct (process env0 (lines ["arg 0"; "//#pragma mode logicsig"])) as [r| |] eqn:E; vm_compute in E; try discriminate.
  injection E as <-. eexists. split; [reflexivity|]. split; reflexivity.
Qed.
Print Assumptions C109_refuted.

(* A document is a logic signature if and only if one of its lines is a comment that reads
   #pragma mode logicsig between white space; otherwise it is an application. *)
Theorem C109_mode en src r : process en src = Ret r ->
  (r_mode r = ModeSig <-> exists l, In l (r_lines r) /\ mode_line l) /\ (r_mode r = ModeApp <-> ~ exists l, In l (r_lines r) /\ mode_line l).
Proof. exact (document_mode en src r). Qed.
Print Assumptions C109_mode.

(* An opcode is judged as one of a logic signature if and only if such a comment stands above it. *)
Theorem C109_judged_partial en src r i t rest p args : process en src = Ret r -> nth_error (r_lines r) i = Some (t :: rest) ->
  kind_of (t :: rest) = LOp p args ->
  let above := exists j l, j < i /\ nth_error (r_lines r) j = Some l /\ mode_line l in
  ((exists b e, In (Diag i b e (KMode ModeApp)) (r_diag r)) <-> dc_app (doc_of p) = 0%N /\ ~ above) /\
  ((exists b e, In (Diag i b e (KMode ModeSig)) (r_diag r)) <-> dc_sig (doc_of p) = 0%N /\ above).
Proof. exact (judged_by_mode en src r i t rest p args). Qed.
Print Assumptions C109_judged_partial.

(* an ideographic space before the directive and a no-break space behind it *)
Definition spaced : str := bs "//" ++ map ascii_of_N [227; 128; 128; 9]%N ++ bs "#pragma mode logicsig" ++ map ascii_of_N [194; 160; 32]%N ++ [c_lf] ++ lines ["arg 0"; "log"].
Example C109_ex : match process env0 spaced with
  Ret r => r_mode r = ModeSig /\ filter (fun d => match d with Diag _ _ _ (KMode _) => true | _ => false end) (r_diag r) = [Diag 2 0 3 (KMode ModeSig)] | _ => False end.
Proof. vm_compute. split; reflexivity. Qed.
Example C109_white : white (map ascii_of_N [227; 128; 128; 9]%N) /\ ~ white (map ascii_of_N [226; 128; 139]%N).
Proof.
  split.
  - apply (white_more (map ascii_of_N [227; 128; 128]%N) (map ascii_of_N [9]%N) 12288); [reflexivity|discriminate|unfold white_char; Lia.lia|].
    apply (white_more (map ascii_of_N [9]%N) [] 9); [reflexivity|discriminate|unfold white_char; Lia.lia|constructor].
  - intros H. apply white_row in H. inversion H as [Z|p s I R E].
    assert (Q : strip_first white_space (p ++ s) = Some s) by (apply strip_first_app; [vm_compute; reflexivity|exact I]).
    rewrite E in Q. vm_compute in Q. discriminate.
Qed.
