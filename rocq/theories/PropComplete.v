(* Property C111: an opcode taken from the completions gives an accepted line. *)
From Verif Require Import Base LexSpec Lexer Expr Linter Literals Codec OpTable Print Process ProcessSpec RoundTripSpec RoundTripLex FixLines DiagSpec
  Semantics Query Lsp Signature Snippets SnippetSpec CompleteSpec CompleteProofs PropProcess.
From Verif Require Flow LintSpec InsertDoc AnswerSpec.
From Coq Require Import Lia.

(* what the server offers on line i of a document, and what it reports when the line reads as given *)
Definition offers (src : str) (i : Z) (n : str) : bool :=
  match process env0 src with
  | Ret r => match completions r (Pos i 0) with Ret (CompleteOps l) => mem n l | _ => false end
  | _ => false
  end.
Definition reports (src : str) : option (list diag_kind) :=
  match process env0 src with Ret r => Some (map dg_kind (r_diag r)) | _ => None end.

(* It does not always: the opcodes that read the arguments of a logic signature are offered in an application, opcodes of
   applications are offered in a logic signature, and both are refused. *)
Theorem C111_refuted :
  (reports (lines ["#pragma version 8"; "int 1"; "return"]) = Some [] /\
   offers (lines ["#pragma version 8"; ""; "int 1"; "return"]) 1 (bs "arg") = true /\
   reports (lines ["#pragma version 8"; "arg 0"; "int 1"; "return"]) = Some [KMode ModeApp]) /\
  (reports (lines ["#pragma version 8"; "//#pragma mode logicsig"; "int 1"; "return"]) = Some [] /\
   offers (lines ["#pragma version 8"; "//#pragma mode logicsig"; ""; "int 1"; "return"]) 2 (bs "log") = true /\
   reports (lines ["#pragma version 8"; "//#pragma mode logicsig"; "log"; "int 1"; "return"]) = Some [KMode ModeSig]).
Proof. vm_compute. repeat split. Qed.
Print Assumptions C111_refuted.

(* In a document in which nothing is wrong, on a fresh line that is reached and above which the version is stated, with nothing
   or the beginning of the name typed so far: if the mode has the opcode, and the words typed into the places of its text are
   operands of an instruction that goes on with the next line and names only labels of the program, nothing is wrong with the
   result, and it is the old program with that instruction in it. *)
Theorem C111_partial en pre a post r0 r1 p hs ns n q ws e : Lexes pre a -> ends_line a -> last pre c_lf = c_lf ->
  process en (pre ++ post) = Ret r0 -> r_diag r0 = [] ->
  (forall i, eols a <= i -> ~ LintSpec.pragma_at (r_listing r0) i) ->
  hs = [] \/ (exists s w, hs = [s] /\ one_token s = true /\ n = s ++ w) ->
  process en (pre ++ join hs ++ [c_lf] ++ post) = Ret r1 ->
  completions r1 p = Ret (CompleteOps (bs "soc" :: bs "func" :: ns)) -> In n ns -> ops_get n = Some q ->
  Forall (fun w => one_token w = true) ws -> length ws = length (dc_args (doc_of q)) ->
  assemble en (version_at (eols a) (r_lines r0)) q ws = Some (e, []) ->
  min_version (mode_at (eols a) (r_lines r0)) q <> 0%N -> (1 <= version_at (eols a) (r_lines r0))%N ->
  fits_in (r_listing r0) e -> alive_at (r_listing r0) (eols a) ->
  exists r, process en (pre ++ chosen n q ws ++ [c_lf] ++ post) = Ret r /\ r_diag r = [] /\
    r_listing r = firstn (eols a) (r_listing r0) ++ [e] ++ skipn (eols a) (r_listing r0).
Proof.
  intros L O E P D Ab H P1 C I Op W Co. exact (chosen_clean en pre a post r0 L O E P D Ab r1 p hs ns n q ws H P1 C I Op W Co e).
Qed.
Print Assumptions C111_partial.

(* an opcode the mode lacks is refused whatever is typed into the places *)
Theorem C111_refused_partial en pre a post r0 n q ws r : Lexes pre a -> ends_line a -> last pre c_lf = c_lf ->
  process en (pre ++ post) = Ret r0 -> ops_get n = Some q ->
  Forall (fun w => one_token w = true) ws -> length ws = length (dc_args (doc_of q)) ->
  min_version (mode_at (eols a) (r_lines r0)) q = 0%N ->
  process en (pre ++ chosen n q ws ++ [c_lf] ++ post) = Ret r ->
  exists from to, In (Diag (eols a) from to (KMode (mode_at (eols a) (r_lines r0)))) (r_diag r).
Proof.
  intros L O E P Op W Co. exact (chosen_refused en pre a post r0 L O E P n q ws Op W Co r).
Qed.
Print Assumptions C111_refused_partial.

(* The other way round: in an application whatever would be accepted is offered. *)
Theorem C111_offered_partial en pre a post r0 hs r1 p s n q ws r : Lexes pre a -> ends_line a -> last pre c_lf = c_lf ->
  process en (pre ++ post) = Ret r0 -> r_diag r0 = [] -> (forall i, eols a <= i -> ~ LintSpec.pragma_at (r_listing r0) i) ->
  mode_at (eols a) (r_lines r0) = ModeApp ->
  hs = [] \/ (exists s w, hs = [s] /\ one_token s = true /\ n = s ++ w) ->
  process en (pre ++ join hs ++ [c_lf] ++ post) = Ret r1 -> (0 <= ps_line p)%Z -> AnswerSpec.typed r1 p s -> (exists w, n = s ++ w) ->
  ops_get n = Some q -> Forall (fun w => one_token w = true) ws -> length ws = length (dc_args (doc_of q)) ->
  process en (pre ++ chosen n q ws ++ [c_lf] ++ post) = Ret r -> r_diag r = [] ->
  exists ns, completions r1 p = Ret (CompleteOps (bs "soc" :: bs "func" :: ns)) /\ In n ns.
Proof. exact (accepted_offered en pre a post r0 hs r1 p s n q ws r). Qed.
Print Assumptions C111_offered_partial.

(* not so in a logic signature, where the versions of applications are compared *)
Theorem C111_offered_refuted :
  offers (lines ["//#pragma mode logicsig"; ""; "int 1"]) 1 (bs "ed25519verify") = false /\
  reports (lines ["//#pragma mode logicsig"; "ed25519verify"; "int 1"]) = Some [].
Proof. vm_compute. split; reflexivity. Qed.
Print Assumptions C111_offered_refuted.

(* the beginning gt is completed to gtxn, and a group index, a field and an index are typed *)
Definition stated : list (list str * bool) := [([bs "#pragma"; bs "version"; bs "8"], false)].
Definition behind : str := lines ["pop"; "int 1"; "return"].
Example C111_asked : match process env0 (word_text stated ++ join [bs "gt"] ++ [c_lf] ++ behind) with
  | Ret r => match completions r (Pos 1 2) with Ret (CompleteOps (x :: y :: ns)) => seqb x (bs "soc") && seqb y (bs "func") && mem (bs "gtxna") ns | _ => false end
  | _ => false end = true.
Proof. vm_compute. reflexivity. Qed.
Example C111_ex : exists q r, ops_get (bs "gtxna") = Some q /\
  chosen (bs "gtxna") q [bs "1"; bs "Accounts"; bs "2"] = bs "gtxna 1 Accounts 2" /\
  process env0 (word_text stated ++ chosen (bs "gtxna") q [bs "1"; bs "Accounts"; bs "2"] ++ [c_lf] ++ behind) = Ret r /\ r_diag r = [] /\
  r_listing r = [PragmaExpr 8; GtxnaExpr 1 28 2; Op0 PopExpr; IntExpr 1; ReturnExpr].
Proof.
  destruct (process env0 (word_text stated ++ behind)) as [r0| |] eqn:E; [|vm_compute in E; discriminate|vm_compute in E; discriminate].
  assert (L : r_listing r0 = [PragmaExpr 8; Op0 PopExpr; IntExpr 1; ReturnExpr]) by (vm_compute in E; injection E as <-; reflexivity).
  pose proof C111_asked as A. destruct (process env0 (word_text stated ++ join [bs "gt"] ++ [c_lf] ++ behind)) as [r1| |] eqn:E1; try discriminate A. clear - E L A E1.
  destruct (completions r1 (Pos 1 2)) as [[[|x [|y ns]]|]| |] eqn:C; try discriminate A.
  apply andb_true_iff in A as [A I]. apply andb_true_iff in A as [A1 A2]. apply seqb_eq in A1, A2. subst x y.
  destruct (ops_get (bs "gtxna")) as [q|] eqn:G; [|vm_compute in G; discriminate].
  assert (V : version_at (eols (text_pieces stated)) (r_lines r0) = 8%N /\ mode_at (eols (text_pieces stated)) (r_lines r0) = ModeApp) by (vm_compute in E; injection E as <-; vm_compute; auto).
  destruct V as [V M].
  destruct (C111_partial env0 (word_text stated) (text_pieces stated) behind r0 r1 (Pos 1 2) [bs "gt"] ns (bs "gtxna") q [bs "1"; bs "Accounts"; bs "2"] (GtxnaExpr 1 28 2)) as [r [P [D R]]].
  - apply word_text_lexes. repeat constructor.
  - apply InsertDoc.text_pieces_ends.
  - reflexivity.
  - exact E.
  - vm_compute in E. injection E as <-. reflexivity.
  - clear E E1. rewrite L. intros i H [v N]. destruct i as [|[|[|[|i]]]]; [vm_compute in H; lia|discriminate|discriminate|discriminate|destruct i; discriminate].
  - right. exists (bs "gt"), (bs "xna"). repeat split.
  - exact E1.
  - exact C.
  - apply mem_In. exact I.
  - exact G.
  - clear E E1. repeat constructor.
  - clear E E1 C. vm_compute in G. injection G as <-. reflexivity.
  - rewrite V. clear E E1 C. vm_compute in G. injection G as <-. vm_compute. reflexivity.
  - rewrite M. clear E E1 C. vm_compute in G. injection G as <-. vm_compute. discriminate.
  - rewrite V. discriminate.
  - clear E E1 C. split; [intros H; inversion H|intros H; inversion H|intros n H; inversion H].
  - clear E E1 C. rewrite L. intros [j [e [J [N [U _]]]]]. assert (j = 0) as -> by (vm_compute in J; lia). injection N as <-. inversion U.
  - exists q, r. split; [reflexivity|]. split; [clear - G; vm_compute in G; injection G as <-; vm_compute; reflexivity|]. split; [exact P|]. split; [exact D|]. rewrite R, L. reflexivity.
Qed.
