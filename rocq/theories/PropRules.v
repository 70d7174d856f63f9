(* C118: what a report files under a rule is what the rule is described to check. *)
From Verif Require Import Base LexSpec Lexer Expr Linter Codec OpTable Process ProcessSpec ErrorSpec PropProcess DiagSpec DiagProofs Sarif Rules.
From Verif Require Flow LintSpec.

(* what a description says there is on line i of a document *)
Inductive describes (en : env) (src : str) (r : presult) (i : nat) : str -> Prop :=
| DSyntax ps w : Lexes src (ps ++ [POpen w]) -> lines_behind ps = i -> describes en src r i (bs "Syntax checks")
| DParse l t rs : nth_error (r_lines r) i = Some l -> mistake en (version_at i (r_lines r)) l t rs -> describes en src r i (bs "Parser checks")
| DDuplicate j n : Flow.defines (r_listing r) i n -> Flow.defines (r_listing r) j n -> j <> i ->
    describes en src r i (bs "Checks for duplicate labels in a single TEAL source file")
| DUnused n : Flow.defines (r_listing r) i n -> ~ Flow.used (r_listing r) n ->
    describes en src r i (bs "Checks for labels that are never referenced in the code")
| DAfter : LintSpec.instruction_at (r_listing r) i -> LintSpec.after_unconditional (r_listing r) i ->
    describes en src r i (bs "Checks for ops after an unconditional branch call")
| DBefore : LintSpec.b_before_own_label (r_listing r) i ->
    describes en src r i (bs "Checks for redundant branch calls that are placed just before their target labels")
| DLoop : closed_loop (r_listing r) i -> describes en src r i (bs "Checks infinite loops presence")
| DPragma j : LintSpec.pragma_at (r_listing r) i -> j < i -> LintSpec.instruction_at (r_listing r) j \/ LintSpec.pragma_at (r_listing r) j ->
    describes en src r i (bs "Checks proper #pragma usage")
| DMode t rest p args : nth_error (r_lines r) i = Some (t :: rest) -> kind_of (t :: rest) = LOp p args ->
    min_version (mode_at i (r_lines r)) p = 0%N ->
    describes en src r i (bs "Checks opcode availability in the current mode (app or logicsig)")
| DVersion t rest p args : nth_error (r_lines r) i = Some (t :: rest) -> kind_of (t :: rest) = LOp p args ->
    (version_at i (r_lines r) < min_version (mode_at i (r_lines r)) p)%N ->
    describes en src r i (bs "Checks opcode is available in the current version").

Lemma described_once rule a b : In (rule, a) rule_table -> In (rule, b) rule_table -> a = b.
Proof.
  intros A B. cbn in A, B.
  repeat (destruct A as [A|A]; [injection A as <- <-; repeat (destruct B as [B|B]; [first [discriminate B|injection B as <-; reflexivity]|]); destruct B|]); destruct A.
Qed.

(* a label that does not exist is filed under the rule about infinite loops *)
Theorem C118_refuted : exists src r d t, process env0 src = Ret r /\ In d (r_diag r) /\ In (dg_rule d, t) rule_table /\
  ~ describes env0 src r (dg_line d) t.
Proof.
  exists (lines ["#pragma version 8"; "b x"]). destruct (process env0 (lines ["#pragma version 8"; "b x"])) as [r| |] eqn:E; vm_compute in E; try discriminate. injection E as <-.
  eexists. exists (Diag 1 0 3 (KLint (MissingLabelError 1 (bs "x")))), (bs "Checks infinite loops presence").
  split; [reflexivity|]. split; [left; reflexivity|]. split; [cbn; tauto|]. intros H. cbn [dg_line] in H. inversion H as [| | | | | |(j & n & _ & J & D & _)| | |]. assert (j = 0) as -> by lia. discriminate D.
Qed.
Print Assumptions C118_refuted.

(* every other complaint is on a line that has what its rule is described to check *)
Theorem C118_partial en src r d t : process en src = Ret r -> In d (r_diag r) -> In (dg_rule d, t) rule_table ->
  (forall i n, dg_kind d <> KLint (MissingLabelError i n)) -> describes en src r (dg_line d) t.
Proof.
  intros E I T N. apply (reports_exact en src r d E) in I.
  assert (G : forall t', In (dg_rule d, t') rule_table -> describes en src r (dg_line d) t' -> describes en src r (dg_line d) t).
  { intros t' T' D. rewrite (described_once _ _ _ T T'). exact D. }
  destruct I as [ps w b L|i l tk rs L M|i tk rest p args L K Z|i tk rest p args m L K Z V|e l F L]; cbn [dg_line] in *.
  - apply (G (bs "Syntax checks")); [cbn; tauto|]. exact (DSyntax _ _ _ _ ps w L eq_refl).
  - apply (G (bs "Parser checks")); [cbn; tauto|]. exact (DParse _ _ _ _ l tk rs L M).
  - apply (G (bs "Checks opcode availability in the current mode (app or logicsig)")); [cbn; tauto|]. exact (DMode _ _ _ _ tk rest p args L K Z).
  - apply (G (bs "Checks opcode is available in the current version")); [cbn; tauto|]. subst m. exact (DVersion _ _ _ _ tk rest p args L K V).
  - destruct F as [i j n D D' J|i n D U|i A B|i B|i n A D|i C|i j P J O]; cbn [le_line] in *.
    + apply (G (bs "Checks for duplicate labels in a single TEAL source file")); [cbn; tauto|]. exact (DDuplicate _ _ _ _ j n D D' J).
    + apply (G (bs "Checks for labels that are never referenced in the code")); [cbn; tauto|]. exact (DUnused _ _ _ _ n D U).
    + apply (G (bs "Checks for ops after an unconditional branch call")); [cbn; tauto|]. exact (DAfter _ _ _ _ A B).
    + apply (G (bs "Checks for redundant branch calls that are placed just before their target labels")); [cbn; tauto|]. exact (DBefore _ _ _ _ B).
    + exfalso. exact (N i n eq_refl).
    + apply (G (bs "Checks infinite loops presence")); [cbn; tauto|]. exact (DLoop _ _ _ _ C).
    + apply (G (bs "Checks proper #pragma usage")); [cbn; tauto|]. exact (DPragma _ _ _ _ j P J O).
Qed.
Print Assumptions C118_partial.

(* and whatever a rule is described to check is reported under it, on the line where it is *)
Theorem C118_complete en src r i rule t : process en src = Ret r -> In (rule, t) rule_table -> describes en src r i t ->
  exists d, In d (r_diag r) /\ dg_rule d = rule /\ dg_line d = i.
Proof.
  intros E T D.
  assert (G : forall d, reported en src r d -> In (dg_rule d, t) rule_table -> dg_line d = i -> exists d, In d (r_diag r) /\ dg_rule d = rule /\ dg_line d = i).
  { intros d R T' L. exists d. split; [apply (reports_exact en src r d E), R|]. split; [|exact L]. clear - T T'. cbn in T, T'.
    repeat (destruct T as [T|T]; [injection T as <- <-; repeat (destruct T' as [T'|T']; [first [discriminate T'|injection T' as T'; symmetry; assumption|(injection T'; intros; subst; congruence)]|]); destruct T'|]); destruct T. }
  assert (F : forall e, finding (r_listing r) e -> In (le_rule e, t) rule_table -> le_line e = i -> exists d, In d (r_diag r) /\ dg_rule d = rule /\ dg_line d = i).
  { intros e Fe Te Le. destruct (finding_placed en src r e E Fe) as [l L]. exact (G _ (RFinding en src r e l Fe L) Te Le). }
  destruct D as [ps w L B|l tk rs L M|j n A B J|n A B|A B|A|A|j A J B|tk rest p args L K Z|tk rest p args L K V].
  - refine (G _ (ROpen en src r ps w L) _ B). cbn. tauto.
  - refine (G _ (RMistake en src r i l tk rs L M) _ eq_refl). cbn. tauto.
  - refine (F _ (FDuplicate _ i j n A B J) _ eq_refl). cbn. tauto.
  - refine (F _ (FUnused _ i n A B) _ eq_refl). cbn. tauto.
  - refine (F _ (FUnreachable _ i A B) _ eq_refl). cbn. tauto.
  - refine (F _ (FBranch _ i A) _ eq_refl). cbn. tauto.
  - refine (F _ (FLoop _ i A) _ eq_refl). cbn. tauto.
  - refine (F _ (FPragma _ i j A J B) _ eq_refl). cbn. tauto.
  - refine (G _ (RMode en src r i tk rest p args L K Z) _ eq_refl). cbn. tauto.
  - refine (G _ (RVersion en src r i tk rest p args _ L K eq_refl V) _ eq_refl). cbn. tauto.
Qed.
Print Assumptions C118_complete.

(* the report declares these rules, each once, and every complaint has one of them *)
Theorem C118_declared en src r d : map fst rule_table = declared_rules /\ NoDup (map fst rule_table) /\ NoDup (map snd rule_table) /\
  (process en src = Ret r -> In d (r_diag r) -> exists t, In (dg_rule d, t) rule_table).
Proof.
  split; [reflexivity|].
  assert (N : forall l : list str, (fix go (l : list str) := match l with [] => true | x :: l => negb (mem x l) && go l end) l = true -> NoDup l).
  { induction l as [|x l IH]; intros H; [constructor|]. apply Bool.andb_true_iff in H as [H H']. constructor; [|apply IH, H'].
    intros I. apply Bool.negb_true_iff in H. unfold mem in H. assert (X : existsb (seqb x) l = true); [|congruence].
    apply existsb_exists. exists x. split; [exact I|apply seqb_eq; reflexivity]. }
  split; [apply N; vm_compute; reflexivity|]. split; [apply N; vm_compute; reflexivity|].
  intros _ _. unfold dg_rule. destruct (dg_kind d) as [| | | |e]; [..|destruct e]; eexists; cbn; tauto.
Qed.
Print Assumptions C118_declared.

(* a document with a complaint under each rule *)
Example C118_ex : match process env0 (lines ["int 1"; "#pragma version 3"; "gload 0 0"; "a:"; "a: "; "b c"; "  int 1 "; "c:"; "b c"; "b d"; "d:"; "zzz";
    "//#pragma mode logicsig"; "log"; "b x"; "byte ""abc"]) with
  Ret r => forallb (fun p => existsb (fun d => seqb (dg_rule d) (fst p)) (r_diag r)) rule_table = true
  | _ => False end.
Proof. vm_compute. reflexivity. Qed.
