(* Property C117: labels are only names. *)
From Verif Require Import Base LexSpec Lexer LexerProofs LexerThms DocLines DocProofs Codec Expr OpTable Process ProcessSpec ProcessThms Literals Semantics Query Lsp Edit RoundTripSpec QueryProofs Linter Compiler RenameSpec RenameProofs HintSpec PropEdit Vm AliasSpec.
From Verif Require Flow AliasProofs.

(* the linter finds the same in a program whose labels are renamed *)
Theorem C117 f l : keeps_apart f l ->
  lint (map (rename_expr f) l) = map (rename_error f) (lint l) /\
  lint_redundant (map (rename_expr f) l) = map (rename_redundant f) (lint_redundant l).
Proof.
  intros K. assert (N := AliasProofs.keeps_inside l).
  split; [exact (AliasProofs.lint_rename f _ K l N)|exact (AliasProofs.redundant_rename f _ K l N)].
Qed.
Print Assumptions C117.

(* the optimizer does the same to it *)
Theorem C117_optimize f l : keeps_apart f l -> optimize (map (rename_expr f) l) = map (rename_expr f) (optimize l).
Proof. intros K. exact (AliasProofs.optimize_rename f _ K l (AliasProofs.keeps_inside l)). Qed.
Print Assumptions C117_optimize.

(* it runs in the same way *)
Theorem C117_runs f l c tr c' : keeps_apart f l ->
  (Flow.run (map (rename_expr f) l) c tr c' <->
   exists tr', tr = map (fun p => (rename_expr f (fst p), snd p)) tr' /\ Flow.run l c tr' c').
Proof.
  intros K. split; [exact (AliasProofs.run_renamed f l c tr c' K)|].
  intros (tr' & -> & R). exact (AliasProofs.run_rename f l c tr' c' K R).
Qed.
Print Assumptions C117_runs.

(* the debugger does the same with it, whatever it is told to do *)
Theorem C117_debug f l version cs : keeps_apart f l ->
  alike_outcomes f (drive l version cs) (drive (map (rename_expr f) l) version cs).
Proof. exact (AliasProofs.drive_alike f l version cs). Qed.
Print Assumptions C117_debug.

(* a rename in the editor to a name that is not in use changes names only *)
Theorem C117_rename en src ps r p old new r' version cs :
  Lexes src ps -> strings_on_one_line ps -> process en src = Ret r ->
  Forall (fun t => starts_quote (tok_v t) = false) (r_refs r) -> is_word new = true -> named r p old ->
  ~ name_of (r_listing r) new -> process en (apply_edits (rename_edits r p new) src) = Ret r' ->
  lint (r_listing r') = map (rename_error (ren old new)) (lint (r_listing r)) /\
  optimize (r_listing r') = map (rename_expr (ren old new)) (optimize (r_listing r)) /\
  alike_outcomes (ren old new) (drive (r_listing r) version cs) (drive (r_listing r') version cs).
Proof.
  intros L O R Q W N F R'. assert (K := AliasProofs.ren_apart _ old _ F).
  destruct (C43_partial en src ps r p old new L O R Q W N) as (_ & _ & _ & _ & _ & E). destruct (E r' R') as (-> & _ & _).
  split; [exact (proj1 (C117 _ _ K))|]. split; [exact (C117_optimize _ _ K)|exact (C117_debug _ _ version cs K)].
Qed.
Print Assumptions C117_rename.

Definition counting : listing :=
  [IntExpr 3; LabelExpr (bs "a"); IntExpr 1; CallSubExpr (bs "b"); BnzExpr (bs "a"); BExpr (bs "c"); LabelExpr (bs "b"); RetSubExpr; LabelExpr (bs "d"); LabelExpr (bs "d")].
(* names that are exchanged stay apart; names that become one do not, and then the theorem is false *)
Definition exchange (s : str) : str := if seqb s (bs "a") then bs "b" else if seqb s (bs "b") then bs "a" else s.
Definition confuse (s : str) : str := if seqb s (bs "c") then bs "a" else s.
Example C117_ex :
  keeps_apart exchange counting /\
  lint counting = [DuplicateLabelError 8 (bs "d"); DuplicateLabelError 9 (bs "d"); UnusedLabelError 8 (bs "d"); UnusedLabelError 9 (bs "d"); MissingLabelError 5 (bs "c")] /\
  map (rename_expr exchange) counting <> counting /\
  (match drive counting 6 [CStep; CStep; CStep; CBreak [4%Z]; CRun 100], drive (map (rename_expr exchange) counting) 6 [CStep; CStep; CStep; CBreak [4%Z]; CRun 100] with
   | Ret v, Ret w => map b_line (v_branches v) = [Some 4] /\ map b_line (v_branches w) = [Some 4] /\ v_trig v = [(0, [4])] /\ v_trig w = [(0, [4])]
   | _, _ => False end) /\
  lint (map (rename_expr confuse) counting) <> map (rename_error confuse) (lint counting) /\ ~ keeps_apart confuse counting.
Proof.
  split.
  { intros a b (e & I & U) (e' & I' & U').
    assert (D : forall n, (exists e, In e counting /\ (e = LabelExpr n \/ In n (uses e))) -> In n [bs "a"; bs "b"; bs "c"; bs "d"]).
    { clear. intros n (e & I & U). cbn in I. repeat (destruct I as [<-|I]; [destruct U as [U|U]; [try discriminate U; injection U as <-|cbn in U; try contradiction U; destruct U as [<-|[]]]; cbn; tauto|]). destruct I. }
    assert (A := D a (ex_intro _ e (conj I U))). assert (B := D b (ex_intro _ e' (conj I' U'))). clear - A B. cbn in A, B.
    destruct A as [<-|[<-|[<-|[<-|[]]]]], B as [<-|[<-|[<-|[<-|[]]]]]; vm_compute; intros E; try reflexivity; discriminate E. }
  split; [vm_compute; reflexivity|]. split; [vm_compute; discriminate|]. split; [vm_compute; repeat split|]. split; [vm_compute; discriminate|].
  intros K. assert (E : bs "c" = bs "a"); [|discriminate E]. apply K; [| |reflexivity].
  - exists (BExpr (bs "c")). split; [cbn; tauto|right; left; reflexivity].
  - exists (LabelExpr (bs "a")). split; [cbn; tauto|left; reflexivity].
Qed.
