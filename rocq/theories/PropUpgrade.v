(* Property C113: raising the version. *)
From Verif Require Import Base LexSpec Lexer Expr Linter OpTable Process ProcessSpec Lsp Edit DocLines EditProofs RenameProofs FixVersion UpgradeSpec UpgradeProofs PropProcess PropFix.

(* A document about which nothing is complained, except that opcodes need a version up to v, is without complaints after its
   version has been raised to v, and its program is the same but for the pragma. *)
Theorem C113 en src r v : one_per_line src -> process en src = Ret r ->
  (r_version r <= v < 2 ^ 64)%N -> (forall d, In d (r_diag r) -> too_old v d) ->
  exists r', process en (apply_edits (update_version r v) src) = Ret r' /\ r_diag r' = [] /\ r_version r' = v /\ upgraded v (r_listing r) (r_listing r').
Proof. intros [ps [L [O _]]] P. exact (raised en src ps r v L O P). Qed.
Print Assumptions C113.

(* Every single line that is read in a version is read as the same instruction in a newer one. *)
Theorem C113_line en v v' p args x : (v <= v')%N -> assemble en v p args = Some x -> assemble en v' p args = Some x.
Proof. intros L. exact (assemble_newer en v v' p L args x). Qed.
Print Assumptions C113_line.

Definition two : str := lines ["// counter"; "#pragma version 2"; "txn Fee"; "global GroupSize"; "addw"; "bsqrt"; "return"].
Definition none : str := lines ["txn Fee"; "global GroupSize"; "+"; "pop"; "bzero"; "len"].
Example C113_ex : one_per_line two /\ one_per_line none /\
  match process env0 two, process env0 none with
  | Ret r, Ret s =>
      map dg_kind (r_diag r) = [KVersion 6 2] /\ map dg_kind (r_diag s) = [KVersion 4 1] /\
      apply_edits (update_version r 6) two = lines ["// counter"; "#pragma version 6"; "txn Fee"; "global GroupSize"; "addw"; "bsqrt"; "return"] /\
      apply_edits (update_version s 260) none = bs "#pragma version 260" ++ [c_cr; c_lf] ++ none /\
      match process env0 (apply_edits (update_version r 6) two), process env0 (apply_edits (update_version r 5) two), process env0 (apply_edits (update_version s 260) none) with
      | Ret r', Ret r'', Ret s' => r_diag r' = [] /\ map dg_kind (r_diag r'') = [KVersion 6 5] /\ r_diag s' = [] /\ r_listing s' = PragmaExpr 4 :: r_listing s
      | _, _, _ => False end
  | _, _ => False end.
Proof.
  split; [apply unquoted_one; vm_compute; intros H; repeat (destruct H as [H|H]; [discriminate H|]); exact H|].
  split; [apply unquoted_one; vm_compute; intros H; repeat (destruct H as [H|H]; [discriminate H|]); exact H|].
  vm_compute. repeat split.
Qed.
Example C113_line_ex : match ops_get (bs "global") with
  | Some p => assemble env0 5 p [bs "CallerApplicationID"] = None /\ assemble env0 6 p [bs "CallerApplicationID"] = assemble env0 9 p [bs "CallerApplicationID"] /\
              assemble env0 6 p [bs "CallerApplicationID"] <> None
  | None => False end.
Proof. vm_compute. repeat split. discriminate. Qed.
