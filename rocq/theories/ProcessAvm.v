(* The declared availability of the opcodes against the published table. *)
From Verif Require Import Base Lexer Expr OpTable Codec Process ProcessSpec ProcessLine ProcessThms AvmVersions.
From Coq Require Import Lia.

Definition avm_version (m : mode) (n : string) : N :=
  match m with ModeApp => avm_version_app n | ModeSig => avm_version_sig n | ModeNone => 0%N end.
Definition avm_gate (m : mode) (v : N) (n : string) (t : token) : list diagnostic :=
  (if (avm_version m n =? 0)%N then [Diag (tok_l t) (tok_b t) (tok_e t) (KMode m)] else []) ++
  (if (v <? avm_version m n)%N then [Diag (tok_l t) (tok_b t) (tok_e t) (KVersion (avm_version m n) v)] else []).

(* the opcodes the comparison leaves out *)
Definition unlisted : list string :=
  ["args"; "ec_add"; "ec_scalar_mul"; "ec_pairing_check"; "ec_multi_exp"; "ec_subgroup_check"; "ec_map_to"].

Lemma table_agrees : forallb (fun np => let '(n, p) := np in
  match label_name (bs n) with Some _ => false | None => true end &&
  negb (seqb (bs n) (bs "#pragma")) &&
  match ops_get (bs n) with Some q => (dc_app (doc_of q) =? dc_app (doc_of p))%N && (dc_sig (doc_of q) =? dc_sig (doc_of p))%N | None => false end &&
  (existsb (String.eqb n) unlisted ||
   ((dc_app (doc_of p) =? avm_version_app n) && (dc_sig (doc_of p) =? avm_version_sig n))%N)) ops_list = true.
Proof. vm_compute. reflexivity. Qed.

Theorem gates_as_published en src r i t rest n : process en src = Ret r -> nth_error (r_lines r) i = Some (t :: rest) ->
  tok_t t <> TokComment -> tok_v t = bs n -> In n (map fst ops_list) -> ~ In n unlisted ->
  gates_on i (r_diag r) = avm_gate (mode_at i (r_lines r)) (version_at i (r_lines r)) n t.
Proof.
  intros E N T V I U. rewrite (gates_of_line en src r i _ E N).
  apply in_map_iff in I as [[n' p] [En I]]. cbn [fst] in En. subst n'.
  pose proof table_agrees as A. rewrite forallb_forall in A. specialize (A _ I). cbv beta iota in A.
  apply Bool.andb_true_iff in A as [A A4]. apply Bool.andb_true_iff in A as [A A3]. apply Bool.andb_true_iff in A as [A1 A2].
  destruct (label_name (bs n)) eqn:L; [discriminate|].
  destruct (ops_get (bs n)) as [q|] eqn:O; [|discriminate]. apply Bool.negb_true_iff in A2.
  apply Bool.andb_true_iff in A3 as [Q1 Q2]. apply N.eqb_eq in Q1, Q2.
  assert (existsb (String.eqb n) unlisted = false) as X.
  { apply Bool.not_true_iff_false. intros X. apply existsb_exists in X as [u [Iu Eu]]. apply String.eqb_eq in Eu. congruence. }
  rewrite X in A4. cbn [orb] in A4. apply Bool.andb_true_iff in A4 as [P1 P2]. apply N.eqb_eq in P1, P2.
  unfold gate. rewrite (kind_op t rest q) by (rewrite ?V; assumption).
  assert (min_version (mode_at i (r_lines r)) q = avm_version (mode_at i (r_lines r)) n) as ->; [|reflexivity].
  destruct (mode_at i (r_lines r)); cbn [min_version avm_version]; congruence.
Qed.

Theorem pragma_stored en src r i t rest v : process en src = Ret r -> filter is_surplus_diag (r_diag r) = [] ->
  nth_error (r_lines r) i = Some (t :: rest) -> tok_t t <> TokComment -> tok_v t = bs "#pragma" ->
  pragma_version (texts rest) = Some v ->
  version_at (S i) (r_lines r) = v /\ nth_error (r_listing r) i = Some (PragmaExpr (v mod 256)).
Proof.
  intros E F N T V P.
  assert (kind_of (t :: rest) = LPragma (texts rest)) as K.
  { unfold kind_of. rewrite V. change (label_name (bs "#pragma")) with (@None str). cbv iota.
    change (seqb (bs "#pragma") (bs "#pragma")) with true. destruct (tok_t t); congruence. }
  split.
  - unfold version_at. assert (forall ls w k, nth_error ls k = Some (t :: rest) -> last_version w (firstn (S k) ls) = v) as H; [|exact (H _ _ _ N)].
    induction ls as [|x ls IH]; intros w k Nk; [destruct k; discriminate|].
    destruct k as [|k]; cbn [firstn last_version].
    + injection Nk as ->. unfold version_after. rewrite K, P. reflexivity.
    + exact (IH _ _ Nk).
  - destruct (listing_lines en src r E F) as [_ H]. destruct (H i _ N) as [e [Ne Ee]]. rewrite Ne. f_equal.
    unfold entries in Ee. rewrite K, P in Ee. congruence.
Qed.
