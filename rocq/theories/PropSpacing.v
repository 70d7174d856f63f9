(* Property C116: spacing, line ends and comments behind code do not matter. *)
From Verif Require Dbg ProcessThms.
From Verif Require Import Base LexSpec Lexer Expr Linter OpTable Process ProcessSpec SpacingSpec SpacingProofs PropProcess.

(* Two documents that differ in nothing else: the same complaints in the same order about the same tokens of the same lines, the same
   program, version and mode. *)
Theorem C116 en s s' r : respaced s s' -> process en s = Ret r ->
  exists r', process en s' = Ret r' /\ Forall2 (alike r r') (r_diag r) (r_diag r') /\
    r_listing r' = r_listing r /\ r_version r' = r_version r /\ r_mode r' = r_mode r.
Proof. exact (respaced_same en s s' r). Qed.
Print Assumptions C116.

(* which also goes for documents the linter crashes over *)
Theorem C116_crash en s s' : respaced s s' -> (process en s = Panic <-> process en s' = Panic).
Proof.
  assert (X : forall s s', respaced s s' -> process en s = Panic -> process en s' = Panic).
  { intros a b (ps & ps' & L & L' & B) P. destruct (ProcessThms.process_outcome en b) as (_ & _ & _ & _ & _ & [[r R]|[R _]]); [|exact R].
    destruct (respaced_same en b a r) as (r' & P' & _); [exists ps', ps; auto|exact R|]. rewrite P in P'. discriminate. }
  intros H. split; apply X; [exact H|]. destruct H as (ps & ps' & L & L' & B). exists ps', ps. auto.
Qed.
Print Assumptions C116_crash.

(* and debugging either is the same: launched from any session, both answer alike and leave the same session *)
Theorem C116_debug en pick fuel s s' z q path : respaced s s' ->
  Dbg.handle en pick fuel z (Dbg.DRequest q (Dbg.RLaunch (Dbg.Args (path, Some s)))) = Dbg.handle en pick fuel z (Dbg.DRequest q (Dbg.RLaunch (Dbg.Args (path, Some s')))).
Proof.
  intros H. cbn [Dbg.handle]. destruct (ProcessThms.process_outcome en s) as (_ & _ & _ & _ & _ & [[r R]|[R _]]).
  - destruct (respaced_same en s s' r H R) as (r' & R' & _ & E1 & E2 & _). rewrite R, R'. cbn [bindr]. rewrite E1, E2. reflexivity.
  - rewrite R, (proj1 (C116_crash en s s' H) R). reflexivity.
Qed.
Print Assumptions C116_debug.

(* pieces without strings *)
Definition eolc (c : ascii) : bool := Ascii.eqb c c_lf || Ascii.eqb c c_cr.
Definition delim (c : ascii) : bool := Ascii.eqb c c_space || Ascii.eqb c c_tab || eolc c.
Definition starts (f : ascii -> bool) (s : str) : bool := match s with [] => true | c :: _ => f c end.
Fixpoint pieced (ps : list piece) : bool :=
  match ps with
  | [] => true
  | p :: r =>
      let s := concat (map piece_text r) in
      match p with
      | PBlank c => Ascii.eqb c c_space || Ascii.eqb c c_tab
      | PEol w => seqb w [c_lf] || seqb w [c_cr; c_lf]
      | PComment w => forallb (fun c => negb (eolc c)) w && starts eolc s
      | PWord (c :: w) => negb (Ascii.eqb c c_quote) && negb (Ascii.eqb c c_slash) && forallb (fun c => negb (delim c)) (c :: w) && starts delim s
      | _ => false
      end && pieced r
  end.
Lemma pieced_lexes ps : pieced ps = true -> Lexes (concat (map piece_text ps)) ps.
Proof.
  assert (E1 : forall c, eolc c = true <-> is_eolc c) by (intros c; unfold eolc, is_eolc; rewrite Bool.orb_true_iff, !Ascii.eqb_eq; tauto).
  assert (E2 : forall c, delim c = true <-> is_delim c).
  { intros c. unfold delim, is_delim, is_blank. rewrite !Bool.orb_true_iff, E1, !Ascii.eqb_eq. tauto. }
  assert (W : forall (f : ascii -> bool) (Q : ascii -> Prop) w, (forall c, f c = true <-> Q c) -> forallb (fun c => negb (f c)) w = true -> Forall (fun c => ~ Q c) w).
  { intros f Q w H B. apply Forall_forall. intros c I X. rewrite forallb_forall in B. apply H in X. specialize (B c I). rewrite X in B. discriminate. }
  assert (S : forall (f : ascii -> bool) (Q : ascii -> Prop) s, (forall c, f c = true <-> Q c) -> starts f s = true -> ends_before Q s).
  { intros f Q [|c s] H B; [exact I|apply H; exact B]. }
  induction ps as [|p r IH]; intros H; [constructor|]. cbn [pieced] in H. apply andb_prop in H as [H R]. specialize (IH R). cbn [map concat].
  destruct p as [c|w|w|w|w|w]; try discriminate.
  - apply Bool.orb_true_iff in H as [H|H]; apply Ascii.eqb_eq in H; subst; constructor; try exact IH; [left|right]; reflexivity.
  - apply Bool.orb_true_iff in H as [H|H]; apply seqb_eq in H; subst; constructor; exact IH.
  - apply andb_prop in H as [A B]. cbn [piece_text app]. constructor; [exact (W _ _ _ E1 A)|exact (S _ _ _ E1 B)|exact IH].
  - destruct w as [|c w]; [discriminate|]. apply andb_prop in H as [A B]. apply andb_prop in A as [A D]. apply andb_prop in A as [A C].
    cbn [piece_text app]. apply Lx_word; [|intros w' X; injection X as -> _; discriminate|exact (W _ _ _ E2 D)|exact (S _ _ _ E2 B)|exact IH].
    intros ->. discriminate.
Qed.

Definition sp := PBlank c_space.
Definition word (s : string) := PWord (bs s).
Definition tight : list piece := [word "b"; sp; word "x"; PEol [c_lf]; PComment (bs "note"); PEol [c_lf]; word "txn"; sp; word "Fees"; PEol [c_lf]; word "bogus"; PEol [c_lf]; word "x:"].
Definition loose : list piece := [PBlank c_tab; word "b"; sp; sp; word "x"; sp; PComment (bs " there it is"); PEol [c_cr; c_lf]; sp; PComment (bs "note"); PEol [c_lf]; sp; word "txn"; PBlank c_tab; word "Fees"; PEol [c_cr; c_lf];
  word "bogus"; sp; PComment (bs " ""what"); PEol [c_lf]; word "x:"; sp].
Definition text (ps : list piece) : str := concat (map piece_text ps).
Example C116_ex : respaced (text tight) (text loose) /\
  match process env0 (text tight), process env0 (text loose) with
  | Ret r, Ret r' => map (fun d => (dg_line d, dg_b d, dg_e d)) (r_diag r) = [(0, 0, 1); (2, 4, 8); (3, 0, 5); (0, 0, 3)] /\ map (fun d => (dg_line d, dg_b d, dg_e d)) (r_diag r') = [(0, 1, 2); (2, 5, 9); (3, 0, 5); (0, 1, 5)] /\
      map dg_kind (r_diag r) = map dg_kind (r_diag r') /\ r_listing r = [BExpr (bs "x"); EmptyExpr; EmptyExpr; EmptyExpr; LabelExpr (bs "x")]
  | _, _ => False end.
Proof.
  split; [exists tight, loose; split; [apply pieced_lexes; reflexivity|split; [apply pieced_lexes; reflexivity|reflexivity]]|]. vm_compute. repeat split.
Qed.
