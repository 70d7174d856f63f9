(* C120: a rename can be taken back. *)
From Coq Require Import Lia.
From Verif Require Import Base LexSpec Lexer LexerThms LexStatements DocLines DocProofs DocTokens Expr Process ProcessSpec ProcessThms PropProcess Semantics Query QueryProofs Lsp Edit RoundTripSpec EditProofs RenameSpec RenameProofs UndoProofs PropEdit.

Lemma occurs en src ps r p old new : Lexes src ps -> strings_on_one_line ps -> process en src = Ret r ->
  Forall (fun t => starts_quote (tok_v t) = false) (r_refs r) -> is_word new = true -> named r p old -> exists e, In e (rename_edits r p new).
Proof.
  intros L O P Q W N. destruct (rename_exact en src ps r p old new L O P Q W N) as [H _].
  destruct N as [(s & Is & Ns & _)|(t & It & Nt & _)].
  - exists (TextEdit (name_range s) new). apply H. split; [reflexivity|]. left. exists s. auto.
  - exists (TextEdit (tok_range t) new). apply H. split; [reflexivity|]. right. exists t. auto.
Qed.
Lemma named_word en src ps r p old new : Lexes src ps -> strings_on_one_line ps -> process en src = Ret r ->
  Forall (fun t => starts_quote (tok_v t) = false) (r_refs r) -> is_word new = true -> named r p old -> is_word old = true.
Proof.
  intros L O P Q W N. destruct (occurs en src ps r p old new L O P Q W N) as [e I].
  rewrite (rename_named _ _ _ _ _ new P Q N), (rename_one_occ _ _ _ _ new P) in I.
  assert (F : forall t, In t (concat (r_lines r)) -> tok_t t = TokValue -> starts_quote (tok_v t) = false -> is_word (tok_v t) = true).
  { intros t It T S. destruct (lines_tokens en src r P) as [A B]. rewrite Forall_forall in B. destruct (B t (A t It)) as [_ C]. destruct (C T) as [D _]. exact (proj2 (D S)). }
  apply in_app_or in I. destruct I as [I|I]; apply in_map_iff in I; destruct I as [t [_ It]].
  - destruct (def_fact en src r P old t It) as (A & B & C & D & E & _). apply (prefix_word old (bs ":") E). rewrite <- D. exact (F t A B C).
  - destruct (ref_fact en src r P Q old t It) as (A & B & C & D & _). rewrite <- D. exact (F t A B C).
Qed.

(* renaming to a name that is not in use and back again gives the document that was *)
Theorem C120 en src ps r p old new r' p' :
  Lexes src ps -> strings_on_one_line ps -> process en src = Ret r ->
  Forall (fun t => starts_quote (tok_v t) = false) (r_refs r) -> is_word new = true -> named r p old ->
  ~ In new (map sy_name (r_syms r)) -> ~ In new (map tok_v (r_refs r)) ->
  process en (apply_edits (rename_edits r p new) src) = Ret r' -> named r' p' new ->
  apply_edits (rename_edits r' p' old) (apply_edits (rename_edits r p new) src) = src.
Proof.
  intros L O P Q W N S R P' N'. assert (V := named_word en src ps r p old new L O P Q W N).
  rewrite (rename_named _ _ _ _ _ new P Q N), (rename_one_occ _ _ _ _ new P) in *. fold (all_edits r old new) in *.
  rewrite (rename_named _ _ _ _ _ old P' (quotes_back en src ps r r' old new L O P Q W S R P') N'), (rename_one_occ _ _ _ _ old P').
  exact (rename_undone en src ps r r' old new L O P Q W V S R P').
Qed.
Print Assumptions C120.

(* and there is a place to do it from *)
Theorem C120_can en src ps r p old new r' :
  Lexes src ps -> strings_on_one_line ps -> process en src = Ret r ->
  Forall (fun t => starts_quote (tok_v t) = false) (r_refs r) -> is_word new = true -> named r p old ->
  process en (apply_edits (rename_edits r p new) src) = Ret r' -> exists p', named r' p' new.
Proof.
  intros L O P Q W N P'. destruct (rename_exact en src ps r p old new L O P Q W N) as (_ & _ & _ & _ & _ & H). destruct (H r' P') as (_ & S & R). clear H.
  assert (E : ren old new old = new) by (unfold ren; rewrite (proj2 (seqb_eq old old) eq_refl); reflexivity).
  destruct N as [(s & Is & Ns & _)|(t & It & Nt & _)].
  - apply (in_map sy_name) in Is. apply (in_map (ren old new)) in Is. rewrite Ns, E, <- S in Is. apply in_map_iff in Is. destruct Is as (s' & Es & Is).
    exists (Pos (Z.of_nat (sy_l s')) (Z.of_nat (sy_b s'))). left. exists s'. repeat split; auto; cbn [ps_char]; [lia|].
    destruct (sym_spec _ _ _ _ P' Is) as (t & w & Il & _ & _ & Eb & Ee). rewrite Eb, Ee. destruct (lines_tokens en _ r' P') as [A B]. rewrite Forall_forall in B.
    destruct (B t (A t (in_line r' t (t :: w) (or_introl eq_refl) Il))) as [C _]. lia.
  - apply (in_map tok_v) in It. apply (in_map (ren old new)) in It. rewrite Nt, E, <- R in It. apply in_map_iff in It. destruct It as (t' & Et & It).
    exists (Pos (Z.of_nat (tok_l t')) (Z.of_nat (tok_b t'))). right. exists t'. repeat split; auto; cbn [ps_char]; [lia|].
    destruct (ref_spec _ _ _ _ P' It) as (l & q & a & Il & Itl & _). destruct (lines_tokens en _ r' P') as [A B]. rewrite Forall_forall in B.
    destruct (B t' (A t' (in_line r' t' l Itl Il))) as [C _]. lia.
Qed.
Print Assumptions C120_can.

Definition renamed_text (src : str) (p : position) (new : str) : str :=
  match process env0 src with Ret r => apply_edits (rename_edits r p new) src | _ => src end.
(* a longer name, in a document with comments, a redefinition and two references on a line; to a name in use there is no way back *)
Example C120_ex :
  renamed_text looping (Pos 5 9) (bs "again") = lines ["int 1"; "again:"; "b again // a"; "again: "; "int 0"; "switch c again again"] /\
  renamed_text (renamed_text looping (Pos 5 9) (bs "again")) (Pos 1 2) (bs "a") = looping /\
  renamed_text (renamed_text looping (Pos 5 9) (bs "c")) (Pos 1 0) (bs "a") <> looping.
Proof. split; [vm_compute; reflexivity|]. split; [vm_compute; reflexivity|]. vm_compute. intros H. discriminate H. Qed.
Example C120_hyps : (exists ps, Lexes looping ps /\ strings_on_one_line ps) /\
  match process env0 looping with
  | Ret r => Forall (fun t => starts_quote (tok_v t) = false) (r_refs r) /\ named r (Pos 5 9) (bs "a") /\ is_word (bs "again") = true /\
      ~ In (bs "again") (map sy_name (r_syms r)) /\ ~ In (bs "again") (map tok_v (r_refs r))
  | _ => False end.
Proof.
  destruct C43_ex as [A B]. split; [exact A|]. revert B. destruct (process env0 looping) as [r| |] eqn:E; [|intros []|intros []].
  intros (B & C & _). split; [exact B|]. split; [exact C|]. vm_compute in E. injection E as <-. split; [reflexivity|]. split; cbn; intros H; repeat destruct H as [H|H]; try discriminate H; destruct H.
Qed.
