(* The outline of a document: proofs. *)
From Verif Require Import Base LexSpec Lexer LexerProofs LexerThms LexStatements DocLines DocProofs DocTokens Codec Expr OpTable Process ProcessSpec ProcessDoc ProcessThms Semantics Query Lsp LspSpec LspProofs Edit RoundTripSpec QueryProofs EditProofs RenameSpec RenameProofs OutlineSpec.
From Coq Require Import Lia Sorted.

(* what is sent *)
Definition outline (r : presult) : list (str * range) := map (fun y => (sy_name y, sym_range y)) (r_syms r).

Theorem outline_answer en es s out uri id :
  run en start es = Ret (s, out) -> s_exit s = false -> s_shutdown s = false ->
  written (handle en s (Call id (DocumentSymbol (Params (Some uri))))) =
  match latest uri es with
  | None => Ret []
  | Some t => letr r := process (l_env en) t in Ret [Reply id (ADocumentSymbol (outline r))]
  end.
Proof.
  intros R X D. rewrite (answers_latest en es s out uri id (DocumentSymbol (Params (Some uri))) R X D eq_refl).
  unfold just_opened. cbn [handle s_shutdown s_config]. unfold results, get_doc.
  destruct (latest uri es) as [t|]; cbn [s_docs find fst]; [|reflexivity].
  rewrite (proj2 (seqb_eq uri uri) eq_refl). cbn [d_res d_text].
  destruct (process (l_env en) t) as [r| |]; cbn [bindr]; reflexivity.
Qed.

Lemma outline_defines en src r : process en src = Ret r ->
  outline r = map (fun d : token * str => (snd d, tok_range (fst d))) (flat_map defines (r_lines r)).
Proof.
  intros E. destruct (symbols_complete en src r E) as [S _]. unfold outline.
  generalize dependent (flat_map defines (r_lines r)). induction (r_syms r) as [|s ss IH]; intros [|d ds] Q; try discriminate Q; [reflexivity|].
  cbn [map] in *. injection Q as Q1 Q2 Q3 Q4 Q. rewrite (IH _ Q). f_equal. unfold sym_range, tok_range. congruence.
Qed.
Lemma defines_spec l d : In d (defines l) <-> exists t w, l = t :: w /\ tok_t t <> TokComment /\ snd d <> [] /\ tok_v t = snd d ++ bs ":" /\ fst d = t.
Proof.
  unfold defines. destruct l as [|t w]; [split; [intros []|intros (t & w & H & _); discriminate H]|]. split.
  - destruct (kind_of (t :: w)) as [| |[|c m]| | |] eqn:K; try (intros X; exact (False_ind _ X)). intros [<-|[]]. exists t, w. split; [reflexivity|].
    unfold kind_of in K. destruct (tok_t t); try discriminate K; (split; [discriminate|]; split; [discriminate|]; split; [|reflexivity];
      destruct (label_name (tok_v t)) as [x|] eqn:L; [injection K as ->; exact (label_name_spec _ _ L)|]; destruct (seqb _ _); [discriminate K|]; destruct (ops_get _); discriminate K).
  - intros (u & v & H & T & N & V & F). injection H as <- <-. unfold kind_of. rewrite V, label_name_of. destruct d as [d n]. cbn [fst snd] in *. subst d.
    destruct n as [|c n]; [congruence|]. destruct (tok_t t); try congruence; left; reflexivity.
Qed.

Section result.
Variables (en : env) (src : str) (r : presult).
Hypothesis HP : process en src = Ret r.

Theorem outline_exact n rg : In (n, rg) (outline r) <-> exists i, label_line r i n rg.
Proof.
  rewrite (outline_defines en src r HP), in_map_iff. destruct (lines_of_result _ _ _ HP) as [A _ _ _]. split.
  - intros [[t m] [Q I]]. cbn [fst snd] in Q. injection Q as -> <-. apply in_flat_map in I. destruct I as [l [Il I]].
    apply defines_spec in I. destruct I as (u & w & -> & T & N & V & F). cbn [fst snd] in *. subst t.
    apply In_nth_error in Il. destruct Il as [i Ni]. exists i, u, w. pose proof (lines_at_nth _ _ _ _ A Ni) as [L _].
    inversion L as [|? ? L1 _]; subst. unfold tok_range. cbn [Nat.add] in *. rewrite L1. auto.
  - intros (i & t & w & Ni & T & V & N & ->). exists (t, n). cbn [fst snd]. pose proof (lines_at_nth _ _ _ _ A Ni) as [L _].
    inversion L as [|? ? L1 _]; subst. cbn [Nat.add] in *. split; [unfold tok_range; rewrite L1; reflexivity|].
    apply in_flat_map. exists (t :: w). split; [exact (nth_error_In _ _ Ni)|]. apply defines_spec. exists t, w. auto.
Qed.

Theorem outline_order : StronglySorted downwards (outline r).
Proof.
  rewrite (outline_defines en src r HP). destruct (lines_of_result _ _ _ HP) as [A _ _ _]. revert A. generalize 0.
  induction (r_lines r) as [|l ls IH]; intros i A; [constructor|]. cbn [lines_at flat_map] in *. destruct A as [[A1 A2] A3]. rewrite map_app.
  apply SSorted_app; [|exact (IH _ A3)|].
  - unfold defines. destruct l as [|t w]; [constructor|]. destruct (kind_of (t :: w)) as [| |[|c m]| | |]; repeat constructor.
  - intros x y X Y. apply in_map_iff in X, Y. destruct X as [[t n] [<- X]], Y as [[u m] [<- Y]]. apply in_flat_map in Y. destruct Y as [l' [Il Y]].
    apply defines_spec in X, Y. destruct X as (t' & w & -> & _ & _ & _ & F), Y as (u' & w' & -> & _ & _ & _ & F'). cbn [fst snd] in *. subst t' u'.
    destruct (lines_at_ge _ _ _ A3 Il) as [k [K1 [K2 _]]]. inversion A1; inversion K2; subst. unfold downwards, tok_range. cbn [snd r_sl fst]. lia.
Qed.

(* the range covers the name and the colon *)
Theorem outline_text ps ls n rg : Lexes src ps -> strings_on_one_line ps -> lines_of src ls -> In (n, rg) (outline r) -> covers ls rg (n ++ bs ":").
Proof.
  intros L O Ls I. apply outline_exact in I. destruct I as (i & t & w & Ni & T & V & N & ->).
  pose proof (nth_error_In _ _ Ni) as Il. assert (It : In t (t :: w)) by (left; reflexivity). pose proof (no_eol en src r HP t _ It Il) as Ne.
  assert (Tv : tok_t t = TokValue) by (destruct (tok_t t); congruence).
  destruct (lines_of_result _ _ _ HP) as [A _ _ _]. pose proof (lines_at_nth _ _ _ _ A Ni) as [L1 _]. inversion L1 as [|? ? L2 _]; subst. cbn [Nat.add] in L2.
  destruct (process_result en src r HP) as [ts [errs [raw [lds [Tk [_ [_ R]]]]]]].
  destruct (tokens_on_lines _ _ _ _ _ L O Tk Ls) as [_ H].
  assert (Ts : In t ts) by (rewrite <- (ro_tokens _ _ _ _ _ _ _ R); apply (lines_tokens _ _ _ HP); apply in_concat; exists (t :: w); auto).
  destruct (H t Ts ltac:(congruence)) as [line [pre [rw [post [Nl [El [Eb [Ee Tt]]]]]]]].
  assert (Q : rw = tok_v t).
  { unfold token_text in Tt. rewrite Tv in Tt. destruct Tt as [[Tt _]|[w' [v [_ [_ Tt]]]]]; [auto|]. exfalso.
    rewrite V in Tt. change (n ++ [":"%char] = (c_quote :: v) ++ [c_quote]) in Tt. apply app_inj_tail in Tt. destruct Tt as [_ Tt]. discriminate Tt. }
  subst rw. exists i, line, pre, post. rewrite <- V, <- L2. split; [exact Nl|]. split; [exact El|]. rewrite L2 in Nl. rewrite L2, Eb, Ee. reflexivity.
Qed.
End result.
