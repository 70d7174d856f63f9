(* How often a diagnostic of a document is reported. *)
From Verif Require Import Base LexSpec Lexer LexerProofs Expr Linter Fields Strconv Literals Codec OpTable Process ProcessSpec ProcessDoc
  ProcessThms ErrorSpec ErrorProofs DiagSpec DiagProofs OnceSpec.
From Verif Require OnceProofs.
From Coq Require Import Lia.

Lemma layout_once ps : forall l c, length (snd (layout l c ps)) <= 1.
Proof.
  induction ps as [|p ps IH]; intros l c; [cbn; lia|]. destruct p; cbn [layout snd fst length]; first [apply IH|lia].
Qed.

Lemma count_filter {A} (dec : forall a b : A, {a = b} + {a <> b}) f (l : list A) x : f x = true ->
  count_occ dec (filter f l) x = count_occ dec l x.
Proof.
  intros F. induction l as [|y l IH]; [reflexivity|]. cbn [filter count_occ]. destruct (dec y x) as [->|N].
  - rewrite F. cbn [count_occ]. destruct (dec x x); [rewrite IH; reflexivity|congruence].
  - destruct (f y); [|exact IH]. cbn [count_occ]. destruct (dec y x); [congruence|exact IH].
Qed.

(* how often a diagnostic is due *)
Definition due_report (r : presult) (d : diagnostic) : nat :=
  match dg_kind d with KLint e => due (r_listing r) e | _ => 1 end.

Lemma lint_diags_count ls es ds : lint_diags ls es = Ret ds -> forall e d, In d ds -> dg_kind d = KLint e ->
  count_occ report_dec ds d = count_occ finding_dec es e.
Proof.
  intros E e d I K. pose proof I as J. apply (lint_reported _ _ _ E) in J as (e' & l & _ & N & ->). cbn [dg_kind] in K. injection K as ->.
  clear I. apply lint_diags_range in E. induction E as [|x y es ds [l' [N' ->]] F IH]; [reflexivity|]. cbn [count_occ].
  destruct (finding_dec x e) as [->|Q].
  - rewrite N in N'. injection N' as <-. destruct (report_dec _ _); [|congruence]. rewrite IH. reflexivity.
  - destruct (report_dec _ _) as [Q'|_]; [injection Q'; congruence|exact IH].
Qed.

Lemma gate_count en src r d : process en src = Ret r -> In d (r_diag r) ->
  match dg_kind d with KMode _ | KVersion _ _ => True | _ => False end -> count_occ report_dec (r_diag r) d = 1.
Proof.
  intros E I K.
  assert (J : In d (gates_on (dg_line d) (r_diag r))) by (apply in_gates; auto).
  rewrite <- (count_filter report_dec (fun d' => match dg_kind d' with KMode _ | KVersion _ _ => Nat.eqb (dg_line d') (dg_line d) | _ => false end))
    by (destruct (dg_kind d); try contradiction; apply Nat.eqb_refl).
  change (count_occ report_dec (gates_on (dg_line d) (r_diag r)) d = 1).
  assert (exists l, nth_error (r_lines r) (dg_line d) = Some l) as [l N].
  { pose proof (diagnostics_on_lines en src r d E I) as C. destruct (dg_kind d); try contradiction; destruct C as [l [N _]]; eauto. }
  rewrite (gates_of_line en src r _ _ E N) in *. apply OnceProofs.count_once; [|exact J].
  unfold gate. destruct l as [|t rest]; [constructor|]. destruct (kind_of (t :: rest)); try constructor.
  destruct (_ =? 0)%N, (_ <? _)%N; repeat constructor; cbn; intuition congruence.
Qed.

Theorem reports_count en src r d : process en src = Ret r -> In d (r_diag r) ->
  count_occ report_dec (r_diag r) d = due_report r d.
Proof.
  intros E I. unfold due_report. destruct (dg_kind d) as [m|rs|m|m v|e] eqn:K.
  - (* the lexer *)
    pose proof (process_result en src r E) as [ts [errs [raw [lds [T [_ [_ R]]]]]]].
    destruct (ro_diag _ _ _ _ _ _ _ R) as [ds [Ed Hd]].
    assert (Q : count_occ report_dec (r_diag r) d = count_occ report_dec (map lex_diag errs) d).
    { rewrite Ed, !count_occ_app.
      rewrite (OnceProofs.count_none report_dec ds d), (OnceProofs.count_none report_dec lds d); [lia| |].
      - intros J. apply (lint_reported _ _ _ (ro_lint _ _ _ _ _ _ _ R)) in J as (? & ? & _ & _ & ->). discriminate K.
      - intros J. pose proof (all_errors_kind _ _ _ _ _ _ Hd J) as J'. rewrite K in J'. exact J'. }
    apply (count_occ_In report_dec) in I. rewrite Q in *.
    destruct (lexes_exists src) as [ps L]. rewrite (tokenize_spec _ _ L) in T. injection T as T.
    pose proof (layout_once ps 0 0) as O. rewrite T in O. cbn [snd] in O.
    pose proof (count_occ_bound report_dec d (map lex_diag errs)) as B. rewrite map_length in B. lia.
  - (* the form of a line *)
    assert (J : In d (errors_on (dg_line d) (r_diag r))) by (apply in_errors; rewrite K; auto).
    rewrite <- (count_filter report_dec (fun d' => match dg_kind d' with KParse _ => Nat.eqb (dg_line d') (dg_line d) | _ => false end))
      by (rewrite K; apply Nat.eqb_refl).
    change (count_occ report_dec (errors_on (dg_line d) (r_diag r)) d = 1).
    assert (exists l, nth_error (r_lines r) (dg_line d) = Some l) as [l N].
    { pose proof (diagnostics_on_lines en src r d E I) as C. rewrite K in C. destruct C as [l [N _]]. eauto. }
    destruct (errors_exact en src r _ _ E N) as [[_ Q]|(t & rs' & _ & Q & M)]; rewrite Q in *; [destruct J|].
    destruct J as [J|[]]. rewrite J. cbn [count_occ]. destruct (report_dec d d); congruence.
  - (* the availability of an opcode *)
    apply (gate_count en src r d E I). rewrite K. exact Logic.I.
  - apply (gate_count en src r d E I). rewrite K. exact Logic.I.
  - (* the linter *)
    pose proof (process_result en src r E) as [ts [errs [raw [lds [T [_ [_ R]]]]]]].
    destruct (ro_diag _ _ _ _ _ _ _ R) as [ds [Ed Hd]].
    assert (Q : count_occ report_dec (r_diag r) d = count_occ report_dec lds d).
    { rewrite Ed, !count_occ_app.
      rewrite (OnceProofs.count_none report_dec ds d), (OnceProofs.count_none report_dec (map lex_diag errs) d); [reflexivity| |].
      - intros J. apply in_map_iff in J as (x & <- & _). discriminate K.
      - intros J. pose proof (all_errors_kind _ _ _ _ _ _ Hd J) as J'. rewrite K in J'. exact J'. }
    rewrite Q. assert (J : In d lds) by (apply (count_occ_In report_dec) in I; rewrite Q in I; apply (count_occ_In report_dec); exact I).
    rewrite (lint_diags_count _ _ _ (ro_lint _ _ _ _ _ _ _ R) e d J K). apply OnceProofs.lint_count.
    apply (lint_reported _ _ _ (ro_lint _ _ _ _ _ _ _ R)) in J as (e' & ? & J & _ & ->). injection K as ->. exact J.
Qed.
