(* Property C100: how often a problem is reported. *)
From Verif Require Import Base LexSpec Lexer Expr Linter Fields Strconv Literals Codec OpTable Process ProcessSpec
  ErrorSpec DiagSpec DiagProofs OnceSpec OnceDoc.
From Verif Require Flow OnceProofs LinterThms.
From Verif Require Import PropProcess.
From Coq Require Import Lia.

(* ---------------------------------------------------------------- C100: every problem is reported once *)
(* a label that is missing is reported as often as the line names it, with the same diagnostic *)
Theorem C100_refuted : exists src r, process env0 src = Ret r /\ ~ NoDup (r_diag r).
Proof.
  exists (lines ["#pragma version 8"; "int 1"; "switch x x"]).
  destruct (process env0 (lines ["#pragma version 8"; "int 1"; "switch x x"])) as [r| |] eqn:E; vm_compute in E; try discriminate.
  injection E as <-. eexists. split; [reflexivity|]. cbn [r_diag]. intros N. inversion N as [|? ? H _]; subst. apply H. left. reflexivity.
Qed.
Print Assumptions C100_refuted.

(* everything that is reported is reported once, but a missing label as often as its line names it *)
Theorem C100_partial en src r d : process en src = Ret r -> In d (r_diag r) ->
  count_occ report_dec (r_diag r) d =
  match dg_kind d with
  | KLint (MissingLabelError i n) =>
      match nth_error (r_listing r) i with Some e => count_occ text_dec (mentions e) n | None => 0 end
  | _ => 1
  end.
Proof.
  intros E I. rewrite (reports_count en src r d E I). unfold due_report. destruct (dg_kind d) as [| | | |[]]; reflexivity.
Qed.
Print Assumptions C100_partial.

(* so there are no repetitions if and only if no line names a missing label twice *)
Theorem C100_exact en src r : process en src = Ret r ->
  (NoDup (r_diag r) <->
   forall i e n, nth_error (r_listing r) i = Some e -> (forall k, ~ Flow.defines (r_listing r) k n) ->
     count_occ text_dec (mentions e) n <= 1).
Proof.
  intros E. rewrite (NoDup_count_occ report_dec). split.
  - intros H i e n N U.
    destruct (in_dec text_dec n (mentions e)) as [M|M]; [|apply (count_occ_not_In text_dec) in M; lia].
    assert (F : finding (r_listing r) (MissingLabelError i n)).
    { apply FMissing; [|exact U]. exists e. split; [exact N|].
      destruct e; cbn [mentions] in M; try contradiction; try (destruct M as [<-|[]]); constructor; exact M. }
    destruct (finding_placed en src r _ E F) as [l L].
    pose proof (RFinding en src r _ l F L) as R. apply (reports_exact en src r _ E) in R.
    pose proof (C100_partial en src r _ E R) as C. cbn [dg_kind] in C. rewrite N in C. rewrite <- C. apply H.
  - intros H d. destruct (in_dec report_dec d (r_diag r)) as [I|I]; [|apply (count_occ_not_In report_dec) in I; lia].
    rewrite (C100_partial en src r d E I). apply (reports_exact en src r d E) in I.
    destruct I as [| | | |e l F N]; cbn [dg_kind]; try lia. destruct e as [| | | |i n| |]; try lia.
    inversion F as [| | | |i' n' D U| |]; subst. destruct (nth_error (r_listing r) i) as [e|] eqn:X; [|lia]. exact (H i e n X U).
Qed.
Print Assumptions C100_exact.

(* the same for the linter alone *)
Theorem C100_linter l e : In e (lint l) -> count_occ finding_dec (lint l) e =
  match e with
  | MissingLabelError i n => match nth_error l i with Some x => count_occ text_dec (mentions x) n | None => 0 end
  | _ => 1
  end.
Proof. intros I. rewrite (OnceProofs.lint_count l e I). destruct e; reflexivity. Qed.
Print Assumptions C100_linter.

Example C100_ex : match process env0 (lines ["#pragma version 8"; "int 1"; "switch x y x"; "a:"; "a:"; "zzz"; "byte ""a"]) with
  Ret r => map (fun d => (dg_line d, count_occ report_dec (r_diag r) d)) (r_diag r) =
           [(6, 1); (5, 1); (6, 1); (3, 1); (4, 1); (3, 1); (4, 1); (2, 2); (2, 2); (2, 1)] | _ => False end.
Proof. vm_compute. reflexivity. Qed.
