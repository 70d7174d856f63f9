(* Vocabulary of C57 and proofs about the scanner. *)
From Verif Require Import Base Linter Process ProcessSpec ProcessDoc Sarif.
From Coq Require Import ZifyBool ZifyNat ZifyN.

(* what a report has to say about diagnostic number i of a file *)
Definition level_name (severity : nat) (l : str) : Prop :=
  match severity with 1 => l = bs "error" | 2 => l = bs "warning" | 3 | 4 => l = bs "note" | _ => False end.
Definition reports (uri : str) (i : nat) (d : diagnostic) (x : sresult) : Prop :=
  sr_rule x = dg_rule d /\ level_name (dg_severity d) (sr_level x) /\ sr_uri x = uri /\ sr_index x = i /\
  sr_line x = S (dg_line d) /\ sr_column x = S (dg_b d).

(* the reference to the artifact is right *)
Definition refers (rp : report) (x : sresult) : Prop := nth_error (rp_artifacts rp) (sr_index x) = Some (sr_uri x).

(* the diagnostics of the files in order *)
Inductive results_for (en : env) : list sfile -> list sresult -> Prop :=
| rf_nil : results_for en [] []
| rf_file uri src r xs fs ys : process en src = Ret r ->
    length xs = length (r_diag r) ->
    (forall i d x, nth_error (r_diag r) i = Some d -> nth_error xs i = Some x -> reports uri i d x) ->
    results_for en fs ys -> results_for en ((uri, Some src) :: fs) (xs ++ ys).

Lemma level_known d : exists l, sarif_level (dg_severity d) = Ret l /\ level_name (dg_severity d) l.
Proof. unfold dg_severity. destruct (dg_kind d) as [| | | |e]; try destruct e; eexists; (split; [reflexivity|reflexivity]). Qed.

Lemma file_results_spec uri : forall ds i, exists xs, file_results uri i ds = Ret xs /\ length xs = length ds /\
  forall k d x, nth_error ds k = Some d -> nth_error xs k = Some x -> reports uri (i + k) d x.
Proof.
  induction ds as [|d ds IH]; intros i; cbn [file_results].
  - exists []. split; [reflexivity|]. split; [reflexivity|]. intros [|k] d x H; discriminate.
  - destruct (level_known d) as [l [El Hl]]. destruct (IH (S i)) as [xs [E [L H]]]. rewrite El. cbn [bindr]. rewrite E. cbn [bindr].
    eexists. split; [reflexivity|]. split; [cbn; congruence|]. intros [|k] d' x Hd Hx; cbn [nth_error] in *.
    + injection Hd as <-. injection Hx as <-. unfold reports. cbn [sr_rule sr_level sr_uri sr_index sr_line sr_column].
      repeat split; try exact Hl; lia.
    + specialize (H k d' x Hd Hx). replace (i + S k) with (S i + k) by lia. exact H.
Qed.

Lemma scan_spec en : forall fs rp rp', scan_files en rp fs = Ret (Some rp') ->
  rp_rules rp' = rp_rules rp /\ rp_artifacts rp' = rp_artifacts rp ++ map fst fs /\
  exists ys, rp_results rp' = rp_results rp ++ ys /\ results_for en fs ys.
Proof.
  induction fs as [|[uri [src|]] fs IH]; intros rp rp' E; cbn [scan_files] in E.
  - injection E as <-. rewrite !app_nil_r. split; [reflexivity|]. split; [reflexivity|]. exists []. rewrite app_nil_r. split; [reflexivity|constructor].
  - destruct (process en src) as [r| |] eqn:Ep; cbn [bindr] in E; try discriminate.
    destruct (file_results_spec uri (r_diag r) 0) as [xs [Ex [L H]]]. rewrite Ex in E. cbn [bindr] in E.
    apply IH in E. destruct E as [E1 [E2 [ys [E3 E4]]]]. cbn [rp_rules rp_artifacts rp_results] in *.
    split; [exact E1|]. split; [rewrite E2, <- app_assoc; reflexivity|].
    exists (xs ++ ys). split; [rewrite E3, <- app_assoc; reflexivity|]. econstructor; eassumption.
  - discriminate.
Qed.

Lemma rule_known d : In (dg_rule d) declared_rules.
Proof.
  unfold dg_rule, declared_rules, lint_rules. cbn [app]. destruct (dg_kind d) as [| | | |e]; try destruct e; cbn [le_rule];
    repeat (try (left; reflexivity); right); contradiction.
Qed.

Lemma results_declared en fs ys : results_for en fs ys -> forall x, In x ys -> In (sr_rule x) declared_rules.
Proof.
  induction 1 as [|uri src r xs fs ys Ep L H R IH]; intros x Hx; [contradiction|].
  apply in_app_or in Hx. destruct Hx as [Hx|Hx]; [|auto]. apply In_nth_error in Hx. destruct Hx as [i Hi].
  destruct (nth_error (r_diag r) i) as [d|] eqn:Ed; [|apply nth_error_None in Ed; assert (i < length xs) by (apply nth_error_Some; congruence); lia].
  destruct (H i d x Ed Hi) as [-> _]. apply rule_known.
Qed.

Theorem scan_located en fs rp : scan en fs = Ret (Some rp) ->
  rp_artifacts rp = map fst fs /\ rp_rules rp = declared_rules /\ results_for en fs (rp_results rp) /\
  forall x, In x (rp_results rp) -> In (sr_rule x) (rp_rules rp).
Proof.
  intros E. apply scan_spec in E. destruct E as [E1 [E2 [ys [E3 E4]]]]. cbn in E1, E2, E3. subst ys.
  split; [exact E2|]. split; [exact E1|]. split; [exact E4|]. rewrite E1. eapply results_declared; exact E4.
Qed.

Theorem scan_ends en fs :
  (forall f, In f fs -> exists src r, snd f = Some src /\ process en src = Ret r) -> exists rp, scan en fs = Ret (Some rp).
Proof.
  unfold scan. generalize (Report declared_rules [] []) as rp0. induction fs as [|[uri o] fs IH]; intros rp0 H; cbn [scan_files].
  - eexists. reflexivity.
  - destruct (H _ (or_introl eq_refl)) as [src [r [Eo Ep]]]. cbn [snd] in Eo. subst o. rewrite Ep. cbn [bindr].
    destruct (file_results_spec uri (r_diag r) 0) as [xs [-> _]]. cbn [bindr]. apply IH. intros f Hf. apply H. right. exact Hf.
Qed.
