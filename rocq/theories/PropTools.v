(* The tools agree about a program. *)
From Verif Require Import Base Linter Process ProcessSpec Vm VmSkip Dbg DbgSpec DbgProofs Sarif SarifProofs Semantics Query Lsp LspSpec LspProofs PropProcess PropLsp PropDiag PropDbg CountProofs MarkProofs.

(* a result of the scanner and a diagnostic of the editor: the same rule at the same place, as grave; the scanner counts from 1 *)
Definition grave (severity : nat) : str := match severity with 1 => bs "error" | 2 => bs "warning" | _ => bs "note" end.
Definition same_report (d : diagnostic) (x : sresult) : Prop :=
  sr_rule x = dg_rule d /\ sr_level x = grave (dg_severity d) /\ sr_line x = S (dg_line d) /\ sr_column x = S (dg_b d).
Definition about_file (u : str) (x : sresult) : bool := seqb (sr_uri x) u.

Lemma file_reports uri ds xs : length xs = length ds -> (forall i d x, nth_error ds i = Some d -> nth_error xs i = Some x -> reports uri i d x) ->
  Forall2 same_report ds xs /\ forall x, In x xs -> sr_uri x = uri.
Proof.
  intros L H. assert (G : forall k ds xs, length xs = length ds -> (forall i d x, nth_error ds i = Some d -> nth_error xs i = Some x -> reports uri (k + i) d x) ->
    Forall2 same_report ds xs /\ forall x, In x xs -> sr_uri x = uri).
  { clear. intros k ds. revert k. induction ds as [|d ds IH]; intros k [|x xs] L H; try discriminate L; [split; [constructor|intros x []]|].
    destruct (H 0 d x eq_refl eq_refl) as [A [B [C [_ [D E]]]]]. destruct (IH (S k) xs) as [F G]; [injection L as L; exact L| |].
    - intros i d' x' X Y. replace (S k + i) with (k + S i) by lia. exact (H (S i) d' x' X Y).
    - split; [constructor; [|exact F]|intros y [<-|Y]; [exact C|exact (G y Y)]]. repeat split; try assumption.
      destruct (dg_severity d) as [|[|[|[|[|n]]]]]; cbn [level_name grave] in *; try contradiction; exact B. }
  exact (G 0 ds xs L H).
Qed.
Lemma filter_none {A} (f : A -> bool) l : (forall x, In x l -> f x = false) -> filter f l = [].
Proof. induction l as [|x l IH]; intros H; [reflexivity|]. cbn [filter]. rewrite (H x (or_introl eq_refl)). apply IH. intros y Y. apply H. right. exact Y. Qed.
Lemma filter_all {A} (f : A -> bool) l : (forall x, In x l -> f x = true) -> filter f l = l.
Proof. induction l as [|x l IH]; intros H; [reflexivity|]. cbn [filter]. rewrite (H x (or_introl eq_refl)). f_equal. apply IH. intros y Y. apply H. right. exact Y. Qed.
Lemma results_of en fs ys : results_for en fs ys -> forall x, In x ys -> In (sr_uri x) (map fst fs).
Proof.
  induction 1 as [|uri src r xs fs ys E L H R IH]; intros x X; [destruct X|]. apply in_app_or in X as [X|X]; [left|right; exact (IH x X)].
  symmetry. exact (proj2 (file_reports uri _ _ L H) x X).
Qed.
Lemma results_in en fs ys u t : results_for en fs ys -> NoDup (map fst fs) -> In (u, Some t) fs ->
  exists r, process en t = Ret r /\ Forall2 same_report (r_diag r) (filter (about_file u) ys).
Proof.
  induction 1 as [|uri src r xs fs ys E L H R IH]; intros N I; [destruct I|]. cbn [map fst] in N. inversion N as [|? ? N1 N2]; subst. rewrite filter_app.
  destruct (file_reports uri _ _ L H) as [F G]. destruct I as [I|I].
  - injection I as -> ->. exists r. split; [exact E|]. rewrite filter_all, (filter_none _ ys), app_nil_r; [exact F| |].
    + intros x X. unfold about_file. destruct (seqb (sr_uri x) u) eqn:Q; [|reflexivity]. apply seqb_eq in Q. exfalso. apply N1. rewrite <- Q. exact (results_of _ _ _ R x X).
    + intros x X. unfold about_file. rewrite (G x X). apply seqb_eq. reflexivity.
  - destruct (IH N2 I) as [r' [E' F']]. exists r'. split; [exact E'|]. rewrite (filter_none _ xs); [exact F'|].
    intros x X. unfold about_file. destruct (seqb (sr_uri x) u) eqn:Q; [|reflexivity]. apply seqb_eq in Q. exfalso. apply N1. rewrite <- (G x X), Q. apply in_map_iff. exists (u, Some t). split; [reflexivity|exact I].
Qed.

(* the editor with a text open, the scanner with a file of this text among the files *)
Theorem C124 en es s out uri id t fs rp u :
  run en start es = Ret (s, out) -> s_exit s = false -> s_shutdown s = false -> latest uri es = Some t ->
  scan (l_env en) fs = Ret (Some rp) -> NoDup (map fst fs) -> In (u, Some t) fs ->
  exists ds, written (Lsp.handle en s (Call id (Diagnostic (Params (Some uri))))) = Ret [Reply id (ADiagnostic ds)] /\
    Forall2 same_report ds (filter (about_file u) (rp_results rp)).
Proof.
  intros R X D L S N I. destruct (results_in _ _ _ u t (proj1 (proj2 (proj2 (scan_located _ _ _ S)))) N I) as [r [E F]].
  exists (r_diag r). split; [exact (C89_server en es s out uri id t r R X D L E)|exact F].
Qed.
(* the debugger runs the listing the diagnostics are about *)
Theorem C124_debugger en pick fuel ms s o q path t o' s' : after en pick fuel ms s o ->
  Dbg.handle en pick fuel s (DRequest q (RLaunch (Args (path, Some t)))) = (o', Ret s') ->
  exists r v, process en t = Ret r /\ s_vm s' = Some (v, path) /\ v_listing v = r_listing r /\ v_version v = r_version r.
Proof.
  intros _ H. cbn [Dbg.handle] in H. destruct (process en t) as [r| |]; cbn [bindr] in H; try discriminate H.
  destruct (new_vm (r_listing r) (r_version r)) as [v| |] eqn:E; try discriminate H. exists r, v. split; [reflexivity|].
  assert (P : v_listing v = r_listing r /\ v_version v = r_version r).
  { unfold new_vm in E. match type of E with vm_skip_nops ?w = _ => destruct (vm_skip_nops_spec w) as [v1 [E1 P]]; [cbn; lia|] end.
    rewrite E in E1. injection E1 as <-. destruct P as [[_ [A [B _]]] _]. split; assumption. }
  split; [|exact P]. unfold reply, notify, stopped, done, crash in H. cbn [s_seq s_vm s_lz s_cz set_seq] in H. destruct (current_thread v); [|discriminate H|discriminate H].
  unfold notify in H. injection H as _ <-. reflexivity.
Qed.
(* two files, one of them open in the editor, where it has been changed meanwhile *)
Definition text_a : str := lines ["#pragma version 8"; "int 1"; " bogus 1"]%string.
Definition text_b : str := lines ["l:"; "int 1"; "bogus"]%string.
Example C124_ex : exists rp,
  scan env0 [(bs "file:///a.teal", Some text_a); (bs "file:///b.teal", Some text_b)] = Ret (Some rp) /\
  map (fun x => (sr_line x, sr_column x, sr_rule x)) (filter (about_file (bs "file:///b.teal")) (rp_results rp)) = [(3, 1, bs "PARSE"); (1, 1, bs "LINT0002")] /\
  latest doc1 [open_ text_a; change_ [text_b]] = Some text_b /\
  outputs [open_ text_a; change_ [text_b]; said 1 (Diagnostic (Params (Some doc1)))] =
    Ret [Reply (NumId 1) (ADiagnostic [Diag 2 0 5 (KParse (RUnknownOp (bs "bogus"))); Diag 0 0 2 (KLint (UnusedLabelError 0 (bs "l")))])].
Proof. eexists. split; [vm_compute; reflexivity|]. split; [vm_compute; reflexivity|]. split; vm_compute; reflexivity. Qed.
Example C124_debugger_ex : match talk 100 [DRequest 1 (RLaunch (Args (bs "b.teal", Some text_a)))], process env0 text_a with
  | (_, Ret s), Ret r => match s_vm s with Some (v, p) => v_listing v = r_listing r /\ length (v_listing v) = 3 | None => False end
  | _, _ => False
  end.
Proof. vm_compute. split; reflexivity. Qed.
Print Assumptions C124.
Print Assumptions C124_debugger.
