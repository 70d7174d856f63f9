(* C57: the SARIF scanner. *)
From Verif Require Import Base Linter Process PropProcess Sarif SarifProofs.

(* the index of a result counts the diagnostics of its file, not the files *)
Theorem C57_refuted : exists fs rp x, scan env0 fs = Ret (Some rp) /\ In x (rp_results rp) /\ ~ refers rp x.
Proof.
  exists [(bs "file:///a.teal", Some (lines ["bogus"; "bogus"]%string)); (bs "file:///b.teal", Some [])].
  destruct (scan env0 _) as [[rp|]| |] eqn:E; vm_compute in E; try discriminate. injection E as <-.
  do 2 eexists. split; [reflexivity|]. split; [right; left; reflexivity|]. vm_compute. discriminate.
Qed.
Print Assumptions C57_refuted.

(* the rest of the location is right: one result per diagnostic, in order, with the uri of the file, a line and a column
   that count from 1, a declared rule and the level of the severity; the artifacts are the files *)
Theorem C57_partial en fs rp : scan en fs = Ret (Some rp) ->
  rp_artifacts rp = map fst fs /\ rp_rules rp = declared_rules /\ results_for en fs (rp_results rp) /\
  forall x, In x (rp_results rp) -> In (sr_rule x) (rp_rules rp).
Proof. exact (scan_located en fs rp). Qed.
Print Assumptions C57_partial.

(* the scan succeeds when every file can be read and processed *)
Theorem C57_ends en fs :
  (forall f, In f fs -> exists src r, snd f = Some src /\ process en src = Ret r) -> exists rp, scan en fs = Ret (Some rp).
Proof. exact (scan_ends en fs). Qed.
Print Assumptions C57_ends.

(* all four severities have a level, and no other number *)
Theorem C57_level s l : sarif_level s = Ret l <-> In (s, l) [(1, bs "error"); (2, bs "warning"); (3, bs "note"); (4, bs "note")].
Proof.
  split.
  - intros H. unfold sarif_level in H. do 5 (destruct s as [|s]; [first [discriminate H|injection H as <-; cbn; tauto]|]). discriminate H.
  - intros [E|[E|[E|[E|[]]]]]; injection E as <- <-; reflexivity.
Qed.
Print Assumptions C57_level.

Example C57_ex : exists rp,
  scan env0 [(bs "file:///a.teal", Some (lines ["#pragma version 8"; "int 1"; " bogus 1"]%string));
             (bs "file:///b.teal", Some (lines ["l:"; "int 1"]%string))] = Ret (Some rp) /\
  map (fun x => (sr_uri x, sr_rule x, sr_level x, sr_line x, sr_column x)) (rp_results rp) =
  [(bs "file:///a.teal", bs "PARSE", bs "error", 3, 2); (bs "file:///b.teal", bs "LINT0002", bs "warning", 1, 1)].
Proof. eexists. split; vm_compute; reflexivity. Qed.
