(* The scanner (cmd/tealsarif/main.go): a SARIF report about a list of files. *)
From Verif Require Import Base Linter Process.

(* diag.go:18-23 *)
Definition DiagErr := 1.
Definition DiagWarn := 2.
Definition DiagInfo := 3.
Definition DiagHint := 4.

(* cmd/tealsarif/main.go:21-34 ToSarifLevel *)
Definition sarif_level (severity : nat) : res str :=
  if severity =? DiagInfo then Ret (bs "note")
  else if severity =? DiagHint then Ret (bs "note")
  else if severity =? DiagWarn then Ret (bs "warning")
  else if severity =? DiagErr then Ret (bs "error")
  else Panic.

(* cmd/tealsarif/main.go:43-65; linter.go:540-551 *)
Definition lint_rules : list str :=
  [bs "LINT0001"; bs "LINT0002"; bs "LINT0003"; bs "LINT0004"; bs "LINT0005"; bs "LINT0006"; bs "LINT0007"; bs "LINT0008"].
Definition declared_rules : list str := [bs "SYNTAX"; bs "PARSE"] ++ lint_rules.

(* cmd/tealsarif/main.go:129-149; internal/sarif/sarif.go:15-41.  The text of the message is not modelled *)
Record sresult := SResult {
  sr_rule : str; sr_level : str; sr_uri : str; sr_index : nat; sr_line : nat; sr_column : nat }.
(* internal/sarif/sarif.go:9-13: the artifacts are given by their uri *)
Record report := Report { rp_rules : list str; rp_artifacts : list str; rp_results : list sresult }.

(* cmd/tealsarif/main.go:128-150 *)
Fixpoint file_results (uri : str) (i : nat) (ds : list diagnostic) : res (list sresult) :=
  match ds with
  | [] => Ret []
  | d :: r =>
      letr lv := sarif_level (dg_severity d) in
      letr rs := file_results uri (S i) r in
      Ret (SResult (dg_rule d) lv uri i (dg_line d + 1) (dg_b d + 1) :: rs)
  end.

(* a file of the scan: its uri and its contents, None when it cannot be read *)
(* cmd/tealsarif/main.go:102-110: a file, and its content if it can be read *)
Definition sfile : Type := str * option str.

(* cmd/tealsarif/main.go:102-151; None: the scan ends with an error *)
Fixpoint scan_files (en : env) (rp : report) (fs : list sfile) : res (option report) :=
  match fs with
  | [] => Ret (Some rp)
  | (_, None) :: _ => Ret None
  | (uri, Some src) :: r =>
      letr x := process en src in
      letr rs := file_results uri 0 (r_diag x) in
      scan_files en (Report (rp_rules rp) (rp_artifacts rp ++ [uri]) (rp_results rp ++ rs)) r
  end.

(* cmd/tealsarif/main.go:36-163 run; Walk.v has the walk over the directory *)
Definition scan (en : env) (fs : list sfile) : res (option report) := scan_files en (Report declared_rules [] []) fs.
