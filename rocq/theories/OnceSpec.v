(* C100: how often a problem is reported. *)
From Verif Require Import Base LexSpec Lexer Expr Linter Fields Literals Codec OpTable Process.
From Coq Require Import String.

(* equality of diagnostics *)
Definition text_dec (a b : str) : {a = b} + {a <> b} := list_eq_dec ascii_dec a b.
Definition finding_dec (a b : line_error) : {a = b} + {a <> b}.
Proof. decide equality; first [apply Nat.eq_dec|apply text_dec]. Defined.
Definition reason_dec (a b : reason) : {a = b} + {a <> b}.
Proof. decide equality; first [apply text_dec|apply string_dec]. Defined.
Definition kind_dec (a b : diag_kind) : {a = b} + {a <> b}.
Proof. decide equality; first [apply finding_dec|apply reason_dec|apply N.eq_dec|decide equality]. Defined.
Definition report_dec (a b : diagnostic) : {a = b} + {a <> b}.
Proof. decide equality; first [apply kind_dec|apply Nat.eq_dec]. Defined.

(* the labels a line names, as often as it names them *)
Definition mentions (e : expr) : list str :=
  match e with
  | BExpr n | BzExpr n | BnzExpr n | CallSubExpr n => [n]
  | SwitchExpr ns | MatchExpr ns => ns
  | _ => []
  end.

(* how often a finding is due: once, but a missing label as often as the line names it *)
Definition due (l : listing) (e : line_error) : nat :=
  match e with
  | MissingLabelError i n =>
      match nth_error l i with Some x => count_occ text_dec (mentions x) n | None => 0 end
  | _ => 1
  end.
