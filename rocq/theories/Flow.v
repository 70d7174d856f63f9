(* A small independent specification of what it means to execute a TEAL listing, as far as
   control flow goes.  It is used to state what the lint rules and the optimizer promise; it
   does not refer to any function of the linter, the optimizer or the debugger.

   A listing is executed from its first line.  Labels, pragmas, comments and empty lines do
   nothing.  A conditional branch may fall through or be taken, a switch or match may fall
   through or take any of its targets; which one is recorded in the trace, so two programs with
   the same traces make the same moves for every outcome of every condition. *)
From Verif Require Import Base Expr.

(* lines that do nothing *)
Inductive silent : expr -> Prop :=
| silent_label n : silent (LabelExpr n)
| silent_pragma v : silent (PragmaExpr v)
| silent_empty : silent EmptyExpr
| silent_comment t : silent (CommentExpr t).

(* bz, bnz, switch, match: the k-th possible target *)
Inductive cond_target : expr -> nat -> str -> Prop :=
| ct_bz n : cond_target (BzExpr n) 0 n
| ct_bnz n : cond_target (BnzExpr n) 0 n
| ct_switch ns k n : nth_error ns k = Some n -> cond_target (SwitchExpr ns) k n
| ct_match ns k n : nth_error ns k = Some n -> cond_target (MatchExpr ns) k n.

Inductive conditional : expr -> Prop :=
| cond_bz n : conditional (BzExpr n)
| cond_bnz n : conditional (BnzExpr n)
| cond_switch ns : conditional (SwitchExpr ns)
| cond_match ns : conditional (MatchExpr ns).

(* instructions that always continue with the next line *)
Definition plain (e : expr) : Prop :=
  match e with
  | LabelExpr _ | PragmaExpr _ | EmptyExpr | CommentExpr _
  | BExpr _ | BzExpr _ | BnzExpr _ | SwitchExpr _ | MatchExpr _ | CallSubExpr _
  | RetSubExpr | ReturnExpr | ErrExpr => False
  | _ => True
  end.

(* line i defines label n *)
Definition defines (l : listing) (i : nat) (n : str) : Prop :=
  nth_error l i = Some (LabelExpr n).

(* instruction e names label n as a branch target *)
Inductive names : expr -> str -> Prop :=
| names_b n : names (BExpr n) n
| names_bz n : names (BzExpr n) n
| names_bnz n : names (BnzExpr n) n
| names_callsub n : names (CallSubExpr n) n
| names_switch ns n : In n ns -> names (SwitchExpr ns) n
| names_match ns n : In n ns -> names (MatchExpr ns) n.

(* line i names label n *)
Definition names_at (l : listing) (i : nat) (n : str) : Prop :=
  exists e, nth_error l i = Some e /\ names e n.

(* some instruction of the listing names n *)
Definition used (l : listing) (n : str) : Prop := exists i, names_at l i n.

(* no label name is defined on two lines *)
Definition unique_labels (l : listing) : Prop :=
  forall i j n, defines l i n -> defines l j n -> i = j.

(* about to execute line pc with the given return lines, innermost first; or stopped *)
Inductive cfg : Set :=
| At (pc : nat) (returns : list nat)
| Halted.

(* jumping to a label: to a line that defines it, or failing if there is none *)
Inductive goto (l : listing) (n : str) (ks : list nat) : cfg -> Prop :=
| goto_def k : defines l k n -> goto l n ks (At k ks)
| goto_missing : (forall k, ~ defines l k n) -> goto l n ks Halted.

(* an executed instruction and which way it went (0: the only or the next line,
   k+1: its k-th target) *)
Definition event := (expr * nat)%type.

Inductive fstep (l : listing) : cfg -> option event -> cfg -> Prop :=
| F_end pc ks :
    length l <= pc -> fstep l (At pc ks) None Halted
| F_silent pc ks e :
    nth_error l pc = Some e -> silent e -> fstep l (At pc ks) None (At (S pc) ks)
| F_plain pc ks e :
    nth_error l pc = Some e -> plain e -> fstep l (At pc ks) (Some (e, 0)) (At (S pc) ks)
| F_err pc ks :
    nth_error l pc = Some ErrExpr -> fstep l (At pc ks) (Some (ErrExpr, 0)) Halted
| F_return pc ks :
    nth_error l pc = Some ReturnExpr -> fstep l (At pc ks) (Some (ReturnExpr, 0)) Halted
| F_b pc ks n c :
    nth_error l pc = Some (BExpr n) -> goto l n ks c -> fstep l (At pc ks) None c
| F_cond_next pc ks e :
    nth_error l pc = Some e -> conditional e ->
    fstep l (At pc ks) (Some (e, 0)) (At (S pc) ks)
| F_cond_taken pc ks e k n c :
    nth_error l pc = Some e -> cond_target e k n -> goto l n ks c ->
    fstep l (At pc ks) (Some (e, S k)) c
| F_callsub pc ks n c :
    nth_error l pc = Some (CallSubExpr n) -> goto l n (S pc :: ks) c ->
    fstep l (At pc ks) (Some (CallSubExpr n, 0)) c
| F_retsub pc r ks :
    nth_error l pc = Some RetSubExpr ->
    fstep l (At pc (r :: ks)) (Some (RetSubExpr, 0)) (At r ks)
  (* retsub outside of a subroutine: the debugger continues with the next line, the chain fails *)
| F_retsub_next pc :
    nth_error l pc = Some RetSubExpr ->
    fstep l (At pc []) (Some (RetSubExpr, 1)) (At (S pc) [])
| F_retsub_fail pc :
    nth_error l pc = Some RetSubExpr ->
    fstep l (At pc []) (Some (RetSubExpr, 2)) Halted.

(* runs, with the list of events *)
Inductive run (l : listing) : cfg -> list event -> cfg -> Prop :=
| run_refl c : run l c [] c
| run_quiet c c1 c2 tr : fstep l c None c1 -> run l c1 tr c2 -> run l c tr c2
| run_event c c1 c2 ev tr : fstep l c (Some ev) c1 -> run l c1 tr c2 -> run l c (ev :: tr) c2.

Definition start : cfg := At 0 [].

(* tr is a possible (prefix of a) trace; tr is a possible complete trace *)
Definition may_do (l : listing) (tr : list event) : Prop := exists c, run l start tr c.
Definition may_end (l : listing) (tr : list event) : Prop := run l start tr Halted.

Definition same_behaviour (l l' : listing) : Prop :=
  forall tr, (may_do l tr <-> may_do l' tr) /\ (may_end l tr <-> may_end l' tr).

(* line i is executed in some run from the start *)
Definition reachable (l : listing) (i : nat) : Prop :=
  exists tr ks, run l start tr (At i ks).
