(* linter.go: the lint rules over a listing.

   Go maps are association lists in order of first insertion.  Where Go ranges over a map
   (rules LINT0001, LINT0002 and the missing-label half of LINT0005) the order of the reports
   is unspecified in Go; the theorems about those rules speak about membership only. *)
From Verif Require Import Base Expr.

(* map[string][]int with "m[k] = append(m[k], v)" and "m[k]" *)
(* map[string][]int (linter.go:223, 238); the keys in the order of their first use *)
Definition imap := list (str * list nat).

Fixpoint imap_append (m : imap) (k : str) (v : nat) : imap :=
  match m with
  | [] => [(k, [v])]
  | (k', vs) :: m' =>
      if seqb k k' then (k', vs ++ [v]) :: m' else (k', vs) :: imap_append m' k v
  end.

Fixpoint imap_get (m : imap) (k : str) : list nat :=
  match m with
  | [] => []
  | (k', vs) :: m' => if seqb k k' then vs else imap_get m' k
  end.

(* the values of type LineError, linter.go:46-220 *)
Inductive line_error : Set :=
| DuplicateLabelError (l : nat) (name : str)
| UnusedLabelError (l : nat) (name : str)
| UnreachableCodeError (l : nat)
| BJustBeforeLabelError (l : nat)
| MissingLabelError (l : nat) (name : str)
| InfiniteLoopError (l : nat)
| PragmaVersionAfterInstrError (l : nat).

(* the Line methods, linter.go:52, 74, 96, 117, 160, 182, 203 *)
Definition le_line (e : line_error) : nat :=
  match e with
  | DuplicateLabelError l _ | UnusedLabelError l _ | UnreachableCodeError l
  | BJustBeforeLabelError l | MissingLabelError l _ | InfiniteLoopError l
  | PragmaVersionAfterInstrError l => l
  end.

(* the rule ids the rules put into their errors, linter.go:284, 306, 329, 373, 424, 487 *)
Definition le_rule (e : line_error) : str :=
  match e with
  | DuplicateLabelError _ _ => "LINT0001"
  | UnusedLabelError _ _ => "LINT0002"
  | UnreachableCodeError _ => "LINT0003"
  | BJustBeforeLabelError _ => "LINT0004"
  | MissingLabelError _ _ => "LINT0005"
  | InfiniteLoopError _ => "LINT0005"
  | PragmaVersionAfterInstrError _ => "LINT0006"
  end.

(* the Severity methods; DiagErr = 1, DiagWarn = 2 (linter.go:60-220) *)
Definition le_severity (e : line_error) : nat :=
  match e with
  | DuplicateLabelError _ _ | MissingLabelError _ _ | InfiniteLoopError _
  | PragmaVersionAfterInstrError _ => 1
  | _ => 2
  end.

(* the values of type RedundantLine, linter.go:7-35 *)
Inductive redundant_line : Set :=
| RedundantLabelLine (line : nat) (name : str)
| RedundantBLine (line : nat).

(* linter.go:17-19, 29-31 Line *)
Definition red_line (r : redundant_line) : nat :=
  match r with RedundantLabelLine l _ => l | RedundantBLine l => l end.

(* Linter.getLabelsUsers, linter.go:222-235 *)
Fixpoint label_users_from (i : nat) (m : imap) (l : listing) : imap :=
  match l with
  | [] => m
  | o :: l' =>
      label_users_from (S i)
        match labels_of o with
        | Some ls => fold_left (fun m n => imap_append m n i) ls m
        | None => m
        end l'
  end.

(* linter.go:222-235 *)
Definition get_labels_users (l : listing) : imap := label_users_from 0 [] l.

(* Linter.getAllLabels, linter.go:237-248 *)
Fixpoint all_labels_from (i : nat) (m : imap) (l : listing) : imap :=
  match l with
  | [] => m
  | o :: l' =>
      all_labels_from (S i)
        match o with LabelExpr n => imap_append m n i | _ => m end l'
  end.

(* linter.go:237-248 *)
Definition get_all_labels (l : listing) : imap := all_labels_from 0 [] l.

(* Linter.canEscape, linter.go:250-270.  The index l.l[i] is always in range at its only call
   site (from <= to < len), so a missing element is never asked for. *)
Definition can_escape (l : listing) (from to : nat) : bool :=
  let labels := get_all_labels l in
  existsb
    (fun i =>
       match nth_error l i with
       | Some op =>
           match labels_of op with
           | Some ls =>
               existsb (fun n =>
                 existsb (fun idx => (idx <? from) || (to <? idx)) (imap_get labels n)) ls
           | None => is_terminator op
           end
       | None => false
       end)
    (seq from (S to - from)).

(* DuplicateLabelsRule.Run, linter.go:292-301 *)
Definition run_duplicate_labels (l : listing) : list line_error :=
  flat_map
    (fun '(name, lines) =>
       if 1 <? length lines then map (fun line => DuplicateLabelError line name) lines else [])
    (get_all_labels l).

(* UnusedLabelsRule.Run, linter.go:314-324: the appends to l.errs *)
Definition run_unused_labels (l : listing) : list line_error :=
  let used := get_labels_users l in
  flat_map
    (fun '(name, lines) =>
       if length (imap_get used name) =? 0
       then map (fun line => UnusedLabelError line name) lines else [])
    (get_all_labels l).

(* the same loop: the appends to l.reds *)
(* linter.go:314-324 *)
Definition red_unused_labels (l : listing) : list redundant_line :=
  let used := get_labels_users l in
  flat_map
    (fun '(name, lines) =>
       if length (imap_get used name) =? 0
       then map (fun line => RedundantLabelLine line name) lines else [])
    (get_all_labels l).

(* OpsAfterUnconditionalBranchRule.Run, linter.go:337-368.  The two loops share the index i;
   skip = true is the inner loop, skip = false the outer one.  When the inner loop breaks at a
   label, the outer loop goes on with the line after that label. *)
Fixpoint unreachable_from (used : imap) (i : nat) (skip : bool) (l : listing) : list line_error :=
  match l with
  | [] => []
  | o :: l' =>
      if skip then
        match o with
        | LabelExpr n =>
            if 0 <? length (imap_get used n) then unreachable_from used (S i) false l'
            else unreachable_from used (S i) true l'
        | _ =>
            if is_nop o then unreachable_from used (S i) true l'
            else UnreachableCodeError i :: unreachable_from used (S i) true l'
        end
      else unreachable_from used (S i) (is_uncond o) l'
  end.

(* linter.go:337-368 *)
Definition run_unreachable (l : listing) : list line_error :=
  unreachable_from (get_labels_users l) 0 false l.

(* the inner loop of CheckBranchJustBeforeLabelRule.Run (linter.go:391-414), also that of
   removeBJustBeforeItsTargetLabel (compiler.go:90-110): does the next label, with only no-ops
   in front of it, have this name? *)
Fixpoint next_label_is (name : str) (l : listing) : bool :=
  match l with
  | [] => false
  | LabelExpr n :: _ => seqb n name
  | o :: l' => if is_nop o then next_label_is name l' else false
  end.

(* CheckBranchJustBeforeLabelRule.Run, linter.go:381-420: the lines reported *)
Fixpoint b_before_label_from (i : nat) (l : listing) : list nat :=
  match l with
  | [] => []
  | o :: l' =>
      match l' with
      | [] => []                          (* i >= len(l.l)-1 *)
      | _ =>
          match o with
          | BExpr n => if next_label_is n l' then [i] else []
          | _ => []
          end
      end ++ b_before_label_from (S i) l'
  end.

(* linter.go:381-420 *)
Definition run_b_before_label (l : listing) : list line_error :=
  map BJustBeforeLabelError (b_before_label_from 0 l).

(* linter.go:381-420 *)
Definition red_b_before_label (l : listing) : list redundant_line :=
  map RedundantBLine (b_before_label_from 0 l).

(* first half of CheckLoopsRule.Run, linter.go:436-443 *)
Definition run_missing (l : listing) : list line_error :=
  let all := get_all_labels l in
  flat_map
    (fun '(name, users) =>
       if existsb (fun p => seqb name (fst p)) all then []
       else map (fun user => MissingLabelError user name) users)
    (get_labels_users l).

(* the backward search of CheckLoopsRule.Run, linter.go:456-478: the nearest label with this
   name at an index below j *)
Fixpoint find_back (l : listing) (name : str) (j : nat) : option nat :=
  match j with
  | O => None
  | S j' =>
      match nth_error l j' with
      | Some (LabelExpr n) => if seqb n name then Some j' else find_back l name j'
      | _ => find_back l name j'
      end
  end.

(* second half of CheckLoopsRule.Run, linter.go:445-482 *)
Definition run_loops (l : listing) : list line_error :=
  flat_map
    (fun i =>
       if i =? 0 then []
       else
         match nth_error l i with
         | Some (BExpr name) =>
             match find_back l name i with
             | Some j => if can_escape l j i then [] else [InfiniteLoopError i]
             | None => []
             end
         | _ => []
         end)
    (seq 0 (length l)).

(* CheckPragmaRule.Run, linter.go:495-512; prev = "prev != nil" *)
Fixpoint pragma_from (i : nat) (prev : bool) (l : listing) : list line_error :=
  match l with
  | [] => []
  | op :: l' =>
      match op with
      | PragmaExpr _ =>
          (if prev then [PragmaVersionAfterInstrError i] else []) ++ pragma_from (S i) true l'
      | _ => if is_nop op then pragma_from (S i) prev l' else pragma_from (S i) true l'
      end
  end.

(* linter.go:495-512 *)
Definition run_pragma (l : listing) : list line_error := pragma_from 0 false l.

(* Linter.Lint, linter.go:553-560, with LintRules in the order of init, linter.go:540-551
   (the last two rules have no Run method): l.errs ... *)
Definition lint (l : listing) : list line_error :=
  run_duplicate_labels l ++ run_unused_labels l ++ run_unreachable l ++
  run_b_before_label l ++ run_missing l ++ run_loops l ++ run_pragma l.

(* ... and l.reds *)
(* linter.go:553-570 *)
Definition lint_redundant (l : listing) : list redundant_line :=
  red_unused_labels l ++ red_b_before_label l.
