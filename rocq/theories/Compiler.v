(* compiler.go: the optimizer passes, printing of a listing is in ExprString.v, and the
   flattening of nested programs. *)
From Verif Require Import Base Expr Linter.

(* removeOpsAfterUnconditionalBranch, compiler.go:41-73.  skip = true is the inner loop, which
   shares the index i with the outer one. *)
Fixpoint remove_ops_from (skip : bool) (l : listing) : listing :=
  match l with
  | [] => []
  | o :: l' =>
      if skip then
        match o with
        | LabelExpr _ => o :: remove_ops_from false l'
        | _ => if is_nop o then o :: remove_ops_from true l' else remove_ops_from true l'
        end
      else o :: remove_ops_from (is_uncond o) l'
  end.

(* compiler.go:41-73 *)
Definition remove_ops_after_unconditional_branch (l : listing) : listing :=
  remove_ops_from false l.

(* removeBJustBeforeItsTargetLabel, compiler.go:75-120; next_label_is is its inner loop
   (compiler.go:90-110, the same text as linter.go:391-414) *)
Fixpoint remove_b_just_before_its_target_label (l : listing) : listing :=
  match l with
  | [] => []
  | o :: l' =>
      match l', o with
      | [], _ => [o]                       (* i >= len(l)-1 *)
      | _, BExpr n => if next_label_is n l' then [] else [o]
      | _, _ => [o]
      end ++ remove_b_just_before_its_target_label l'
  end.

(* the map used of removeUnused, compiler.go:125-134 *)
Definition used_names (l : listing) : list str := flat_map uses l.

(* the loop over j of removeUnused, compiler.go:143-156: with only no-ops in between, does a
   retsub or a proto follow? *)
Fixpoint followed_by_retsub_or_proto (l : listing) : bool :=
  match l with
  | [] => false
  | RetSubExpr :: _ => true
  | ProtoExpr _ _ :: _ => true
  | o :: l' => if is_nop o then followed_by_retsub_or_proto l' else false
  end.

(* the main loop of removeUnused, compiler.go:136-178; prev is the Go variable prev.  Both
   "continue" statements leave prev unchanged; a retsub whose predecessor is not a label is
   not appended but does become prev. *)
Fixpoint remove_unused_from (used : list str) (prev : option expr) (l : listing) : listing :=
  match l with
  | [] => []
  | o :: l' =>
      match o with
      | LabelExpr n =>
          if mem n used || followed_by_retsub_or_proto l'
          then o :: remove_unused_from used (Some o) l'
          else remove_unused_from used prev l'
      | RetSubExpr =>
          match prev with
          | Some (LabelExpr n) =>
              if mem n used then o :: remove_unused_from used (Some o) l'
              else remove_unused_from used prev l'
          | _ => remove_unused_from used (Some o) l'
          end
      | _ => o :: remove_unused_from used (Some o) l'
      end
  end.

(* compiler.go:122-181 *)
Definition remove_unused (l : listing) : listing :=
  remove_unused_from (used_names l) None l.

(* mergeLabels, compiler.go:183-211; prev is the Go variable prev.  The assignment
   o.Name = p.Name to an instruction that is then dropped is not modelled; merge_labels_id
   (CompilerProofs.v) shows that the branch is never taken. *)
Fixpoint merge_labels_from (prev : option expr) (l : listing) : listing :=
  match l with
  | [] => []
  | o :: l' =>
      let rest := merge_labels_from (if is_nop o then prev else Some o) l' in
      match o, prev with
      | LabelExpr _, Some (LabelExpr _) => rest
      | _, _ => o :: rest
      end
  end.

(* compiler.go:183-211 *)
Definition merge_labels (l : listing) : listing := merge_labels_from None l.

(* Listing.Optimize, compiler.go:231-240 *)
Definition optimize (l : listing) : listing :=
  merge_labels
    (remove_b_just_before_its_target_label
       (remove_ops_after_unconditional_branch (remove_unused l))).

(* Values of the interface type Expr (compiler.go:30) as compile distinguishes them:
   an instruction; a []Expr; a Program or a Listing (named slice types, which are not []Expr
   but have a String method and therefore are Ops); anything else (NestedExpr, FuncExpr, an
   int, nil, ...), which has neither.  No type of the package implements complexExpr. *)
Inductive pexpr : Set :=
| POp (e : expr)
| PList (es : list pexpr)
| PProgram (es : list pexpr)
| PListing (l : list expr)
| POther.

(* an element of a compiled listing: compile appends Program and Listing values as they are *)
Inductive cop : Set :=
| COp (e : expr)
| CProgram (es : list pexpr)
| CListing (l : list expr).

(* compiler.compile, compiler.go:267-286, for one expression *)
Fixpoint compile1 (to : list cop) (e : pexpr) {struct e} : res (list cop) :=
  match e with
  | POp e => Ret (to ++ [COp e])
  | PList es =>
      (fix go (to : list cop) (es : list pexpr) {struct es} : res (list cop) :=
         match es with
         | [] => Ret to
         | e :: es' => letr to' := compile1 to e in go to' es'
         end) to es
  | PProgram es => Ret (to ++ [CProgram es])
  | PListing l => Ret (to ++ [CListing l])
  | POther => Panic
  end.

(* Program.Compile, compiler.go:257-265 *)
Fixpoint program_compile_from (l : list cop) (p : list pexpr) : res (list cop) :=
  match p with
  | [] => Ret l
  | e :: p' => letr l' := compile1 l e in program_compile_from l' p'
  end.

(* compiler.go:257-265 *)
Definition program_compile (p : list pexpr) : res (list cop) := program_compile_from [] p.

(* Compile, compiler.go:33-39 *)
Definition compile (exprs : list pexpr) : res (list cop) := program_compile [PList exprs].
