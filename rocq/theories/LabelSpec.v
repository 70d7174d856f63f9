(* C90: what is known about a label: the comments above it and the proto below it. *)
From Verif Require Import Base LexSpec Lexer Expr Fields Literals Codec OpTable Process ProcessSpec.

(* the text of a line that is a comment; the comment that sets the mode is none *)
Definition comment_on (l : list token) : list str :=
  match kind_of l with
  | LComment w => if seqb (trim_space w) (bs "#pragma mode logicsig") then [] else [w]
  | _ => []
  end.
Definition labels_nothing (l : list token) : Prop := defines l = [].

(* the lines of a text *)
Fixpoint in_lines (ws : list str) : str :=
  match ws with [] => [] | [w] => w | w :: r => w ++ c_lf :: in_lines r end.

(* the comments since the label before line i *)
Definition since_label (ls : list (list token)) (i : nat) (cs : list str) : Prop :=
  exists before between, firstn i ls = before ++ between /\
    (before = [] \/ exists a l, before = a ++ [l] /\ ~ labels_nothing l) /\
    Forall labels_nothing between /\ cs = flat_map comment_on between.
(* the comments right above line i *)
Definition right_above (ls : list (list token)) (i : nat) (cs : list str) : Prop :=
  exists before block, firstn i ls = before ++ block /\
    (before = [] \/ exists a l, before = a ++ [l] /\ comment_on l = []) /\
    map (fun c => [c]) cs = map comment_on block.

(* instruction number d of the listing is a proto below a label of this name, with no label between them *)
Definition proto_below (l : listing) (n : str) (d : nat) (a r : N) : Prop :=
  nth_error l d = Some (ProtoExpr a r) /\
  exists k, k < d /\ nth_error l k = Some (LabelExpr n) /\ forall m n', k < m < d -> nth_error l m <> Some (LabelExpr n').
(* with nothing that is executed between them *)
Definition proto_first (l : listing) (n : str) (d : nat) (a r : N) : Prop :=
  nth_error l d = Some (ProtoExpr a r) /\
  exists k, k < d /\ nth_error l k = Some (LabelExpr n) /\
    forall m e, k < m < d -> nth_error l m = Some e -> e = EmptyExpr \/ exists v, e = PragmaExpr v.
