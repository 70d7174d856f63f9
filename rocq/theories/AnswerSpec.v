(* What the language server is asked for at a position: the token there and what it stands for. *)
From Verif Require Import Base Lexer Expr Fields Strconv Literals OpTable Process ProcessSpec Semantics Query Lsp.

(* the column is inside the token or right behind it *)
Definition around (ch : Z) (t : token) : bool :=
  (Z.of_nat (tok_b t) <=? ch)%Z && (ch <=? Z.of_nat (tok_e t))%Z.

(* the first such token of a line and its place in the line *)
Fixpoint token_at (ch : Z) (l : list token) : option (nat * token) :=
  match l with
  | [] => None
  | t :: r =>
      if around ch t then Some (0, t)
      else match token_at ch r with Some (k, u) => Some (S k, u) | None => None end
  end.

(* the declared argument an operand stands for: the k-th, or the last one if that one repeats *)
Definition argument (args : list op_arg) (k : nat) : option op_arg :=
  match nth_error args k with
  | Some a => Some a
  | None => match rev args with a :: _ => if oa_array a then Some a else None | [] => None end
  end.

(* the line at a position; None: no such line *)
Definition line_at_pos (r : presult) (p : position) : option (list token) := nth_error (r_lines r) (Z.to_nat (ps_line p)).

(* the cursor is on an operand of a known opcode that stands for the argument a *)
Definition on_operand (r : presult) (p : position) (a : op_arg) (t : token) : Prop :=
  exists op rest args k, line_at_pos r p = Some (op :: rest) /\ token_at (ps_char p) (op :: rest) = Some (S k, t) /\
    op_args (tok_v op) = Some args /\ argument args k = Some a.

(* a text that denotes entry f of a table: its name, or its number in decimal *)
Definition denotes (sp : list field_spec) (s : str) (f : N) : Prop :=
  (exists x, nth_error sp (N.to_nat f) = Some x /\ f_name x = s) \/
  ((forall x, In x sp -> f_name x <> s) /\ atoi s = Some (Z.of_N f) /\ N.to_nat f < length sp).

(* occurrences of a label: the ranges of its definitions and of the operands that name it *)
Definition occurrences (r : presult) (n : str) : list range :=
  map name_range (filter (fun s => seqb (sy_name s) n) (r_syms r)) ++
  map tok_range (filter (fun t => seqb (tok_v t) n) (r_refs r)).

(* the parameter an operand fills: the k-th, or the last one if that one repeats *)
Definition parameter (args : list op_arg) (k : nat) : nat :=
  if (length args <=? k) && match rev args with a :: _ => oa_array a | [] => false end then length args - 1 else k.

(* how many operands end before the column *)
Definition operands_before (ch : Z) (l : list token) : nat := length (filter (fun t => (Z.of_nat (tok_e t) <? ch)%Z) l).

(* the cursor is on an operand, or behind the last one *)
Definition at_operand (ch : Z) (l : list token) : Prop :=
  (exists t, In t l /\ around ch t = true) \/ (forall t, In t l -> (Z.of_nat (tok_e t) < ch)%Z).

(* what the parser reads from a text where a number or a named value is expected *)
Definition number_of (k : imm) : imm_val k -> option N :=
  match k with
  | IInt8 | IBytes | ILabel | IAddr | ISignature => fun _ => None
  | _ => fun n => Some n
  end.
Definition value_read (en : env) (v : N) (k : imm) (s : str) : option N :=
  match operand_value en v k s with Some x => number_of k x | None => None end.

(* the cursor is behind the opcode, on the operand for argument a or on the place of the next one *)
Definition completes (r : presult) (p : position) (a : op_arg) : Prop :=
  exists op rest args, line_at_pos r p = Some (op :: rest) /\ (Z.of_nat (tok_e op) < ps_char p)%Z /\
    op_args (tok_v op) = Some args /\ at_operand (ps_char p) rest /\ argument args (operands_before (ps_char p) rest) = Some a.

(* the text an opcode completion extends: the first token of the line, if the cursor is not behind it *)
Definition typed (r : presult) (p : position) (s : str) : Prop :=
  match line_at_pos r p with
  | None | Some [] => s = []
  | Some (t :: _) => (ps_char p <= Z.of_nat (tok_e t))%Z /\ s = tok_v t
  end.

(* the kinds of field with documentation *)
Definition documented (k : imm) (sp : list field_spec) : Prop := field_table k = Some sp /\ k <> IEcGroup.
