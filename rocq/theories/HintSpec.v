(* Quick fixes that replace one operand by another spelling (C46, C47). *)
From Verif Require Import Base Lexer Fields Expr OpTable Process ProcessSpec Semantics Query Lsp.

(* the version in force on line k *)
Definition version_on (r : presult) (k : nat) : N := last_version 1 (firstn k (r_lines r)).
(* the first version in which an operand of kind k may be written as the field n *)
Definition field_since (k : imm) (n : str) : N :=
  match field_table k with
  | None => 0%N
  | Some sp =>
      match find (fun s => seqb (f_name s) n) sp with
      | None => 0%N
      | Some s => match k with ITxnaField => 0%N | IItxnField => f_itx s | _ => f_version s end
      end
  end.
(* the operand t stands at the place of an argument of kind k *)
Definition operand_kind (r : presult) (t : token) (k : imm) : Prop :=
  exists op w1 w2 args a, nth_error (r_lines r) (tok_l t) = Some (op :: w1 ++ t :: w2) /\
    op_args (tok_v op) = Some args /\ nth_error args (length w1) = Some a /\ oa_type a = k.
(* the operand t is a byte constant of its own: its opcode takes byte constants, and no encoding word stands before it *)
Definition encoding (s : str) : bool := mem s [bs "base32"; bs "b32"; bs "base64"; bs "b64"].
Definition byte_constant (r : presult) (t : token) : Prop :=
  exists op w1 w2 args, nth_error (r_lines r) (tok_l t) = Some (op :: w1 ++ t :: w2) /\
    op_args (tok_v op) = Some args /\ (exists a, In a args /\ oa_type a = IBytes) /\
    (forall x w, w1 = w ++ [x] -> encoding (tok_v x) = false).
Definition replace_token (t : token) (n : str) : list text_edit := [TextEdit (tok_range t) n].
