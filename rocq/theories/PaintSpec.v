(* What semantic highlighting is meant to show: the role of every token (C77). *)
From Verif Require Import Base LexSpec Lexer Expr Linter Fields Strconv Literals Codec OpTable Process ProcessSpec Semantics Query HintSpec.

Inductive role : Set := Macro | Opcode | Number | Literal | Encoding | Remark | LabelDef | LabelRef.
Definition role_eqb (a b : role) : bool :=
  match a, b with
  | Macro, Macro | Opcode, Opcode | Number, Number | Literal, Literal | Encoding, Encoding
  | Remark, Remark | LabelDef, LabelDef | LabelRef, LabelRef => true
  | _, _ => false
  end.

(* the token types announced to the client (lsp/lsp.go:2071-2072) and the one each role is shown as *)
Definition legend : list string := ["keyword"; "string"; "comment"; "method"; "macro"; "value"; "number"; "operator"; "function"].
Definition shown_as (k : role) : string :=
  match k with
  | Macro => "macro" | Opcode | Encoding => "keyword" | Number => "number" | Literal | LabelRef => "string"
  | Remark => "comment" | LabelDef => "method"
  end.
(* the token t, shown in the role k *)
Definition shows (k : role) (t : token) (s : stoken) : Prop :=
  st_line s = Z.of_nat (tok_l t) /\ st_index s = Z.of_nat (tok_b t) /\
  (st_index s + st_length s)%Z = Z.of_nat (tok_e t) /\ st_modifiers s = 0%Z /\
  exists n, st_type s = Z.of_nat n /\ nth_error legend n = Some (shown_as k).

(* operands of one token: a field by its name is text, by its number a number *)
Definition kind_role (k : imm) (a : str) : role :=
  match k with
  | IUint8 | IInt8 | IInt | IConstInt => Number
  | IBytes | IAddr | ISignature => Literal
  | ILabel => LabelRef
  | _ => match field_table k with
         | Some sp => if existsb (fun s => seqb (f_name s) a) sp then Literal else Number
         | None => Number
         end
  end.
(* a byte constant may be the name of an encoding and a text; the name is shown even if no text follows *)
Definition operand_roles (en : env) (v : N) (k : imm) (a : token) (r : list token) : list (role * token) :=
  match k, operand en v k (tok_v a) (texts r) with
  | IBytes, Some _ => if encoding (tok_v a) then (Encoding, a) :: map (pair Literal) (firstn 1 r) else [(Literal, a)]
  | IBytes, None => if encoding (tok_v a) then [(Encoding, a)] else []
  | _, Some _ => [(kind_role k (tok_v a), a)]
  | _, None => []
  end.

Definition lastn {A} (n : nat) (l : list A) : list A := skipn (length l - n) l.

Fixpoint int_roles (times : nat) (l : list token) : list (role * token) :=
  match l with
  | [] => []
  | a :: r => match parse_uint (tok_v a) 0 64 with Some _ => repeat (Number, a) times ++ int_roles times r | None => [] end
  end.
Fixpoint byte_roles (en : env) (fuel : nat) (l : list token) : list (role * token) :=
  match fuel, l with
  | S fuel, a :: r =>
      operand_roles en 0 IBytes a r ++
      match byte_operand en (tok_v a) (texts r) with Some (_, r') => byte_roles en fuel (lastn (length r') r) | None => [] end
  | _, _ => []
  end.

(* the operands of an opcode, up to the first one that cannot be read; times: how often the numbers of a list are shown *)
Fixpoint prog_roles (en : env) (times : nat) (v : N) (p : prog) (args : list token) : list (role * token) :=
  match p with
  | Emit _ => []
  | MinVersion _ p | ModeMinVersion _ _ p => prog_roles en times v p args
  | Read k _ f =>
      match args with
      | [] => []
      | a :: r =>
          operand_roles en v k a r ++
          match operand en v k (tok_v a) (texts r) with
          | Some (x, r') => prog_roles en times v (f x) (lastn (length r') r)
          | None => []
          end
      end
  | ReadMaybe _ f =>
      match args with
      | [] => []
      | a :: r => match read_uint8 (tok_v a) with
                  | Some x => (Number, a) :: prog_roles en times v (f (Some x)) r
                  | None => []
                  end
      end
  | ReadInts _ _ => int_roles times args
  | ReadBytess _ _ => byte_roles en (length args) args
  | ReadLabels _ _ => map (pair LabelRef) args
  end.

Definition pragma_roles (r : list token) : list (role * token) :=
  match r with
  | a :: r' =>
      if seqb (tok_v a) (bs "version") then
        (Macro, a) :: match r' with
                      | b :: _ => match parse_uint (tok_v b) 0 64 with Some _ => [(Number, b)] | None => [] end
                      | [] => []
                      end
      else []
  | [] => []
  end.

(* the roles on a line; comments are treated apart *)
Definition line_roles (en : env) (times : nat) (v : N) (l : list token) : list (role * token) :=
  match l with
  | [] => []
  | t :: r =>
      match kind_of l with
      | LPragma _ => (Macro, t) :: pragma_roles r
      | LOp p _ => (Opcode, t) :: prog_roles en times v p r
      | LLabel (_ :: _) => [(LabelDef, t)]
      | _ => []
      end
  end.
Fixpoint all_roles (en : env) (times : nat) (v : N) (ls : list (list token)) : list (role * token) :=
  match ls with [] => [] | l :: r => line_roles en times v l ++ all_roles en times (version_after v l) r end.

(* the roles in a document *)
Definition doc_roles (en : env) (times : nat) (r : presult) : list (role * token) :=
  all_roles en times 1 (r_lines r) ++ map (pair Remark) (filter is_comment (r_tokens r)).
