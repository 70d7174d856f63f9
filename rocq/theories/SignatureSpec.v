(* What an opcode takes, and how a signature should say it. *)
From Verif Require Import Base Expr OpTable Print Signature.

(* an argument that is read: its name, its kind, and whether it stands for any number of values *)
Record taken := Taken { tk_name : string; tk_kind : imm; tk_list : bool }.

(* the arguments the function of an opcode can read, one after the other, if each is there and fine *)
Fixpoint reads (p : prog) (l : list taken) : Prop :=
  match p with
  | Emit _ => l = []
  | MinVersion _ p | ModeMinVersion _ _ p => reads p l
  | Read k n f => exists v r, l = Taken n k false :: r /\ reads (f v) r
  | ReadMaybe n f => (exists v r, l = Taken n IUint8 false :: r /\ reads (f (Some v)) r) \/ reads (f None) l
  | ReadInts n f => exists v r, l = Taken n IInt true :: r /\ reads (f v) r
  | ReadBytess n f => exists v r, l = Taken n IBytes true :: r /\ reads (f v) r
  | ReadLabels n f => exists v r, l = Taken n ILabel true :: r /\ reads (f v) r
  end.

(* an opcode takes the arguments m, and o behind them or nothing *)
Definition takes (p : prog) (m o : list taken) : Prop := forall l, reads p l <-> l = m \/ l = m ++ o.

(* the words of m, and those of o in one pair of brackets *)
Definition bracketed (word : taken -> str) (m o : list taken) : str :=
  join (map word m ++ match o with [] => [] | _ => [bs "[" ++ join (map word o) ++ bs "]"] end).
Definition dots (a : taken) : str := if tk_list a then bs ", ..." else [].
Definition short_word (a : taken) : str := bs (tk_name a) ++ dots a.
Definition long_word (a : taken) : str := bs "{" ++ type_text (tk_kind a) ++ bs " : " ++ bs (tk_name a) ++ dots a ++ bs "}".

(* every bracket that is opened is closed *)
Fixpoint closes (open : nat) (s : str) : bool :=
  match s with
  | [] => open =? 0
  | c :: r =>
      if Ascii.eqb c "["%char then closes (S open) r
      else if Ascii.eqb c "]"%char then match open with 0 => false | S n => closes n r end
      else closes open r
  end.

(* a text with fields ${number:text} as the user sees it, and the numbers in order *)
Fixpoint fields (inside : option (nat * bool)) (s : str) : str * list nat :=
  match s with
  | [] => ([], [])
  | c :: r =>
      match inside with
      | None =>
          if Ascii.eqb c "$"%char then match r with d :: r => if Ascii.eqb d "{"%char then fields (Some (0, false)) r else ([], []) | [] => ([], []) end
          else let (t, ns) := fields None r in (c :: t, ns)
      | Some (n, false) =>
          if Ascii.eqb c ":"%char then let (t, ns) := fields (Some (n, true)) r in (t, n :: ns)
          else fields (Some (10 * n + N.to_nat (byte c - 48), false)) r
      | Some (n, true) =>
          if Ascii.eqb c "}"%char then fields None r
          else let (t, ns) := fields inside r in (c :: t, ns)
      end
  end.
Definition filled (s : str) : str := fst (fields None s).
Definition stops (s : str) : list nat := snd (fields None s).
