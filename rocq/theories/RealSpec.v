(* Real executions of a program, written from the opcode descriptions of langspec.json, and what
   it means that the debugger shows them.  Nothing here uses the Execute methods.

   Simplifications.  Everything an instruction reads besides its operands (transaction, ledger,
   constant blocks, hash functions, arithmetic) is one relation, the world, of which only the
   types of operands and results are known.  Costs are not modelled: a real execution may go on
   for longer than its budget allows.  The elliptic curve instructions are not in langspec.json
   and have no real step.  Labels are found as VmSpec.target says. *)
From Verif Require Import Base Expr Fields VmOps Vm VmSpec LangSpec.

(* a value of the real machine *)
Inductive real_value : Set :=
| CInt (n : N)
| CBytes (b : str).

Definition of_type (t : vtype) (c : real_value) : Prop :=
  match t, c with
  | TAny, _ => True
  | TUint64, CInt _ => True
  | TBytes, CBytes _ => True
  | _, _ => False
  end.

(* what instructions compute: operands and results deepest first, as in LangSpec *)
Record world : Type := World {
  w_op : expr -> list real_value -> list real_value -> Prop;
  w_selector : str -> str (* the selector of a method signature *)
}.

(* the table of the field an instruction reads, and the field (C56 and C81 are about the tables) *)
Definition field_read (e : expr) : option (list field_spec * N) :=
  match e with
  | TxnExpr f | TxnaExpr f _ | GtxnExpr _ f | ItxnExpr f | GtxnaExpr _ f _ | GitxnExpr _ f
  | GitxnaExpr _ f _ | GtxnsExpr f | GtxnsaExpr f _ | GtxnasExpr f _ | ItxnasExpr f
  | GitxnasExpr _ f | TxnasExpr f | GtxnsasExpr f => Some (txnFieldSpecs, f)
  | GlobalExpr f => Some (globalFieldSpecs, f)
  | AssetParamsGetExpr f => Some (assetParamsFieldSpecs, f)
  | AppParamsGetExpr f => Some (appParamsFieldSpecs, f)
  | AcctParamsGetExpr f => Some (acctParamsFieldSpecs, f)
  | AssetHoldingGetExpr f => Some (assetHoldingFieldSpecs, f)
  | BlockExpr f => Some (blockFieldSpecs, f)
  | _ => None
  end.

(* the world respects the types of langspec.json and of the fields; the field is the first result *)
Definition lawful (w : world) : Prop :=
  forall e args res, w_op w e args res ->
    exists a r, lang_spec e = Some (a, r) /\ Forall2 of_type a args /\ Forall2 of_type r res /\
      forall specs f s c rest, field_read e = Some (specs, f) -> spec_by_field specs f = Some s ->
        res = c :: rest -> of_type (vm_type (f_type s)) c.

(* instructions with a step of their own below; the world is asked about all others *)
Definition built_in (e : expr) : bool :=
  match e with
  | IntExpr _ | PushIntExpr _ | PushBytesExpr _ _ | ByteExpr _ _ | PushIntsExpr _
  | PushBytessExpr _ | MethodExpr _ | LoadExpr _ | StoreExpr _ | Op0 LoadsExpr
  | Op0 StoresExpr | Op0 AssertExpr | ProtoExpr _ _ | FrameDigExpr _ | FrameBuryExpr _ => true
  | _ => stack_op e
  end.

(* the constants an instruction pushes, the last one ends on top *)
Definition constants (w : world) (e : expr) : option (list real_value) :=
  match e with
  | IntExpr n | PushIntExpr n => Some [CInt n]
  | PushBytesExpr b _ | ByteExpr b _ => Some [CBytes b]
  | PushIntsExpr ns => Some (map CInt ns)
  | PushBytessExpr bs => Some (map CBytes bs)
  | MethodExpr s => Some [CBytes (w_selector w s)]
  | _ => None
  end.

(* a subroutine call: the line of the callsub, the height of the stack at the call, and the
   arguments and results proto announced *)
Record real_call : Set := Call {
  c_from : nat;
  c_height : nat;
  c_proto : option (N * N)
}.

(* stack and calls have their top first *)
Record real_state : Type := Real {
  c_line : nat;
  c_stack : list real_value;
  c_calls : list real_call;
  c_slots : N -> real_value
}.

Definition set_slot (n : N) (c : real_value) (m : N -> real_value) : N -> real_value :=
  fun k => if (k =? n)%N then c else m k.

(* the case of match taken: the first one equal to the value *)
Definition first_case (cases : list real_value) (c : real_value) (i : nat) : Prop :=
  nth_error cases i = Some c /\ forall j, j < i -> nth_error cases j <> Some c.

(* what the instruction on a line does; an execution that fails or ends has no further step *)
Inductive instruction (w : world) (l : listing) : expr -> real_state -> real_state -> Prop :=
| i_nop e i s cs m : is_nop e = true ->
    instruction w l e (Real i s cs m) (Real (S i) s cs m)
| i_world e i args res s cs m : built_in e = false -> w_op w e args res ->
    instruction w l e (Real i (rev args ++ s) cs m) (Real (S i) (rev res ++ s) cs m)
| i_stack e i s s' cs m : stack_op e = true -> stack_spec e s = Some s' ->
    instruction w l e (Real i s cs m) (Real (S i) s' cs m)
| i_constants e i xs s cs m : constants w e = Some xs ->
    instruction w l e (Real i s cs m) (Real (S i) (rev xs ++ s) cs m)
| i_assert i n s cs m : n <> 0%N ->
    instruction w l (Op0 AssertExpr) (Real i (CInt n :: s) cs m) (Real (S i) s cs m)
| i_load n i s cs m :
    instruction w l (LoadExpr n) (Real i s cs m) (Real (S i) (m n :: s) cs m)
| i_store n i c s cs m :
    instruction w l (StoreExpr n) (Real i (c :: s) cs m) (Real (S i) s cs (set_slot n c m))
| i_loads n i s cs m : (n < 256)%N ->
    instruction w l (Op0 LoadsExpr) (Real i (CInt n :: s) cs m) (Real (S i) (m n :: s) cs m)
| i_stores n i c s cs m : (n < 256)%N ->
    instruction w l (Op0 StoresExpr) (Real i (c :: CInt n :: s) cs m)
      (Real (S i) s cs (set_slot n c m))
| i_b t i j s cs m : target l t (Some j) ->
    instruction w l (BExpr t) (Real i s cs m) (Real j s cs m)
| i_bz_taken t i j s cs m : target l t (Some j) ->
    instruction w l (BzExpr t) (Real i (CInt 0 :: s) cs m) (Real j s cs m)
| i_bz_not_taken t i n s cs m : n <> 0%N ->
    instruction w l (BzExpr t) (Real i (CInt n :: s) cs m) (Real (S i) s cs m)
| i_bnz_taken t i j n s cs m : n <> 0%N -> target l t (Some j) ->
    instruction w l (BnzExpr t) (Real i (CInt n :: s) cs m) (Real j s cs m)
| i_bnz_not_taken t i s cs m :
    instruction w l (BnzExpr t) (Real i (CInt 0 :: s) cs m) (Real (S i) s cs m)
| i_switch_taken ts t i j n s cs m :
    nth_error ts (N.to_nat n) = Some t -> target l t (Some j) ->
    instruction w l (SwitchExpr ts) (Real i (CInt n :: s) cs m) (Real j s cs m)
| i_switch_not_taken ts i n s cs m : length ts <= N.to_nat n ->
    instruction w l (SwitchExpr ts) (Real i (CInt n :: s) cs m) (Real (S i) s cs m)
| i_match_taken ts t i j c cases p s cs m : length cases = length ts ->
    first_case cases c p -> nth_error ts p = Some t -> target l t (Some j) ->
    instruction w l (MatchExpr ts) (Real i (c :: rev cases ++ s) cs m) (Real j s cs m)
| i_match_not_taken ts i c cases s cs m : length cases = length ts -> ~ In c cases ->
    instruction w l (MatchExpr ts) (Real i (c :: rev cases ++ s) cs m) (Real (S i) s cs m)
| i_callsub t i j s cs m : target l t (Some j) ->
    instruction w l (CallSubExpr t) (Real i s cs m) (Real j s (Call i (length s) None :: cs) m)
| i_retsub i from h s cs m :
    instruction w l RetSubExpr (Real i s (Call from h None :: cs) m) (Real (S from) s cs m)
| i_retsub_proto i from h a r results locals args s cs m :
    length results = N.to_nat r -> length args = N.to_nat a -> length (args ++ s) = h ->
    instruction w l RetSubExpr
      (Real i (results ++ locals ++ args ++ s) (Call from h (Some (a, r)) :: cs) m)
      (Real (S from) (results ++ s) cs m)
| i_proto a r i from s cs m : N.to_nat a <= length s ->
    instruction w l (ProtoExpr a r) (Real i s (Call from (length s) None :: cs) m)
      (Real (S i) s (Call from (length s) (Some (a, r)) :: cs) m)
| i_frame_dig z i s from h p c cs m : (0 <= Z.of_nat h + z)%Z ->
    nth_error (rev s) (Z.to_nat (Z.of_nat h + z)) = Some c ->
    instruction w l (FrameDigExpr z) (Real i s (Call from h p :: cs) m)
      (Real (S i) (c :: s) (Call from h p :: cs) m)
| i_frame_bury z i c s s' from h p cs m : (0 <= Z.of_nat h + z)%Z ->
    length s' = length s ->
    nth_error (rev s') (Z.to_nat (Z.of_nat h + z)) = Some c ->
    (forall k, k <> Z.to_nat (Z.of_nat h + z) -> nth_error (rev s') k = nth_error (rev s) k) ->
    instruction w l (FrameBuryExpr z) (Real i (c :: s) (Call from h p :: cs) m)
      (Real (S i) s' (Call from h p :: cs) m).

(* the beginning of an execution: empty stack, every scratch slot 0 *)
Definition beginning : real_state := Real 0 [] [] (fun _ => CInt 0).

(* c' comes after c in some execution whose every instruction satisfies P *)
Inductive goes (w : world) (l : listing) (P : expr -> real_state -> Prop) (c : real_state)
  : real_state -> Prop :=
| goes_now : goes w l P c c
| goes_on c1 c2 e : goes w l P c c1 -> nth_error l (c_line c1) = Some e -> P e c1 ->
    instruction w l e c1 c2 -> goes w l P c c2.

(* ------------------------------------------------------------------------------------------ *)
(* the names by which a source refers to an instruction (expr.go:78, 162, 199) *)
Definition source_name (e : expr) : option str :=
  match e with
  | Op0 Sha256Expr => Some (bs "sha256")
  | Op0 ED25519VerifyExpr => Some (bs "ed25519verify")
  | EcdsaVerifyExpr _ => Some (bs "ecdsa_verify")
  | _ => None
  end.

(* a value of the debugger is right about a real value: its type and, as far as it has one, its
   source.  What the debugger says about the contents of scratch slots counts only when slots. *)
Inductive describes (w : world) (slots : bool) : value -> real_value -> Prop :=
| d_plain T c : of_type T c -> describes w slots (Val T None) c
| d_int T n : of_type T (CInt n) -> describes w slots (Val T (Some (SUint64 n))) (CInt n)
| d_bytes T b : of_type T (CBytes b) -> describes w slots (Val T (Some (SBytes b))) (CBytes b)
| d_selector T s : of_type T (CBytes (w_selector w s)) ->
    describes w slots (Val T (Some (SSignature s))) (CBytes (w_selector w s))
| d_op T e name xs args c : of_type T c -> source_name e = Some name ->
    Forall2 (describes w slots) xs args -> w_op w e (rev args) [c] ->
    describes w slots (Val T (Some (SOp name xs))) c
| d_slot T x c : of_type T c -> describes w slots x c ->
    describes w slots (Val T (Some (SValue x))) c
| d_any_slot T x c : of_type T c -> slots = false ->
    describes w slots (Val T (Some (SValue x))) c.

(* a frame of the debugger is right about a call; the position is kept modulo 256 *)
Definition describes_call (f : frame) (c : real_call) : Prop :=
  fr_return f = Some (c_from c) /\ fr_p f = (N.of_nat (c_height c) mod 256)%N /\
  match c_proto c with
  | None => fr_args f = 0%N /\ fr_returns f = 0%N
  | Some (a, r) => fr_args f = a /\ fr_returns f = r
  end.

(* branch b shows the real state c *)
Definition shows_state (w : world) (slots : bool) (l : listing) (b : branch) (c : real_state) : Prop :=
  arrives l (Some (c_line c)) b /\
  Forall2 (describes w slots) (b_stack b) (c_stack c) /\
  Forall2 describes_call (b_frames b) (c_calls c).

(* a debugger session in which no instruction fails *)
Inductive session (v : vm) : vm -> Prop :=
| session_now : session v v
| session_step v1 v2 : session v v1 -> step v1 = Ret v2 -> v_error v2 = false -> session v v2
| session_switch v1 id : session v v1 -> session v (switch_vm id v1)
| session_breakpoints v1 lns v2 ns : session v v1 -> set_breakpoints lns v1 = Ret (v2, ns) ->
    session v v2.

(* some branch shows c at some time between v and v' *)
Definition shown (w : world) (slots : bool) (l : listing) (v v' : vm) (c : real_state) : Prop :=
  exists v1 b, session v v1 /\ session v1 v' /\ In b (v_branches v1) /\ shows_state w slots l b c.

(* some branch shows c and is given up there because its budget does not suffice *)
Definition given_up (w : world) (slots : bool) (l : listing) (ver : N) (v v' : vm)
    (c : real_state) : Prop :=
  exists v1 b i e cost, session v v1 /\ session v1 v' /\ In b (v_branches v1) /\
    shows_state w slots l b c /\ on_line b i /\ nth_error l i = Some e /\
    (cost_of e ver b = Ret [cost] \/ (cost_of e ver b = Ret [] /\ cost = 1%Z)) /\
    (b_budget b < cost)%Z.

(* ------------------------------------------------------------------------------------------ *)
(* the instructions, and the states in which, the debugger does what the real machine does *)
Definition followed (slots : bool) (e : expr) (c : real_state) : Prop :=
  match e with
  (* a forked branch has lost the pending calls (C36) *)
  | BnzExpr _ | BzExpr _ | SwitchExpr _ | MatchExpr _ => c_calls c = []
  (* the arguments are not found below local variables (C59) *)
  | RetSubExpr =>
      match c_calls c with
      | Call _ h (Some (_, r)) :: _ => length (c_stack c) = h + N.to_nat r
      | _ => True
      end
  (* positions are computed modulo 256 *)
  | FrameDigExpr z | FrameBuryExpr z =>
      match c_calls c with Call _ h _ :: _ => (Z.of_nat h + z < 256)%Z | [] => True end
  | DigExpr _ => length (c_stack c) <= 256
  (* wrong effects (C37, C60) *)
  | BuryExpr _ | Op0 Dup2Expr | PushIntsExpr _ => False
  (* all branches share the scratch slots (C58) *)
  | LoadExpr _ => slots = false
  (* no effect (C38) *)
  | Op0 Extract64BitsExpr | ItxnaExpr _ _ | AddrExpr _ | Op0 BminusExpr | Op0 BytesBitOrExpr => False
  | _ => True
  end.
