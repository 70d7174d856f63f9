(* vm.go and the Execute/Cost methods of expr.go: the symbolic TEAL machine behind the debugger.

   Representation.
   - A *VmBranch is its position in Vm.Branches (branches are only ever appended, vm.go:275).
   - Line is option nat; None is ExitLine (-1).  Every value Go assigns to Line is >= -1.
   - Stack and Frames have their top (last element of the Go slice) first: Items = rev b_stack.
   - An instruction that panics leaves the changes made so far; so Execute is a function
     returning the state and a result.  OutOfFuel means the Go code never returns.
   - Vm.Error holds the recovered value; the model only keeps whether there is one.
   - The syms map is recomputed from the listing. *)
From Verif Require Import Base Expr Fields VmOps.

(* vm.go:13 *)
Definition MainName : str := "(main)".
(* vm.go:15 *)
Definition ExitName : str := "(exited)".

(* vm.go:17-23 VmFrame *)
Record frame : Set := Frame {
  fr_return : option nat;
  fr_args : N;
  fr_returns : N;
  fr_p : N;
  fr_name : str
}.

(* vm.go:29-33 VmValue; vm.go:48, 60, 72, 84 the kinds of vmSource (a VmValue is one as well).
   src == nil is None; the arguments of a vmOpSource are always VmValues. *)
Inductive value : Set :=
| Val (T : vtype) (src : option source)
with source : Set :=
| SUint64 (v : N)
| SSignature (v : str)
| SBytes (v : str)
| SOp (name : str) (args : list value)
| SValue (v : value).

(* vm.go:29-33 *)
Definition v_T (v : value) : vtype := let (T, _) := v in T.
Definition v_src (v : value) : option source := let (_, s) := v in s.

(* vm.go:39-46, 52-54, 68-70, 76-78 Lengths *)
Fixpoint lengths (v : value) : list N :=
  match v with
  | Val _ (Some (SUint64 _)) => [0%N]
  | Val _ (Some (SSignature _)) => [4%N]
  | Val _ (Some (SBytes b)) => [N.of_nat (length b)]
  | Val _ (Some (SValue w)) => lengths w
  | Val _ _ => []
  end.

(* vm.go:244-259 VmBranch *)
Record branch : Set := Branch {
  b_id : nat;
  b_line : option nat;
  b_stack : list value;
  b_frames : list frame;
  b_budget : Z;
  b_name : str;
  b_trace : list expr
}.

(* vm.go:300-318 Vm; Triggered maps a branch id to lines; Trace is never used *)
Record vm : Set := Vm {
  v_id : nat;
  v_listing : listing;
  v_version : N;
  v_scratch : list value;
  v_branches : list branch;
  v_branch : option nat;
  v_current : nat;
  v_bps : list nat;
  v_trig : list (nat * list nat);
  v_error : bool
}.

(* field assignments *)
(* assignments to the fields of a VmBranch (vm.go:244-259) *)
Definition set_line (x : option nat) (b : branch) :=
  Branch (b_id b) x (b_stack b) (b_frames b) (b_budget b) (b_name b) (b_trace b).
Definition set_stack (x : list value) (b : branch) :=
  Branch (b_id b) (b_line b) x (b_frames b) (b_budget b) (b_name b) (b_trace b).
Definition set_frames (x : list frame) (b : branch) :=
  Branch (b_id b) (b_line b) (b_stack b) x (b_budget b) (b_name b) (b_trace b).
Definition set_budget (x : Z) (b : branch) :=
  Branch (b_id b) (b_line b) (b_stack b) (b_frames b) x (b_name b) (b_trace b).
Definition set_name (x : str) (b : branch) :=
  Branch (b_id b) (b_line b) (b_stack b) (b_frames b) (b_budget b) x (b_trace b).
Definition set_trace (x : list expr) (b : branch) :=
  Branch (b_id b) (b_line b) (b_stack b) (b_frames b) (b_budget b) (b_name b) x.

(* assignments to the fields of a Vm (vm.go:300-318) *)
Definition set_id (x : nat) (v : vm) :=
  Vm x (v_listing v) (v_version v) (v_scratch v) (v_branches v) (v_branch v) (v_current v)
     (v_bps v) (v_trig v) (v_error v).
Definition set_scratch (x : list value) (v : vm) :=
  Vm (v_id v) (v_listing v) (v_version v) x (v_branches v) (v_branch v) (v_current v)
     (v_bps v) (v_trig v) (v_error v).
Definition set_branches (x : list branch) (v : vm) :=
  Vm (v_id v) (v_listing v) (v_version v) (v_scratch v) x (v_branch v) (v_current v)
     (v_bps v) (v_trig v) (v_error v).
Definition set_branch (x : option nat) (v : vm) :=
  Vm (v_id v) (v_listing v) (v_version v) (v_scratch v) (v_branches v) x (v_current v)
     (v_bps v) (v_trig v) (v_error v).
Definition set_current (x : nat) (v : vm) :=
  Vm (v_id v) (v_listing v) (v_version v) (v_scratch v) (v_branches v) (v_branch v) x
     (v_bps v) (v_trig v) (v_error v).
Definition set_bps (x : list nat) (v : vm) :=
  Vm (v_id v) (v_listing v) (v_version v) (v_scratch v) (v_branches v) (v_branch v) (v_current v)
     x (v_trig v) (v_error v).
Definition set_trig (x : list (nat * list nat)) (v : vm) :=
  Vm (v_id v) (v_listing v) (v_version v) (v_scratch v) (v_branches v) (v_branch v) (v_current v)
     (v_bps v) x (v_error v).
Definition set_error (x : bool) (v : vm) :=
  Vm (v_id v) (v_listing v) (v_version v) (v_scratch v) (v_branches v) (v_branch v) (v_current v)
     (v_bps v) (v_trig v) x.

(* assignment through a *VmBranch *)
(* writing through a *VmBranch *)
Definition put (k : nat) (b : branch) (v : vm) : vm :=
  set_branches (upd_nth k (fun _ => b) (v_branches v)) v.

(* Line++ *)
(* b.Line++ (expr.go:51 and in every Execute) *)
Definition line_inc (x : option nat) : option nat :=
  match x with None => Some 0 | Some i => Some (S i) end.

(* vm.go:320-327 find, with the syms map of NewVm (vm.go:338-345): the last label of that name *)
Fixpoint find_from (i : nat) (l : listing) (target : str) (acc : option nat) : option nat :=
  match l with
  | [] => acc
  | e :: r =>
      find_from (S i) r target
        (match e with
         | LabelExpr n => if seqb n target then Some i else acc
         | _ => acc
         end)
  end.
Definition find (l : listing) (target : str) : option nat := find_from 0 l target None.

(* vm.go:332  v.Triggered[id] = append(v.Triggered[id], ln) *)
Fixpoint trig_add (id ln : nat) (t : list (nat * list nat)) : list (nat * list nat) :=
  match t with
  | [] => [(id, [ln])]
  | (i, ls) :: r => if i =? id then (i, ls ++ [ln]) :: r else (i, ls) :: trig_add id ln r
  end.

(* vm.go:329-335 updateBreakpoints *)
Definition update_bps (bps : list nat) (b : branch) (t : list (nat * list nat)) :=
  fold_left (fun t bp =>
    match b_line b with
    | Some ln => if ln =? bp then trig_add (b_id b) ln t else t
    | None => t
    end) bps t.

(* vm.go:171-186, the loop of VmBranch.skipNops; ops are the lines from b.Line on *)
Fixpoint skip_from (ops : list expr) (i : nat) (bps : list nat) (b : branch)
    (t : list (nat * list nat)) : branch * list (nat * list nat) * bool :=
  match ops with
  | [] => (b, t, false)
  | op :: rest =>
      let b := match op with LabelExpr n => set_name n b | _ => b end in
      if is_nop op then
        let b := set_line (Some (S i)) b in
        skip_from rest (S i) bps b (update_bps bps b t)
      else (b, t, true)
  end.

(* vm.go:166-189 VmBranch.skipNops *)
Definition skip_nops (l : listing) (bps : list nat) (b : branch) (t : list (nat * list nat)) :=
  match b_line b with
  | None => (b, t, false)
  | Some i => skip_from (skipn i l) i bps b t
  end.

(* vm.go:287-290 exit *)
Definition exit_branch (b : branch) : branch := set_name ExitName (set_line None b).

(* ------------------------------------------------------------------------------------------ *)
(* Execute methods: code that works on branch k of the machine and may panic *)
(* an Execute method (vm.go:139-141) on the branch at a position *)
Definition M (A : Type) : Type := nat -> vm -> vm * res A.

Definition ret {A} (a : A) : M A := fun _ v => (v, Ret a).
Definition throw {A} : M A := fun _ v => (v, Panic).
Definition diverge {A} : M A := fun _ v => (v, OutOfFuel).
Definition bind {A B} (m : M A) (f : A -> M B) : M B :=
  fun k v =>
    match m k v with
    | (v', Ret a) => f a k v'
    | (v', Panic) => (v', Panic)
    | (v', OutOfFuel) => (v', OutOfFuel)
    end.
Notation "x <- m ;; f" := (bind m (fun x => f))
  (at level 61, m at next level, f at level 61, right associativity).
Notation "m ;; f" := (bind m (fun _ => f)) (at level 61, right associativity).

Definition get_b : M branch :=
  fun k v => match nth_error (v_branches v) k with Some b => (v, Ret b) | None => (v, Panic) end.
Definition mod_b (f : branch -> branch) : M unit :=
  fun k v => match nth_error (v_branches v) k with
             | Some b => (put k (f b) v, Ret tt)
             | None => (v, Panic)
             end.
Definition lift {A} (r : res A) : M A := fun _ v => (v, r).

(* b.Line++ *)
Definition next_line : M unit := mod_b (fun b => set_line (line_inc (b_line b)) b).

(* vm.go:191-193 *)
Definition push (x : value) : M unit := mod_b (fun b => set_stack (x :: b_stack b) b).

(* vm.go:222-233 the type test of pop *)
Definition accepts (t : vtype) (x : value) : bool :=
  match t, v_T x with
  | TAny, _ => true
  | _, TAny => true
  | TNone, TNone | TUint64, TUint64 | TBytes, TBytes => true
  | _, _ => false
  end.

(* vm.go:217-236 *)
Definition pop (t : vtype) : M value :=
  b <- get_b ;;
  match b_stack b with
  | [] => throw
  | x :: r => if accepts t x then mod_b (set_stack r) ;; ret x else throw
  end.

(* vm.go:195-200 *)
Definition prepare (a r : N) : M unit :=
  b <- get_b ;;
  match b_frames b with
  | [] => throw
  | f :: fs => mod_b (set_frames (Frame (fr_return f) a r (fr_p f) (fr_name f) :: fs))
  end.

(* b.Stack.Items[n] *)
(* b.Stack.Items[n] (vm.go:213-215, expr.go:2459-2485) *)
Definition item (n : nat) : M value :=
  b <- get_b ;; lift (index (rev (b_stack b)) n).

(* vm.go:202-204 *)
Definition replace (n : nat) (x : value) : M unit :=
  b <- get_b ;;
  if n <? length (b_stack b)
  then mod_b (set_stack (rev (upd_nth n (fun _ => x) (rev (b_stack b)))))
  else throw.

(* b.vm.Scratch.Items[n], n in range for a uint8 *)
(* b.vm.Scratch.Items[n] (vm.go:206-211, expr.go:1086-1092) *)
Definition scratch (n : N) : M value :=
  fun _ v => (v, index (v_scratch v) (N.to_nat n)).

(* vm.go:206-211 *)
Definition store (idx x : value) : M unit :=
  match v_src idx with
  | Some (SUint64 n) =>
      fun _ v => if (N.to_nat n <? length (v_scratch v))
                 then (set_scratch (upd_nth (N.to_nat n) (fun _ => x) (v_scratch v)) v, Ret tt)
                 else (v, Panic)
  | _ => ret tt
  end.

(* vm.go:261-276 *)
Definition fork (target : str) : M unit :=
  b <- get_b ;;
  fun _ v =>
    let nb := Branch (v_id v) (find (v_listing v) target) (b_stack b) [] (b_budget b) target
                     (b_trace b) in
    let '(nb, t, _) := skip_nops (v_listing v) (v_bps v) nb (v_trig v) in
    (set_branches (v_branches v ++ [nb]) (set_trig t (set_id (S (v_id v)) v)), Ret tt).

(* b.vm.find *)
(* b.vm.find(target) (vm.go:278-285) *)
Definition find_m (target : str) : M (option nat) :=
  fun _ v => (v, Ret (find (v_listing v) target)).

(* vm.go:278-280 *)
Definition jump (target : str) : M unit :=
  ln <- find_m target ;; mod_b (set_line ln).

(* vm.go:282-285 *)
Definition call (target : str) : M unit :=
  b <- get_b ;;
  mod_b (set_frames
           (Frame (b_line b) 0 0 (N.of_nat (length (b_stack b)) mod 256) (b_name b) :: b_frames b)) ;;
  ln <- find_m target ;; mod_b (set_line ln).

(* vm.go:287-290 *)
Definition exit_m : M unit := mod_b exit_branch.

(* loops: for i := 0; i < n; i++ { r = append(r, b.pop(t)) } and for _, x := range xs { f(x) } *)
(* for i := 0; i < n; i++ { b.pop(t) } (expr.go:1868-1874) *)
Fixpoint pop_n (n : nat) (t : vtype) : M (list value) :=
  match n with
  | 0 => ret []
  | S n' => x <- pop t ;; r <- pop_n n' t ;; ret (x :: r)
  end.
(* range loops over the labels or constants of an instruction (expr.go:1702-1712, 2253-2259) *)
Fixpoint each {A} (f : A -> M unit) (xs : list A) : M unit :=
  match xs with
  | [] => ret tt
  | x :: r => f x ;; each f r
  end.

(* VmValue{T: t} (vm.go:29-33) *)
Definition plain_val (t : vtype) : value := Val t None.

(* spec, ok := xxxSpecByField(e.Field); if !ok { panic }; spec.Type().Vm() *)
(* the spec of a field and its type (expr.go:1024-1034) *)
Definition field_type (specs : list field_spec) (f : N) : M vtype :=
  match spec_by_field specs f with
  | Some s => ret (vm_type (f_type s))
  | None => throw
  end.

(* the shape shared by most Execute methods *)
(* the plain Execute methods tabulated in VmOps.v *)
Definition pops_pushes (ps qs : list vtype) : M unit :=
  each (fun t => pop t ;; ret tt) ps ;; each (fun t => push (plain_val t)) qs ;; next_line.

(* Execute; the comment gives the lines in expr.go *)
Definition execute (e : expr) : M unit :=
  match e with
  | ErrExpr => exit_m (* 23-26 *)
  | Op0 Sha256Expr => (* 74-80 *)
      x <- pop TBytes ;; push (Val TBytes (Some (SOp "sha256" [x]))) ;; next_line
  | Op0 ED25519VerifyExpr => (* 154-164 *)
      x1 <- pop TBytes ;; x2 <- pop TBytes ;; x3 <- pop TBytes ;;
      push (Val TUint64 (Some (SOp "ed25519verify" [x1; x2; x3]))) ;; next_line
  | EcdsaVerifyExpr _ => (* 190-201 *)
      x1 <- pop TBytes ;; x2 <- pop TBytes ;; x3 <- pop TBytes ;; x4 <- pop TBytes ;;
      x5 <- pop TBytes ;;
      push (Val TUint64 (Some (SOp "ecdsa_verify" [x1; x2; x3; x4; x5]))) ;; next_line
  | TxnExpr f (* 1024-1034 *)
  | TxnaExpr f _ (* 1124-1134 *)
  | GtxnExpr _ f (* 1145-1155 *)
  | ItxnExpr f (* 2635-2645 *)
  | GtxnaExpr _ f _ (* 2708-2718 *)
  | GitxnExpr _ f (* 3048-3058 *)
  | GitxnaExpr _ f _ => (* 3583-3593 *)
      t <- field_type txnFieldSpecs f ;; push (plain_val t) ;; next_line
  | GlobalExpr f => (* 1064-1074 *)
      t <- field_type globalFieldSpecs f ;; push (plain_val t) ;; next_line
  | LoadExpr i => (* 1086-1092 *)
      x <- scratch i ;; push (Val TAny (Some (SValue x))) ;; next_line
  | StoreExpr i => (* 1100-1107 *)
      x <- pop TAny ;; store (Val TUint64 (Some (SUint64 i))) x ;; next_line
  | GtxnsExpr f (* 1167-1178 *)
  | GtxnsaExpr f _ => (* 2729-2740 *)
      t <- field_type txnFieldSpecs f ;; pop TUint64 ;; push (plain_val t) ;; next_line
  | ProtoExpr a r => prepare a r ;; next_line (* 1185-1189 *)
  | PushBytesExpr b _ (* 1252-1256 *)
  | ByteExpr b _ => push (Val TBytes (Some (SBytes b))) ;; next_line (* 1320-1328 *)
  | IntExpr n => push (Val TUint64 (Some (SUint64 n))) ;; next_line (* 1276-1281 *)
  | BnzExpr l (* 1464-1469 *)
  | BzExpr l => pop TUint64 ;; fork l ;; next_line (* 1485-1490 *)
  | BExpr l => jump l (* 1506-1509 *)
  | RetSubExpr => (* 1646-1673 *)
      b <- get_b ;;
      match b_frames b with
      | f :: fs =>
          rs <- pop_n (N.to_nat (fr_returns f)) TAny ;;
          pop_n (N.to_nat (fr_args f)) TAny ;;
          each push (rev rs) ;;
          mod_b (fun b => set_frames fs (set_name (fr_name f) (set_line (line_inc (fr_return f)) b)))
      | [] => next_line
      end
  | ReturnExpr => pop TUint64 ;; exit_m (* 1684-1688 *)
  | SwitchExpr ts => pop TUint64 ;; each fork ts ;; next_line (* 1702-1712 *)
  | MatchExpr ts => (* 1745-1759 *)
      pop_n (length ts) TAny ;; pop TAny ;; each fork ts ;; next_line
  | CallSubExpr l => call l (* 1792-1795 *)
  | Op0 DupExpr => x <- pop TAny ;; push x ;; push x ;; next_line (* 1835-1841 *)
  | BuryExpr n => x <- pop TAny ;; replace (N.to_nat n) x ;; next_line (* 1849-1854 *)
  | PopNExpr n => pop_n (N.to_nat n) TAny ;; next_line (* 1868-1874 *)
  | DupNExpr n => (* 1884-1891: the uint8 counter never exceeds 255 *)
      x <- pop TAny ;;
      if (255 <=? n)%N then diverge
      else each push (repeat x (S (N.to_nat n))) ;; next_line
  | GtxnasExpr f _ (* 2110-2122 *)
  | ItxnasExpr f (* 2163-2175 *)
  | GitxnasExpr _ f (* 2186-2198 *)
  | TxnasExpr f => (* 2813-2825 *)
      pop TUint64 ;; t <- field_type txnFieldSpecs f ;; push (plain_val t) ;; next_line
  | PushIntsExpr ns => each (fun _ => push (plain_val TBytes)) ns ;; next_line (* 2208-2214 *)
  | MethodExpr s => push (Val TBytes (Some (SSignature s))) ;; next_line (* 2235-2239 *)
  | PushBytessExpr xs => (* 2253-2259 *)
      each (fun b => push (Val TBytes (Some (SBytes b)))) xs ;; next_line
  | FrameBuryExpr i => (* 2459-2467 *)
      b <- get_b ;;
      match b_frames b with
      | [] => throw
      | f :: _ =>
          x <- pop TAny ;; replace (Z.to_nat ((Z.of_N (fr_p f) + i) mod 256)) x ;; next_line
      end
  | FrameDigExpr i => (* 2477-2485 *)
      b <- get_b ;;
      match b_frames b with
      | [] => throw
      | f :: _ => x <- item (Z.to_nat ((Z.of_N (fr_p f) + i) mod 256)) ;; push x ;; next_line
      end
  | CoverExpr n => (* 2516-2533 *)
      x <- pop TAny ;; is <- pop_n (N.to_nat n) TAny ;; push x ;; each push (rev is) ;; next_line
  | UncoverExpr n => (* 2539-2556 *)
      is <- pop_n (N.to_nat n) TAny ;; x <- pop TAny ;; each push (rev is) ;; push x ;; next_line
  | AssetParamsGetExpr f => (* 2584-2597 *)
      pop TUint64 ;; t <- field_type assetParamsFieldSpecs f ;;
      push (plain_val t) ;; push (plain_val TUint64) ;; next_line
  | AppParamsGetExpr f => (* 2871-2884 *)
      pop TUint64 ;; t <- field_type appParamsFieldSpecs f ;;
      push (plain_val t) ;; push (plain_val TUint64) ;; next_line
  | AcctParamsGetExpr f => (* 2894-2907 *)
      pop TAny ;; t <- field_type acctParamsFieldSpecs f ;;
      push (plain_val t) ;; push (plain_val TUint64) ;; next_line
  | AssetHoldingGetExpr f => (* 3000-3014 *)
      pop TUint64 ;; pop TAny ;; t <- field_type assetHoldingFieldSpecs f ;;
      push (plain_val t) ;; push (plain_val TUint64) ;; next_line
  | BlockExpr f => (* 2927-2939 *)
      pop TUint64 ;; t <- field_type blockFieldSpecs f ;; push (plain_val t) ;; next_line
  | GtxnsasExpr f => (* 3170-3183 *)
      pop TUint64 ;; pop TUint64 ;; t <- field_type txnFieldSpecs f ;;
      push (plain_val t) ;; next_line
  | Op0 SwapExpr => (* 2685-2694 *)
      x1 <- pop TAny ;; x2 <- pop TAny ;; push x1 ;; push x2 ;; next_line
  | DigExpr n => (* 3193-3198: uint8(len(Items)) - 1 - Index *)
      b <- get_b ;;
      x <- item (Z.to_nat ((Z.of_nat (length (b_stack b)) - 1 - Z.of_N n) mod 256)) ;;
      push x ;; next_line
  | Op0 StoresExpr => (* 3328-3336 *)
      x <- pop TAny ;; i <- pop TUint64 ;; store i x ;; next_line
  | Op0 Dup2Expr => (* 3350-3359 *)
      x1 <- pop TAny ;; x2 <- pop TAny ;; push x1 ;; push x2 ;; push x1 ;; push x2 ;; next_line
  | _ =>
      match simple_effect e with
      | Some (ps, qs) => pops_pushes ps qs
      | None => next_line (* vm.go:479-480: no Execute method *)
      end
  end.

(* ------------------------------------------------------------------------------------------ *)
(* go_algorand.go:2278-2286 *)
Definition ecdsaVerifyCosts : list Z := [1700; 2500]%Z.
Definition ecdsaDecompressCosts : list Z := [650; 2400]%Z.

(* the switch on e.Group of the six elliptic curve instructions *)
(* the Cost methods of the elliptic curve instructions (expr.go:2279-2453) *)
Definition ec_cost (bn bls : Z) (g : N) : res (list Z) :=
  match g with
  | 0%N | 1%N => Ret [bn]
  | 2%N | 3%N => Ret [bls]
  | _ => Panic
  end.

(* expr.go:1983-1989 *)
Definition base64_cost (l : N) : Z :=
  1 + Z.of_N l / 16 + (if Z.of_N l mod 16 >? 0 then 1 else 0)%Z.
(* expr.go:2014-2020 *)
Definition json_cost (l : N) : Z :=
  25 + 2 * Z.of_N l / 7 + (if Z.of_N l mod 7 >? 0 then 2 else 0)%Z.

(* Cost, and the empty list for instructions that have no Cost method (vm.go:448-453); the
   comment gives the lines in expr.go *)
Definition cost_of (e : expr) (version : N) (b : branch) : res (list Z) :=
  match e with
  | Op0 Sha256Expr => Ret [if (version =? 1)%N then 7 else 35]%Z (* 65-72 *)
  | Op0 Keccak256Expr => Ret [if (version =? 1)%N then 26 else 130]%Z (* 96-103 *)
  | Op0 Sha512256Expr => Ret [if (version =? 1)%N then 9 else 45]%Z (* 123-130 *)
  | EcdsaVerifyExpr i => letr c := index ecdsaVerifyCosts (N.to_nat i) in Ret [c] (* 178-180 *)
  | EcdsaPkDecompressExpr i =>
      letr c := index ecdsaDecompressCosts (N.to_nat i) in Ret [c] (* 209-211 *)
  | Base64DecodeExpr _ => (* 1978-1992 *)
      match b_stack b with [] => Panic | x :: _ => Ret (map base64_cost (lengths x)) end
  | JsonRefExpr _ => (* 2009-2023 *)
      match b_stack b with [] => Panic | x :: _ => Ret (map json_cost (lengths x)) end
  | EcAddExpr g => ec_cost 10 20 g (* 2279-2292 *)
  | EcScalarMul g => ec_cost 100 200 g (* 2310-2323 *)
  | EcPairingCheckExpr g => ec_cost 1000 2000 g (* 2341-2354 *)
  | EcMultiExpExpr g => ec_cost 100 200 g (* 2380-2393 *)
  | EcSubgroupCheckExpr g => ec_cost 100 200 g (* 2410-2423 *)
  | EcMapToExpr g => ec_cost 100 200 g (* 2440-2453 *)
  | _ => match fixed_cost e with Some c => Ret [c] | None => Ret [] end
  end.

(* ------------------------------------------------------------------------------------------ *)
(* vm.go:370-396 Vm.skipNops.  Each turn of the loop leaves it, takes one branch out of the
   program or moves on to the next branch, so twice the number of branches (plus one) bounds
   the number of turns; VmProofs.v shows that this fuel always suffices. *)
Fixpoint skip_loop (fuel begin : nat) (v : vm) : res vm :=
  match fuel with
  | 0 => OutOfFuel
  | S fuel =>
      match nth_error (v_branches v) (v_current v) with
      | None => Ret (set_branch None v) (* len(v.Branches) <= v.Current *)
      | Some b =>
          match b_line b with
          | None =>
              let c := S (v_current v) in
              let c := if c =? length (v_branches v) then 0 else c in
              let v := set_current c v in
              if c =? begin then Ret (set_branch None v) else skip_loop fuel begin v
          | Some _ =>
              let '(b, t, ok) := skip_nops (v_listing v) (v_bps v) b (v_trig v) in
              let v := set_trig t (put (v_current v) b v) in
              if ok then Ret (set_branch (Some (v_current v)) v)
              else skip_loop fuel begin (put (v_current v) (exit_branch b) v)
          end
      end
  end.
Definition vm_skip_nops (v : vm) : res vm :=
  skip_loop (S (2 * length (v_branches v))) (v_current v) v.

(* vm.go:337-368 NewVm *)
Definition new_vm (l : listing) (version : N) : res vm :=
  vm_skip_nops
    (Vm 1 l version (repeat (Val TNone None) 256) [Branch 0 (Some 0) [] [] 700 MainName []]
        None 0 [] [] false).

(* vm.go:398-406 Switch *)
Fixpoint find_branch (i : nat) (bs : list branch) (id : nat) : option nat :=
  match bs with
  | [] => None
  | b :: r => if b_id b =? id then Some i else find_branch (S i) r id
  end.
Definition switch_vm (id : nat) (v : vm) : vm :=
  match find_branch 0 (v_branches v) id with
  | Some i => set_branch (Some i) (set_current i v)
  | None => v
  end.

(* vm.go:408-428 SetBreakpoints; the verified map is the list of its keys *)
Fixpoint bind_lines (l : listing) (lns : list Z) : res (list nat) :=
  match lns with
  | [] => Ret []
  | ln :: r =>
      if (ln >=? Z.of_nat (length l))%Z then bind_lines l r
      else if (ln <? 0)%Z then Panic
      else
        letr e := index l (Z.to_nat ln) in
        letr ns := bind_lines l r in
        Ret (if is_nop e then ns else Z.to_nat ln :: ns)
  end.
Definition set_breakpoints (lns : list Z) (v : vm) : res (vm * list nat) :=
  letr ns := bind_lines (v_listing v) lns in
  Ret (set_bps ns v, ns).

(* vm.go:472-495, the body of the loop over the costs *)
Definition charge (op : expr) (cost : Z) : M unit :=
  b <- get_b ;;
  if (b_budget b >=? cost)%Z then
    mod_b (fun b => set_trace (b_trace b ++ [op]) (set_budget (b_budget b - cost) b)) ;;
    execute op ;;
    (fun k v => (* cb.skipNops() *)
       match nth_error (v_branches v) k with
       | None => (v, Panic)
       | Some b =>
           let '(b, t, _) := skip_nops (v_listing v) (v_bps v) b (v_trig v) in
           (set_trig t (put k b v), Ret tt)
       end) ;;
    (fun _ v => match vm_skip_nops v with Ret v' => (v', Ret tt) | Panic => (v, Panic)
                | OutOfFuel => (v, OutOfFuel) end) ;;
    (fun k v => (* v.updateBreakpoints(cb) *)
       match nth_error (v_branches v) k with
       | None => (v, Panic)
       | Some b => (set_trig (update_bps (v_bps v) b (v_trig v)) v, Ret tt)
       end)
  else exit_m.

(* vm.go:444-496, the part of Step after the current branch is known *)
Definition step_branch : M unit :=
  b <- get_b ;;
  fun k v =>
    (match b_line b with
     | None => throw (* Listing[-1] *)
     | Some i =>
         op <- lift (index (v_listing v) i) ;;
         costs <- lift (cost_of op (v_version v) b) ;;
         each (charge op) (match costs with [] => [1%Z] | _ => costs end)
     end) k v.

(* vm.go:430-499 Step; a panic below it is recovered into Error *)
Definition step (v : vm) : res vm :=
  let v := set_trig [] (set_error false v) in
  match vm_skip_nops v with
  | Ret v =>
      match v_branch v with
      | None => Ret v
      | Some k =>
          match step_branch k v with
          | (v, Ret _) => Ret v
          | (v, Panic) => Ret (set_error true v)
          | (_, OutOfFuel) => OutOfFuel
          end
      end
  | Panic => Ret (set_error true v)
  | OutOfFuel => OutOfFuel
  end.

(* vm.go:501-509 Run *)
Fixpoint run_vm (fuel : nat) (v : vm) : res vm :=
  match v_branch v with
  | None => Ret v
  | Some _ =>
      if v_error v then Ret v
      else
        match fuel with
        | 0 => OutOfFuel
        | S fuel =>
            letr v := step v in
            match v_trig v with
            | [] => run_vm fuel v
            | _ :: _ => Ret v
            end
        end
  end.
