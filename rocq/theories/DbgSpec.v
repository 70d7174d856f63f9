(* The vocabulary of the properties of the debug adapter (C49-C53, C62, C63). *)
From Verif Require Import Base Expr Codec Print Process VmOps Vm VmSpec Dbg.

(* ------------------------------------------------------------------------------------------ *)
(* histories *)

(* the adapter in state s after the messages ms, having written o *)
Definition after (en : env) (pick : list nat -> nat) (fuel : nat) (ms : list dmessage) (s : session) (o : list dout) : Prop :=
  converse en pick fuel opened ms = (o, Ret s).

(* the number of a message of the adapter *)
Definition number (o : dout) : nat := match o with Response n _ _ _ | Event n _ => n end.

(* the name of a request *)
Definition command_of (r : request) : str :=
  match r with
  | RInitialize _ => "initialize" | RLaunch _ => "launch" | RDisconnect => "disconnect"
  | REvaluate => "evaluate" | RSetFunctionBreakpoints => "setFunctionBreakpoints"
  | RSetBreakpoints _ => "setBreakpoints" | RSetInstructionBreakpoints => "setInstructionBreakpoints"
  | RSetExceptionBreakpoints => "setExceptionBreakpoints" | RThreads => "threads" | RPause => "pause"
  | RContinue _ => "continue" | RConfigurationDone => "configurationDone" | RNext _ => "next"
  | RVariables _ => "variables" | RScopes _ => "scopes" | RStackTrace _ => "stackTrace"
  | RUnknown c => c
  end.

(* number and command of the requests, and those the responses carry *)
Definition asked (ms : list dmessage) : list (Z * str) :=
  flat_map (fun m => match m with DRequest q r => [(q, command_of r)] | DIgnored => [] end) ms.
Definition answered (o : list dout) : list (Z * str) :=
  flat_map (fun x => match x with Response _ q c _ => [(q, c)] | Event _ _ => [] end) o.

(* xs comes from ys by leaving elements out *)
Inductive sublist {A} : list A -> list A -> Prop :=
| sub_nil : sublist [] []
| sub_skip x xs ys : sublist xs ys -> sublist xs (x :: ys)
| sub_keep x xs ys : sublist xs ys -> sublist (x :: xs) (x :: ys).

(* the response to request r, number q, shows the body b *)
Definition shown (o : outcome) (q : Z) (r : request) (b : body) : Prop :=
  exists n s, o = ([Response n q (command_of r) b], Ret s).

(* ------------------------------------------------------------------------------------------ *)
(* C50: what belongs in the scope of a branch *)
Definition slot_text (v : vm) (i : nat) : list (str * str) :=
  match nth_error (v_scratch v) i with
  | Some x => match v_T x with TNone => [] | _ => [(dec_z (Z.of_nat i), value_text x)] end
  | None => []
  end.

Inductive scope_data (v : vm) (b : branch) : str -> list (str * str) -> Prop :=
| state_data : scope_data v b (bs "State") [(bs "Budget", dec_z (b_budget b))]
| stack_data l : length l = length (b_stack b) ->
    (forall i x, nth_error (b_stack b) i = Some x ->
       nth_error l i = Some (dec_z (Z.of_nat (length (b_stack b) - 1 - i)), value_text x)) ->
    scope_data v b (bs "Stack") l
| scratch_data : scope_data v b (bs "Scratch") (flat_map (slot_text v) (seq 0 256))
| trace_data l : length l = length (b_trace b) ->
    (forall i e, nth_error (b_trace b) i = Some e ->
       exists t, print e = Ret t /\ nth_error l i = Some (dec_z (Z.of_nat i), t)) ->
    scope_data v b (bs "Trace") l.

(* ------------------------------------------------------------------------------------------ *)
(* C51: the messages that crash the adapter *)

(* some index in [s, e) does not exist in a list of length n *)
Definition out_of_range (n : nat) (s e : Z) : Prop :=
  exists i, (s <= i < e)%Z /\ ~ (0 <= i < Z.of_nat n)%Z.

(* the first index and the one after the last that are asked for *)
Definition first_asked (start : option Z) : Z := match start with Some s => s | None => 0%Z end.
Definition last_asked (n : nat) (start count : option Z) : Z :=
  match count with Some c => (first_asked start + c)%Z | None => Z.of_nat n end.

Inductive deadly (en : env) (fuel : nat) (s : session) : request -> Prop :=
| deadly_initialize : deadly en fuel s (RInitialize NilArgs)
| deadly_launch : deadly en fuel s (RLaunch NilArgs)
| deadly_program path src : process en src = Panic -> deadly en fuel s (RLaunch (Args (path, Some src)))
| deadly_breakpoints v p : s_vm s = Some (v, p) -> deadly en fuel s (RSetBreakpoints NilArgs)
| deadly_line v p src lines ln : s_vm s = Some (v, p) -> In ln lines -> (ln < s_lz s)%Z ->
    deadly en fuel s (RSetBreakpoints (Args (src, lines)))
| deadly_pause : s_vm s = None -> deadly en fuel s RPause
| deadly_continue v p v' : s_vm s = Some (v, p) -> run_vm fuel v = Ret v' -> v_error v' = false ->
    v_trig v' <> [] -> deadly en fuel s (RContinue NilArgs)
| deadly_next : deadly en fuel s (RNext NilArgs)
| deadly_early_next id : s_vm s = None -> deadly en fuel s (RNext (Args id))
| deadly_variables : deadly en fuel s (RVariables NilArgs)
| deadly_scratch v p b start count : s_vm s = Some (v, p) -> In b (v_branches v) ->
    out_of_range 256 (first_asked start) (last_asked 256 start count) ->
    deadly en fuel s (RVariables (Args (3 + 10 * Z.of_nat (b_id b), start, count)%Z))
| deadly_trace v p b start count : s_vm s = Some (v, p) -> In b (v_branches v) ->
    out_of_range (length (b_trace b)) (first_asked start) (last_asked (length (b_trace b)) start count) ->
    deadly en fuel s (RVariables (Args (4 + 10 * Z.of_nat (b_id b), start, count)%Z))
| deadly_scopes v p : s_vm s = Some (v, p) -> deadly en fuel s (RScopes NilArgs)
| deadly_stack v p : s_vm s = Some (v, p) -> deadly en fuel s (RStackTrace NilArgs).

(* ------------------------------------------------------------------------------------------ *)
(* C52: an instruction stands on the line *)
Definition instruction_at (v : vm) (i : Z) : Prop :=
  (0 <= i)%Z /\ exists e, nth_error (v_listing v) (Z.to_nat i) = Some e /\
    match e with LabelExpr _ | PragmaExpr _ | EmptyExpr | CommentExpr _ => False | _ => True end.

(* the number of a line; -1 for the end of the program (vm.go:14) *)
Definition line_number (o : option nat) : Z := match o with Some n => Z.of_nat n | None => (-1)%Z end.
(* C53: name and line of the running subroutine, then of its callers *)
Definition call_chain (b : branch) : list (str * option nat) :=
  (b_name b, b_line b) :: map (fun f => (fr_name f, fr_return f)) (b_frames b).

(* C62: requests the adapter answers *)
Definition understood (r : request) : bool :=
  match r with
  | RUnknown _ | RInitialize BadArgs | RLaunch BadArgs | RLaunch (Args (_, None)) | RSetBreakpoints BadArgs
  | RContinue BadArgs | RNext BadArgs | RVariables BadArgs | RScopes BadArgs | RStackTrace BadArgs => false
  | _ => true
  end.

(* C63: requests that end with the program stopped *)
Definition controls (r : request) : bool :=
  match r with
  | RLaunch (Args (_, Some _)) | RPause | RContinue NilArgs | RContinue (Args _) | RNext NilArgs | RNext (Args _) => true
  | _ => false
  end.
Definition stops (o : list dout) : list devent :=
  flat_map (fun x => match x with Event _ (EStopped r t h) => [EStopped r t h] | _ => [] end) o.

(* the reasons under which a stop is given out *)
Definition reason_of (r : request) : reason :=
  match r with
  | RLaunch _ => ByEntry | RPause => ByPause | RContinue _ => ByBreakpoint | _ => ByStep
  end.

(* what the stopped event after request r says is true of the machine *)
Inductive truthful (v : vm) (r : request) : devent -> Prop :=
| true_exception : r <> RPause -> v_error v = true -> truthful v r (EStopped ByException None [])
| true_end : (r <> RPause -> v_error v = false) -> v_branch v = None ->
    (forall b, In b (v_branches v) -> exited b) ->
    truthful v r (EStopped (reason_of r) None [])
| true_thread k b : (r <> RPause -> v_error v = false) -> (forall a, r <> RContinue a) ->
    v_branch v = Some k -> nth_error (v_branches v) k = Some b ->
    truthful v r (EStopped (reason_of r) (Some (b_id b)) [])
| true_hit b i hits a : r = RContinue a -> v_error v = false -> In b (v_branches v) -> on_line b i ->
    In i (v_bps v) -> hits <> [] -> (forall h, In h hits -> h = i) ->
    truthful v r (EStopped ByBreakpoint (Some (b_id b)) hits).
