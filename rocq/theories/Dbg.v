(* dbg/dbg.go: the debug adapter as a state machine over decoded messages.

   Simplifications.  A message is what json.Unmarshal makes of the body: the decoded arguments, a nil
   pointer, or an error.  What os.ReadFile finds is part of the launch request.  Writing to the client
   does not fail.  A Go int does not overflow.  The descriptions of exceptions and the constant parts
   of the messages are left out.  Where the code takes any key of a map (dbg/dbg.go:507), the parameter
   pick says which one.  The panic of a handler ends the adapter: Run (787-839) does not recover. *)
From Verif Require Import Base Expr Codec Print Process VmOps Vm.

(* ------------------------------------------------------------------------------------------ *)
(* the text of a value on the stack *)

(* vm.go:126-137 VmDataType.String *)
Definition type_text (t : vtype) : str :=
  match t with TAny => "any" | TUint64 => "uint64" | TBytes => "bytes" | TNone => "(none)" end.
(* strings.Join(l, ", ") *)
Fixpoint commas (l : list str) : str :=
  match l with [] => [] | [x] => x | x :: r => x ++ bs ", " ++ commas r end.
(* vm.go:107-113 VmValue.String, 56-58, 64-66, 90-101, 103-105 the String methods of the sources; the
   format of a Bytes without one is base64 (expr.go:1304-1314) *)
Fixpoint value_text (v : value) : str :=
  match v with
  | Val T None => type_text T
  | Val T (Some s) => type_text T ++ bs ": " ++ source_text s
  end
with source_text (s : source) : str :=
  match s with
  | SUint64 n => dec n
  | SSignature x => x
  | SBytes x => bs "b64 " ++ b64_encode x
  | SOp name [] => name
  | SOp name args =>
      name ++ "("%char :: commas ((fix go l := match l with [] => [] | v :: r => value_text v :: go r end) args) ++ [")"%char]
  | SValue v => value_text v
  end.

(* ------------------------------------------------------------------------------------------ *)
(* messages *)

(* what unmarshalling gives for a field Arguments *T *)
(* what unmarshalling gives for a field Arguments *T (dbg/dbg.go:284-293) *)
Inductive arguments (A : Type) : Type := BadArgs | NilArgs | Args (a : A).
Arguments BadArgs {A}. Arguments NilArgs {A}. Arguments Args {A} a.

(* dbg/dbg.go:213-216 dapSource *)
Record dsource := DSource { ds_name : str; ds_path : str }.

(* dbg/dbg.go:305-740, the cases of handle *)
Inductive request : Type :=
| RInitialize (a : arguments (option bool * option bool))  (* linesStartAt1, columnsStartAt1 *)
| RLaunch (a : arguments (str * option str))               (* program, the content of that file *)
| RDisconnect
| REvaluate
| RSetFunctionBreakpoints
| RSetBreakpoints (a : arguments (dsource * list Z))        (* source, lines *)
| RSetInstructionBreakpoints
| RSetExceptionBreakpoints
| RThreads
| RPause
| RContinue (a : arguments Z)                              (* threadId *)
| RConfigurationDone
| RNext (a : arguments Z)                                  (* threadId *)
| RVariables (a : arguments (Z * option Z * option Z))     (* variablesReference, start, count *)
| RScopes (a : arguments Z)                                (* frameId *)
| RStackTrace (a : arguments Z)                            (* threadId *)
| RUnknown (command : str).

(* dbg/dbg.go:82-85, 307: a message of another type, or one that does not unmarshal, is ignored *)
Inductive dmessage : Type := DRequest (seq : Z) (r : request) | DIgnored.

(* dbg/dbg.go:223-229 dapBreakpoint *)
Record dbreakpoint := DBreakpoint { db_id : Z; db_verified : bool; db_line : Z; db_source : dsource }.
(* dbg/dbg.go:153-158 dapScope *)
Record scope := Scope { sc_name : str; sc_ref : Z; sc_indexed : option nat }.
(* dbg/dbg.go:114-122 dapStackFrame *)
Record sframe := SFrame { sf_id : nat; sf_name : str; sf_line : Z; sf_column : Z; sf_path : str }.

(* the bodies given to reply (dbg/dbg.go:305-740) *)
Inductive body : Type :=
| BNone
| BCapabilities
| BBreakpoints (l : list dbreakpoint)
| BThreads (l : list (nat * str))
| BContinue
| BVariables (l : list (str * str))     (* name, value *)
| BScopes (l : list scope)
| BStackTrace (l : list sframe) (total : Z).

(* the reason of a stopped event (dbg/dbg.go:380, 473, 495, 514, 521, 546, 560) *)
Inductive reason : Set := ByEntry | ByPause | ByException | ByBreakpoint | ByStep.

(* the events given to notify (dbg/dbg.go:295-303) *)
Inductive devent : Type :=
| EInitialized
| EProcess (name : str)
| EStopped (r : reason) (thread : option nat) (hits : list nat).

(* dbg/dbg.go:187-195 dapResponse, 236-241 dapEvent *)
Inductive dout : Type :=
| Response (seq : nat) (request_seq : Z) (command : str) (b : body)
| Event (seq : nat) (e : devent).

(* ------------------------------------------------------------------------------------------ *)
(* the adapter *)

(* dbg/dbg.go:23-42 dbg; the field bs is only used inside setBreakpoints *)
Record session := Session { s_seq : nat; s_lz : Z; s_cz : Z; s_vm : option (vm * str) }.

(* dbg/dbg.go:66-80 New *)
Definition opened : session := Session 0 0 0 None.

(* assignments to the fields of dbg (dbg/dbg.go:23-42) *)
Definition set_seq (n : nat) (s : session) : session := Session n (s_lz s) (s_cz s) (s_vm s).
Definition set_machine (v : vm) (s : session) : session :=
  Session (s_seq s) (s_lz s) (s_cz s) (match s_vm s with Some (_, p) => Some (v, p) | None => None end).

(* what a handler writes, and how it ends; what is written before a panic has been sent *)
Definition outcome : Type := list dout * res session.
Definition done (s : session) : outcome := ([], Ret s).
Definition crash : outcome := ([], Panic).
(* dbg/dbg.go:271-283 reply *)
Definition reply (q : Z) (command : str) (b : body) (k : session -> outcome) (s : session) : outcome :=
  let n := S (s_seq s) in
  let (o, r) := k (set_seq n s) in (Response n q command b :: o, r).
(* dbg/dbg.go:295-303 notify *)
Definition notify (e : devent) (k : session -> outcome) (s : session) : outcome :=
  let n := S (s_seq s) in
  let (o, r) := k (set_seq n s) in (Event n e :: o, r).

(* vm.Branch.Id *)
(* l.vm.Branch.Id if there is a branch (dbg/dbg.go:373-377, 466-470, 553-557) *)
Definition current_thread (v : vm) : res (option nat) :=
  match v_branch v with
  | None => Ret None
  | Some k => letr b := index (v_branches v) k in Ret (Some (b_id b))
  end.
(* the event stopped (dbg/dbg.go:379-383, 472-475, 494-498, 520-523, 559-562) *)
Definition stopped (r : reason) (v : vm) (s : session) : outcome :=
  match current_thread v with
  | Ret t => notify (EStopped r t []) done s
  | _ => crash
  end.

(* vm.go:398-406 Switch with the int of the request *)
Definition switch_z (id : Z) (v : vm) : vm := if (id <? 0)%Z then v else switch_vm (Z.to_nat id) v.

(* dbg/dbg.go:320-326 *)
Definition starts_at_1 (o : option bool) : bool := match o with Some b => b | None => true end.

(* for i := s; i < e; i++ over l[i], with the indexes *)
Fixpoint items {A} (l : list A) (n : nat) (i : Z) : res (list (Z * A)) :=
  match n with
  | 0 => Ret []
  | S n =>
      if (i <? 0)%Z then Panic
      else
        letr x := index l (Z.to_nat i) in
        letr r := items l n (i + 1)%Z in
        Ret ((i, x) :: r)
  end.
(* dbg/dbg.go:595-606, 616-627 *)
Definition window {A} (l : list A) (start count : option Z) : res (list (Z * A)) :=
  let s := match start with Some s => s | None => 0%Z end in
  let e := match count with Some c => (s + c)%Z | None => Z.of_nat (length l) end in
  items l (Z.to_nat (e - s)) s.

(* the test T == VmTypeNone (dbg/dbg.go:606) *)
Definition is_none (v : value) : bool := match v_T v with TNone => true | _ => false end.

(* the texts of a trace *)
(* dbg/dbg.go:628-634: the trace *)
Fixpoint print_items (l : list (Z * expr)) : res (list (str * str)) :=
  match l with
  | [] => Ret []
  | (i, e) :: r => letr t := print e in letr ts := print_items r in Ret ((dec_z i, t) :: ts)
  end.

(* dbg/dbg.go:581-634, one branch *)
Definition branch_variables (v : vm) (i : Z) (start count : option Z) (b : branch) : res (list (str * str)) :=
  if (i =? 0)%Z then Ret [(bs "Budget", dec_z (b_budget b))]
  else if (i =? 1)%Z then
    (* the stack of the model has its top first *)
    Ret (map (fun x => (dec_z (Z.of_nat (fst x)), value_text (snd x)))
             (combine (rev (seq 0 (length (b_stack b)))) (b_stack b)))
  else if (i =? 2)%Z then
    letr l := window (v_scratch v) start count in
    Ret (map (fun x => (dec_z (fst x), value_text (snd x))) (filter (fun x => negb (is_none (snd x))) l))
  else if (i =? 3)%Z then
    letr l := window (b_trace b) start count in print_items l
  else Ret [].

(* b.Id == id (dbg/dbg.go:580, 653, 697) *)
Definition has_id (id : Z) (b : branch) : bool := (Z.of_nat (b_id b) =? id)%Z.

(* for the branches with the identity: append what f gives *)
(* the loop over the branches (dbg/dbg.go:564-641) *)
Fixpoint for_branches {A} (id : Z) (f : branch -> res (list A)) (l : list branch) : res (list A) :=
  match l with
  | [] => Ret []
  | b :: r =>
      letr x := (if has_id id b then f b else Ret []) in
      letr y := for_branches id f r in
      Ret (x ++ y)
  end.

(* dbg/dbg.go:564-641 *)
Definition variables (o : option (vm * str)) (ref : Z) (start count : option Z) : res (list (str * str)) :=
  if (ref >? 0)%Z then
    match o with
    | Some (v, _) =>
        for_branches ((ref - 1) / 10)%Z (branch_variables v ((ref - 1) mod 10)%Z start count) (v_branches v)
    | None => Ret []
    end
  else Ret [].

(* dbg/dbg.go:653-679 *)
Definition branch_scopes (b : branch) : list scope :=
  let id := Z.of_nat (b_id b) in
  [Scope "State" (1 + 10 * id) None;
   Scope "Stack" (2 + 10 * id) (Some (length (b_stack b)));
   Scope "Scratch" (3 + 10 * id) (Some 256);
   Scope "Trace" (4 + 10 * id) (Some (length (b_trace b)))].

(* the line of a branch or frame as an int; vm.go:14 ExitLine *)
Definition line_z (o : option nat) : Z := match o with Some n => Z.of_nat n | None => (-1)%Z end.

(* dbg/dbg.go:698-725; the frames of the model have the innermost first *)
Fixpoint trace_frames (id : nat) (lz cz : Z) (path : str) (line : option nat) (name : str) (fs : list frame) : list sframe :=
  SFrame id name (line_z line + lz) cz path ::
  match fs with
  | [] => []
  | f :: r => trace_frames id lz cz path (fr_return f) (fr_name f) r
  end.

(* dbg/dbg.go:397-429 *)
Definition breakpoint_entries (src : dsource) (lz : Z) (lines : list Z) (verified : list nat) : list dbreakpoint :=
  map (fun ln =>
         let id := (ln - lz)%Z in
         DBreakpoint id (existsb (fun n => (Z.of_nat n =? id)%Z) verified) (id + lz)%Z src) lines.

(* dbg/dbg.go:502-511: the thread of the request if it is among the stopped ones *)
Definition stopped_thread (pick : list nat -> nat) (t : list (nat * list nat)) (id : Z) : nat :=
  if existsb (fun x => (Z.of_nat (fst x) =? id)%Z) t then Z.to_nat id
  else nth (pick (map fst t) mod length t) (map fst t) 0.
(* ids[tid] *)
Fixpoint hit_lines (t : list (nat * list nat)) (id : nat) : list nat :=
  match t with
  | [] => []
  | (i, ls) :: r => if Nat.eqb i id then ls else hit_lines r id
  end.

Section Handle.
Variables (en : env) (pick : list nat -> nat) (fuel : nat).

(* dbg/dbg.go:489-525, continue after its reply *)
Definition resume (a : arguments Z) (s : session) : outcome :=
  match s_vm s with
  | None => done s
  | Some (v, _) =>
      match run_vm fuel v with
      | Ret v =>
          let s := set_machine v s in
          if v_error v then notify (EStopped ByException None []) done s
          else
            match v_trig v with
            | [] =>
                match v_branch v with
                | None => notify (EStopped ByBreakpoint None []) done s
                | Some _ => done s
                end
            | t =>
                match a with
                | Args id =>
                    let tid := stopped_thread pick t id in
                    notify (EStopped ByBreakpoint (Some tid) (hit_lines t tid)) done s
                | _ => crash
                end
            end
      | Panic => crash
      | OutOfFuel => ([], OutOfFuel)
      end
  end.

(* dbg/dbg.go:540-562, next after its reply *)
Definition advance (a : arguments Z) (s : session) : outcome :=
  match s_vm s with
  | None => crash
  | Some (v, _) =>
      match a with
      | Args id =>
          match step (switch_z id v) with
          | Ret v =>
              let s := set_machine v s in
              if v_error v then notify (EStopped ByException None []) done s
              else stopped ByStep v s
          | Panic => crash
          | OutOfFuel => ([], OutOfFuel)
          end
      | _ => crash
      end
  end.

(* dbg/dbg.go:305-740 handle.  OutOfFuel: the interpreter is still running *)
Definition handle (s : session) (m : dmessage) : outcome :=
  match m with
  | DIgnored => done s
  | DRequest q r =>
      match r with
      | RInitialize BadArgs => done s
      | RInitialize NilArgs => crash
      | RInitialize (Args (lines, columns)) => (* 314-338 *)
          let s := Session (s_seq s) (if starts_at_1 lines then 1 else s_lz s)
                           (if starts_at_1 columns then 1 else s_cz s) (s_vm s) in
          reply q "initialize" BCapabilities (notify EInitialized done) s
      | RLaunch BadArgs => done s
      | RLaunch NilArgs => crash
      | RLaunch (Args (_, None)) => done s
      | RLaunch (Args (path, Some src)) => (* 339-383 *)
          match (letr r := process en src in new_vm (r_listing r) (r_version r)) with
          | Ret v =>
              let s := Session (s_seq s) (s_lz s) (s_cz s) (Some (v, path)) in
              reply q "launch" BNone (notify (EProcess path) (stopped ByEntry v)) s
          | Panic => crash
          | OutOfFuel => ([], OutOfFuel)
          end
      | RDisconnect => reply q "disconnect" BNone done s
      | REvaluate => reply q "evaluate" BNone done s
      | RSetFunctionBreakpoints => reply q "setFunctionBreakpoints" BNone done s
      | RSetBreakpoints BadArgs => done s
      | RSetBreakpoints a => (* 391-440 *)
          match s_vm s with
          | None => reply q "setBreakpoints" (BBreakpoints []) done s
          | Some (v, _) =>
              match a with
              | Args (src, lines) =>
                  match set_breakpoints (map (fun ln => (ln - s_lz s)%Z) lines) v with
                  | Ret (v, ns) =>
                      reply q "setBreakpoints" (BBreakpoints (breakpoint_entries src (s_lz s) lines ns)) done
                            (set_machine v s)
                  | _ => crash
                  end
              | _ => crash
              end
          end
      | RSetInstructionBreakpoints => reply q "setInstructionBreakpoints" BNone done s
      | RSetExceptionBreakpoints => reply q "setExceptionBreakpoints" BNone done s
      | RThreads => (* 446-459 *)
          let ts := match s_vm s with
                    | Some (v, _) => map (fun b => (b_id b, bs "Branch " ++ dec (N.of_nat (b_id b)))) (v_branches v)
                    | None => []
                    end in
          reply q "threads" (BThreads ts) done s
      | RPause => (* 460-476 *)
          reply q "pause" BNone
            (fun s => match s_vm s with None => crash | Some (v, _) => stopped ByPause v s end) s
      | RContinue BadArgs => done s
      | RContinue a => (* 477-525 *)
          reply q "continue" BContinue
            (resume a) s
      | RConfigurationDone => reply q "configurationDone" BNone done s
      | RNext BadArgs => done s
      | RNext a => (* 529-563 *)
          reply q "next" BNone
            (advance a) s
      | RVariables BadArgs => done s
      | RVariables NilArgs => crash
      | RVariables (Args (ref, start, count)) =>
          match variables (s_vm s) ref start count with
          | Ret vs => reply q "variables" (BVariables vs) done s
          | _ => crash
          end
      | RScopes BadArgs => done s
      | RScopes a => (* 643-685 *)
          match s_vm s with
          | None => reply q "scopes" (BScopes []) done s
          | Some (v, _) =>
              match a with
              | Args id =>
                  match for_branches id (fun b => Ret (branch_scopes b)) (v_branches v) with
                  | Ret l => reply q "scopes" (BScopes l) done s
                  | _ => crash
                  end
              | _ => crash
              end
          end
      | RStackTrace BadArgs => done s
      | RStackTrace a => (* 687-736 *)
          match s_vm s with
          | None => reply q "stackTrace" (BStackTrace [] 1) done s
          | Some (v, path) =>
              match a with
              | Args id =>
                  match for_branches id
                          (fun b => Ret (trace_frames (b_id b) (s_lz s) (s_cz s) path (b_line b) (b_name b) (b_frames b)))
                          (v_branches v) with
                  | Ret l => reply q "stackTrace" (BStackTrace l 1) done s
                  | _ => crash
                  end
              | _ => crash
              end
          end
      | RUnknown _ => done s
      end
  end.

(* dbg/dbg.go:787-839 Run: the messages one after the other until the input ends or the adapter crashes *)
Fixpoint converse (s : session) (ms : list dmessage) : outcome :=
  match ms with
  | [] => ([], Ret s)
  | m :: r =>
      match handle s m with
      | (o, Ret s) => let (o', e) := converse s r in (o ++ o', e)
      | (o, e) => (o, e)
      end
  end.
End Handle.
