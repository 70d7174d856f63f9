(* The properties of the debug adapter: C49-C53, C62, C63. *)
From Verif Require Import Base Expr Codec Print Process ProcessSpec PropProcess VmOps Vm VmSpec Dbg DbgSpec DbgProofs.

(* a session: the choice of the map iteration does not matter here *)
Definition choose (l : list nat) : nat := 0.
Definition talk (fuel : nat) (ms : list dmessage) : outcome := converse env0 choose fuel opened ms.
Definition initialize : dmessage := DRequest 1 (RInitialize (Args (None, None))).
Definition launch (src : list string) : dmessage := DRequest 2 (RLaunch (Args (bs "a.teal", Some (lines src)))).
Definition here : dsource := DSource [] (bs "a.teal").
Definition looping : list string := ["#pragma version 8"; "int 1"; "callsub f"; "int 5"; "store 3"; "return"; "f:"; "retsub"]%string.

(* ------------------------------------------------------------------------------------------ *)
Theorem C49_numbered en pick fuel ms o e :
  converse en pick fuel opened ms = (o, e) ->
  map number o = seq 1 (length o) /\ sublist (answered o) (asked ms).
Proof. exact (messages_numbered en pick fuel ms o e). Qed.
Example C49_ex : exists o s, talk 100 [initialize; DIgnored; launch looping; DRequest 3 (RContinue (Args 0%Z))] = (o, Ret s) /\
  map number o = [1; 2; 3; 4; 5; 6; 7] /\
  answered o = [(1%Z, bs "initialize"); (2%Z, bs "launch"); (3%Z, bs "continue")].
Proof. do 2 eexists. split; [vm_compute; reflexivity|]. split; reflexivity. Qed.
Print Assumptions C49_numbered.

(* ------------------------------------------------------------------------------------------ *)
Theorem C50_scopes en pick fuel ms s o v p b q :
  after en pick fuel ms s o -> s_vm s = Some (v, p) -> In b (v_branches v) ->
  exists scs,
    shown (handle en pick fuel s (DRequest q (RScopes (Args (Z.of_nat (b_id b)))))) q (RScopes NilArgs) (BScopes scs) /\
    map sc_name scs = [bs "State"; bs "Stack"; bs "Scratch"; bs "Trace"] /\
    map sc_indexed scs = [None; Some (length (b_stack b)); Some (length (v_scratch v)); Some (length (b_trace b))] /\
    forall sc q', In sc scs -> exists l,
      shown (handle en pick fuel s (DRequest q' (RVariables (Args (sc_ref sc, None, None))))) q' (RVariables NilArgs) (BVariables l) /\
      scope_data v b (sc_name sc) l /\ forall n, sc_indexed sc = Some n -> sc_name sc <> bs "Scratch" -> length l = n.
Proof. exact (scopes_shown en pick fuel ms s o v p b q). Qed.
Theorem C50_distinct (v : vm) b b' sc sc' :
  In sc (branch_scopes b) -> In sc' (branch_scopes b') -> sc_ref sc = sc_ref sc' ->
  b_id b = b_id b' /\ sc_name sc = sc_name sc'.
Proof. exact (refs_distinct v b b' sc sc'). Qed.
(* two branches, each with its own stack; scratch slot 3 has been written *)
Example C50_ex : exists o s v p b,
  talk 100 [launch ["#pragma version 8"; "int 5"; "store 3"; "txn Fee"; "bnz f"; "int 7"; "f:"; "int 8"]%string;
            DRequest 3 (RNext (Args 0%Z)); DRequest 4 (RNext (Args 0%Z)); DRequest 5 (RNext (Args 0%Z));
            DRequest 6 (RNext (Args 0%Z)); DRequest 7 (RNext (Args 0%Z))] = (o, Ret s) /\
  s_vm s = Some (v, p) /\ nth_error (v_branches v) 0 = Some b /\ length (v_branches v) = 2 /\
  map sc_ref (branch_scopes b) = [1; 2; 3; 4]%Z /\
  fst (handle env0 choose 100 s (DRequest 8 (RVariables (Args (2, None, None)%Z)))) =
    [Response 14 8 "variables" (BVariables [(bs "0", bs "uint64: 7")])] /\
  fst (handle env0 choose 100 s (DRequest 8 (RVariables (Args (12, None, None)%Z)))) =
    [Response 14 8 "variables" (BVariables [])] /\
  fst (handle env0 choose 100 s (DRequest 8 (RVariables (Args (3, None, None)%Z)))) =
    [Response 14 8 "variables" (BVariables [(bs "3", bs "uint64: 5")])] /\
  fst (handle env0 choose 100 s (DRequest 8 (RVariables (Args (4, None, None)%Z)))) =
    [Response 14 8 "variables" (BVariables
       [(bs "0", bs "int 5"); (bs "1", bs "store 3"); (bs "2", bs "txn Fee"); (bs "3", bs "bnz f"); (bs "4", bs "int 7")])].
Proof.
  do 5 eexists. split; [vm_compute; reflexivity|]. split; [reflexivity|]. split; [reflexivity|]. vm_compute. repeat split.
Qed.
Print Assumptions C50_scopes.
Print Assumptions C50_distinct.

(* ------------------------------------------------------------------------------------------ *)
(* pause before launch: the adapter dereferences the missing machine *)
Theorem C51_refuted : exists ms, snd (talk 0 ms) = Panic.
Proof. exists [DRequest 1 RPause]. reflexivity. Qed.
(* exactly these histories crash it *)
Theorem C51_crashes en pick fuel ms :
  snd (converse en pick fuel opened ms) = Panic <->
  exists ms1 q r ms2 s o, ms = ms1 ++ DRequest q r :: ms2 /\ after en pick fuel ms1 s o /\ deadly en fuel s r.
Proof. exact (crashes en pick fuel ms). Qed.
(* and no request takes for ever unless the program has dupn 255 *)
Theorem C51_answers en pick fuel ms s o q r :
  after en pick fuel ms s o -> (forall v p, s_vm s = Some (v, p) -> no_dupn_255 (v_listing v)) ->
  exists n, forall fuel', n <= fuel' -> snd (handle en pick fuel' s (DRequest q r)) <> OutOfFuel.
Proof. exact (no_hang en pick fuel ms s o q r). Qed.
(* the list of deadly requests is not too long: each of them does crash a session *)
Example C51_deaths :
  Forall (fun ms => snd (talk 100 (launch looping :: ms)) = Panic)
    [[DRequest 3 (RVariables (Args (3, Some 250, Some 7)%Z))]; [DRequest 3 (RVariables (Args (3, Some (-1), None)%Z))];
     [DRequest 3 (RVariables (Args (4, Some 0, Some 1)%Z))];
     [DRequest 3 (RSetBreakpoints (Args (here, [(-1)%Z])))]; [DRequest 3 (RSetBreakpoints NilArgs)];
     [DRequest 3 (RSetBreakpoints (Args (here, [3%Z]))); DRequest 4 (RContinue NilArgs)];
     [DRequest 3 (RNext NilArgs)]; [DRequest 3 (RScopes NilArgs)]; [DRequest 3 (RStackTrace NilArgs)];
     [DRequest 3 (RVariables NilArgs)]; [DRequest 3 (RLaunch NilArgs)]; [DRequest 3 (RInitialize NilArgs)];
     [DRequest 3 (RLaunch (Args (bs "b.teal", Some (lines ["err 1"; "x:"]%string))))]] /\
  Forall (fun ms => snd (talk 100 ms) = Panic) [[DRequest 3 RPause]; [DRequest 3 (RNext (Args 0%Z))]].
Proof. split; repeat constructor. Qed.
(* ordinary sessions survive *)
Example C51_ex : exists s, snd (talk 100 [initialize; launch looping; DRequest 3 (RSetBreakpoints (Args (here, [4%Z; 99%Z])));
  DRequest 4 (RContinue (Args 0%Z)); DRequest 5 RThreads; DRequest 6 (RStackTrace (Args 0%Z)); DRequest 7 (RContinue (Args 0%Z)); DRequest 8 (RNext (Args 0%Z));
  DRequest 9 RPause; DRequest 10 RDisconnect]) = Ret s /\ s_seq s = 17.
Proof. eexists. split; vm_compute; reflexivity. Qed.
Print Assumptions C51_refuted.
Print Assumptions C51_crashes.
Print Assumptions C51_answers.

(* ------------------------------------------------------------------------------------------ *)
(* before launch the reply to three breakpoints has no entry *)
Theorem C52_refuted : exists src, shown (talk 0 [DRequest 1 (RSetBreakpoints (Args (src, [1; 2; 3]%Z)))]) 1
  (RSetBreakpoints NilArgs) (BBreakpoints []).
Proof. exists here. do 2 eexists. reflexivity. Qed.
Theorem C52_partial en pick fuel ms s o v p q src lines :
  after en pick fuel ms s o -> s_vm s = Some (v, p) -> (forall ln, In ln lines -> (s_lz s <= ln)%Z) ->
  exists n es s' v',
    handle en pick fuel s (DRequest q (RSetBreakpoints (Args (src, lines)))) =
      ([Response n q "setBreakpoints" (BBreakpoints es)], Ret s') /\
    Forall2 (fun ln e => db_line e = ln /\ db_source e = src /\ (db_verified e = true <-> instruction_at v (ln - s_lz s)))
      lines es /\
    s_vm s' = Some (v', p) /\ v_listing v' = v_listing v /\
    forall i, In i (v_bps v') <-> exists ln, In ln lines /\ (ln - s_lz s = Z.of_nat i)%Z /\ instruction_at v (Z.of_nat i).
Proof. exact (breakpoint_reply en pick fuel ms s o v p q src lines). Qed.
(* lines count from 1 here: a comment, an instruction, a label, an instruction and a line that does not exist *)
Example C52_ex : exists o s src,
  talk 100 [initialize; launch ["// c"; "int 1"; "f:"; "int 2"]%string] = (o, Ret s) /\
  match fst (handle env0 choose 100 s (DRequest 3 (RSetBreakpoints (Args (src, [1; 2; 3; 4; 9]%Z))))) with
  | [Response _ _ _ (BBreakpoints es)] =>
      map (fun e => (db_line e, db_verified e)) es = [(1, false); (2, true); (3, false); (4, true); (9, false)]%Z
  | _ => False
  end.
Proof. do 2 eexists. exists here. split; vm_compute; reflexivity. Qed.
Print Assumptions C52_refuted.
Print Assumptions C52_partial.

(* ------------------------------------------------------------------------------------------ *)
(* inside a subroutine there are two frames, the total says one *)
Theorem C53_refuted : exists ms s o v p b q fs total,
  after env0 choose 100 ms s o /\ s_vm s = Some (v, p) /\ In b (v_branches v) /\
  shown (handle env0 choose 100 s (DRequest q (RStackTrace (Args (Z.of_nat (b_id b)))))) q (RStackTrace NilArgs) (BStackTrace fs total) /\
  length fs = S (length (b_frames b)) /\ total <> Z.of_nat (length fs).
Proof.
  exists [launch looping; DRequest 3 (RNext (Args 0%Z)); DRequest 4 (RNext (Args 0%Z))].
  do 4 eexists. eexists. exists 5%Z. do 2 eexists. split; [vm_compute; reflexivity|]. split; [reflexivity|].
  split; [left; reflexivity|]. split; [do 2 eexists; vm_compute; reflexivity|]. split; [reflexivity|discriminate].
Qed.
Theorem C53_partial en pick fuel ms s o v p b q :
  after en pick fuel ms s o -> s_vm s = Some (v, p) -> In b (v_branches v) ->
  exists fs,
    shown (handle en pick fuel s (DRequest q (RStackTrace (Args (Z.of_nat (b_id b)))))) q (RStackTrace NilArgs) (BStackTrace fs 1) /\
    map (fun f => (sf_name f, sf_line f)) fs = map (fun x => (fst x, line_number (snd x) + s_lz s)%Z) (call_chain b) /\
    length fs = S (length (b_frames b)) /\
    forall f, In f fs -> sf_id f = b_id b /\ sf_path f = p.
Proof. exact (stack_shown_dap en pick fuel ms s o v p b q). Qed.
Example C53_ex : exists o s,
  talk 100 [initialize; launch looping; DRequest 3 (RNext (Args 0%Z)); DRequest 4 (RNext (Args 0%Z))] = (o, Ret s) /\
  match fst (handle env0 choose 100 s (DRequest 5 (RStackTrace (Args 0%Z)))) with
  | [Response _ _ _ (BStackTrace fs 1)] => map (fun f => (sf_name f, sf_line f)) fs = [(bs "f", 8); (bs "(main)", 3)]%Z
  | _ => False
  end.
Proof. do 2 eexists. split; vm_compute; reflexivity. Qed.
Print Assumptions C53_refuted.
Print Assumptions C53_partial.

(* ------------------------------------------------------------------------------------------ *)
(* a command the adapter does not know is never answered *)
Theorem C62_refuted : exists q r s, snd (talk 0 [DRequest q r]) = Ret s /\ fst (talk 0 [DRequest q r]) = [].
Proof. exists 1%Z, (RUnknown (bs "source")). eexists. split; reflexivity. Qed.
Theorem C62_partial en pick fuel ms s o : after en pick fuel ms s o ->
  answered o = flat_map (fun m => match m with
                                  | DRequest q r => if understood r then [(q, command_of r)] else []
                                  | DIgnored => []
                                  end) ms.
Proof. exact (all_answered en pick fuel ms s o). Qed.
Example C62_ex : exists o s,
  talk 100 [initialize; DRequest 7 (RUnknown (bs "source")); launch looping; DRequest 3 RThreads;
            DRequest 4 (RLaunch (Args (bs "missing.teal", None)))] = (o, Ret s) /\
  answered o = [(1%Z, bs "initialize"); (2%Z, bs "launch"); (3%Z, bs "threads")].
Proof. do 2 eexists. split; vm_compute; reflexivity. Qed.
Print Assumptions C62_refuted.
Print Assumptions C62_partial.

(* ------------------------------------------------------------------------------------------ *)
Theorem C63_stops en pick fuel ms s o q r o' s' v p :
  after en pick fuel ms s o -> controls r = true -> handle en pick fuel s (DRequest q r) = (o', Ret s') ->
  s_vm s' = Some (v, p) -> exists ev, stops o' = [ev] /\ truthful v r ev.
Proof. exact (stop_event en pick fuel ms s o q r o' s' v p). Qed.
Theorem C63_only_then en pick fuel s q r :
  controls r = false -> stops (fst (handle en pick fuel s (DRequest q r))) = [].
Proof. exact (no_stop_event en pick fuel s q r). Qed.
(* entry, a breakpoint on line 4, a step, the end, and a failing instruction *)
Example C63_ex : exists o s,
  talk 100 [launch looping; DRequest 3 (RSetBreakpoints (Args (here, [4%Z]))); DRequest 4 (RContinue (Args 0%Z));
            DRequest 5 (RNext (Args 0%Z)); DRequest 6 (RContinue (Args 0%Z)); DRequest 7 RPause;
            launch ["int 1"; "byte 0x00"; "+"]%string; DRequest 8 (RContinue (Args 0%Z))] = (o, Ret s) /\
  stops o = [EStopped ByEntry (Some 0) []; EStopped ByBreakpoint (Some 0) [4]; EStopped ByStep (Some 0) [];
             EStopped ByBreakpoint None []; EStopped ByPause None []; EStopped ByEntry (Some 0) []; EStopped ByException None []].
Proof. do 2 eexists. split; vm_compute; reflexivity. Qed.
Print Assumptions C63_stops.
Print Assumptions C63_only_then.

(* ------------------------------------------------------------------------------------------ *)
Theorem C64_threads en pick fuel ms s o v p q : after en pick fuel ms s o -> s_vm s = Some (v, p) ->
  exists ts, shown (handle en pick fuel s (DRequest q RThreads)) q RThreads (BThreads ts) /\
    map fst ts = seq 0 (length (v_branches v)) /\ forall id, (exists n, In (id, n) ts) <-> exists b, has_branch v id b.
Proof. exact (threads_shown en pick fuel ms s o v p q). Qed.
(* after a conditional branch there are two threads *)
Example C64_ex : exists o s v p,
  after env0 choose 100 [launch ["#pragma version 8"; "int 1"; "bnz a"; "int 2"; "a:"; "int 3"]%string; DRequest 3 (RNext (Args 0%Z)); DRequest 4 (RNext (Args 0%Z))] s o /\
  s_vm s = Some (v, p) /\ length (v_branches v) = 2 /\
  shown (handle env0 choose 100 s (DRequest 5 RThreads)) 5%Z RThreads (BThreads [(0, bs "Branch 0"); (1, bs "Branch 1")]).
Proof. do 4 eexists. split; [vm_compute; reflexivity|]. split; [reflexivity|]. split; [reflexivity|]. unfold shown. do 2 eexists. vm_compute. reflexivity. Qed.
Print Assumptions C64_threads.
