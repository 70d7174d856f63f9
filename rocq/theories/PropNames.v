(* Under which names the debugger shows where a program stands: C86. *)
From Verif Require Import Base Expr Process Vm VmSpec Dbg DbgSpec DbgProofs PropProcess PropDbg NameSpec NameProofs.

(* ------------------------------------------------------------------------------------------ *)
(* every frame that is shown is named after the nearest label above its line; the callers
   stand on their callsub *)
Theorem C86 en pick fuel ms s o v p b q i :
  after en pick fuel ms s o -> s_vm s = Some (v, p) -> In b (v_branches v) -> on_line b i ->
  exists top callers,
    shown (handle en pick fuel s (DRequest q (RStackTrace (Args (Z.of_nat (b_id b)))))) q (RStackTrace NilArgs)
      (BStackTrace (top :: callers) 1) /\
    sf_line top = (Z.of_nat i + s_lz s)%Z /\ belongs (v_listing v) i (sf_name top) /\
    forall f, In f callers -> exists j t,
      sf_line f = (Z.of_nat j + s_lz s)%Z /\ nth_error (v_listing v) j = Some (CallSubExpr t) /\
      belongs (v_listing v) j (sf_name f).
Proof.
  intros A Ev Hb Hi. destruct (C53_partial en pick fuel ms s o v p b q A Ev Hb) as [fs [F1 [F2 _]]].
  pose proof (after_runs _ _ _ _ _ _ A) as R. rewrite Ev in R. destruct R as [src [r [_ R]]].
  destruct (names_right _ _ _ _ R Hb) as [N1 [_ N3]].
  assert (L : v_listing v = r_listing r) by (destruct (reach_good _ _ _ R) as [L _]; exact L).
  destruct fs as [|top callers]; [discriminate|]. cbn [map call_chain] in F2.
  unfold on_line in *. injection F2 as E1 E2 E3. rewrite Hi in E2. cbn in E1, E2.
  exists top, callers. split; [exact F1|]. split; [exact E2|]. rewrite L, E1.
  split; [apply N1; exact Hi|]. intros f Hf.
  apply (in_map (fun f => (sf_name f, sf_line f))) in Hf. rewrite E3, map_map in Hf.
  apply in_map_iff in Hf. destruct Hf as [g [Eg Hg]]. cbn in Eg. injection Eg as G1 G2.
  destruct (N3 g Hg) as [j [t [H1 [H2 H3]]]]. exists j, t. rewrite H1 in G2. cbn in G2.
  split; [congruence|]. split; [exact H2|]. rewrite <- G1. exact H3.
Qed.

(* the name of a line is determined *)
Theorem C86_one_name l i n n' : belongs l i n -> belongs l i n' -> n = n'.
Proof. exact (belongs_unique l i n n'). Qed.

(* a branch that has ended is called "(exited)", as long as no jump goes to a missing label *)
Theorem C86_ended_partial l ver v b :
  reach l ver v -> In b (v_branches v) -> exited b -> all_defined l -> b_name b = "(exited)"%string.
Proof. intros R Hb. exact (proj1 (proj2 (names_right l ver v b R Hb))). Qed.
Theorem C86_ended_refuted : exists l ver v b,
  reach l ver v /\ In b (v_branches v) /\ exited b /\ b_name b = "(main)"%string.
Proof.
  exists [BExpr "x"%string], 8%N.
  eexists. eexists. split.
  { eexists. split; [vm_compute; reflexivity|]. eapply later_command; [apply later_now|].
    apply cmd_step. vm_compute. reflexivity. }
  split; [left; reflexivity|]. split; reflexivity.
Qed.

(* inside the subroutine, behind an inner label, two steps after the call *)
Definition calling : list string :=
  ["#pragma version 8"; "int 1"; "callsub f"; "return"; "f:"; "int 2"; "inner:"; "pop"; "retsub"]%string.
Example C86_ex : exists o s,
  talk 100 [initialize; launch calling; DRequest 3 (RNext (Args 0%Z)); DRequest 4 (RNext (Args 0%Z));
            DRequest 5 (RNext (Args 0%Z))] = (o, Ret s) /\
  match fst (handle env0 choose 100 s (DRequest 6 (RStackTrace (Args 0%Z)))) with
  | [Response _ _ _ (BStackTrace fs 1)] => map (fun f => (sf_name f, sf_line f)) fs = [(bs "inner", 8); (bs "(main)", 3)]%Z
  | _ => False
  end.
Proof. do 2 eexists. split; vm_compute; reflexivity. Qed.
(* and after the subroutine has returned *)
Example C86_ex_back : exists o s,
  talk 100 [initialize; launch calling; DRequest 3 (RNext (Args 0%Z)); DRequest 4 (RNext (Args 0%Z));
            DRequest 5 (RNext (Args 0%Z)); DRequest 6 (RNext (Args 0%Z)); DRequest 7 (RNext (Args 0%Z))] = (o, Ret s) /\
  match fst (handle env0 choose 100 s (DRequest 8 (RStackTrace (Args 0%Z)))) with
  | [Response _ _ _ (BStackTrace fs 1)] => map (fun f => (sf_name f, sf_line f)) fs = [(bs "(main)", 4)]%Z
  | _ => False
  end.
Proof. do 2 eexists. split; vm_compute; reflexivity. Qed.
Example C86_ended_ex : exists v b,
  reach [LabelExpr "f"%string; ErrExpr] 8 v /\ In b (v_branches v) /\ exited b /\
  all_defined [LabelExpr "f"%string; ErrExpr] /\ b_name b = "(exited)"%string.
Proof.
  eexists. eexists. split.
  { eexists. split; [vm_compute; reflexivity|]. eapply later_command; [apply later_now|].
    apply cmd_step. vm_compute. reflexivity. }
  split; [left; reflexivity|]. split; [reflexivity|]. split; [|reflexivity].
  intros i t H. destruct i as [|[|[|i]]]; cbn in H;
    repeat match goal with H : _ \/ _ |- _ => destruct H as [H|H] end; try discriminate;
    destruct H as [ts [[H|H] _]]; discriminate.
Qed.
Print Assumptions C86.
Print Assumptions C86_one_name.
Print Assumptions C86_ended_partial.
Print Assumptions C86_ended_refuted.
