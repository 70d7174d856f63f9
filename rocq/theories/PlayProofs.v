(* Real executions are runs in the sense of Flow.v, together with what the executed instructions do
   to the data. *)
From Verif Require Import Base Expr Fields Linter Compiler Flow FlowProofs CompilerSpec CompilerProofs VmOps Vm VmSpec
  LangSpec RealSpec PlaySpec.
From Coq Require Import ZifyBool ZifyNat ZifyN.

(* the state without lines *)
Record data : Type := Data {
  x_stack : list real_value;
  x_frames : list (nat * option (N * N));
  x_slots : N -> real_value
}.
Definition frames (cs : list real_call) : list (nat * option (N * N)) :=
  map (fun c => (c_height c, c_proto c)) cs.
Definition rets (cs : list real_call) : list nat := map (fun c => S (c_from c)) cs.
Definition data_of (c : real_state) : data := Data (c_stack c) (frames (c_calls c)) (c_slots c).
Definition cfg_of (c : real_state) : cfg := At (c_line c) (rets (c_calls c)).

(* instructions that can go on with the next line *)
Definition flat (e : expr) : bool :=
  match e with
  | LabelExpr _ | PragmaExpr _ | EmptyExpr | CommentExpr _ | BExpr _ | CallSubExpr _ | RetSubExpr
  | ReturnExpr | ErrExpr => false
  | _ => true
  end.

Inductive effect (w : world) : expr -> nat -> data -> data -> Prop :=
| ef_flat e s cs m s' cs' m' : flat e = true -> map c_from cs' = map c_from cs ->
    instruction w [] e (Real 0 s cs m) (Real 1 s' cs' m') ->
    effect w e 0 (Data s (frames cs) m) (Data s' (frames cs') m')
| ef_bz t s fs m : effect w (BzExpr t) 1 (Data (CInt 0 :: s) fs m) (Data s fs m)
| ef_bnz t n s fs m : n <> 0%N -> effect w (BnzExpr t) 1 (Data (CInt n :: s) fs m) (Data s fs m)
| ef_switch ts n s fs m : N.to_nat n < length ts ->
    effect w (SwitchExpr ts) (S (N.to_nat n)) (Data (CInt n :: s) fs m) (Data s fs m)
| ef_match ts c cases p s fs m : length cases = length ts -> first_case cases c p ->
    effect w (MatchExpr ts) (S p) (Data (c :: rev cases ++ s) fs m) (Data s fs m)
| ef_call t s fs m : effect w (CallSubExpr t) 0 (Data s fs m) (Data s ((length s, None) :: fs) m)
| ef_ret h s fs m : effect w RetSubExpr 0 (Data s ((h, None) :: fs) m) (Data s fs m)
| ef_ret_proto h a r results locals args s fs m :
    length results = N.to_nat r -> length args = N.to_nat a -> length (args ++ s) = h ->
    effect w RetSubExpr 0 (Data (results ++ locals ++ args ++ s) ((h, Some (a, r)) :: fs) m)
      (Data (results ++ s) fs m).

Lemma lawful_world w e args res : lawful w -> w_op w e args res -> flat e = true.
Proof.
  intros L H. destruct (L _ _ _ H) as [a [r [E _]]]. destruct e; try reflexivity; discriminate E.
Qed.

Lemma stack_flat e : stack_op e = true -> flat e = true.
Proof. destruct e; try reflexivity; discriminate. Qed.
Lemma constants_flat w e xs : constants w e = Some xs -> flat e = true.
Proof. destruct e; try reflexivity; discriminate. Qed.

(* one real step *)
Lemma real_moves w l e c c' : lawful w -> instruction w l e c c' -> nth_error l (c_line c) = Some e ->
  if recorded e
  then exists k, fstep l (cfg_of c) (Some (e, k)) (cfg_of c') /\ effect w e k (data_of c) (data_of c')
  else fstep l (cfg_of c) None (cfg_of c') /\ data_of c' = data_of c.
Proof.
  intros L H N.
  assert (Fl : forall i s cs m s' cs' m', nth_error l i = Some e -> flat e = true -> rets cs' = rets cs ->
    map c_from cs' = map c_from cs -> instruction w [] e (Real 0 s cs m) (Real 1 s' cs' m') ->
    if recorded e
    then exists k, fstep l (At i (rets cs)) (Some (e, k)) (At (S i) (rets cs')) /\
      effect w e k (Data s (frames cs) m) (Data s' (frames cs') m')
    else fstep l (At i (rets cs)) None (At (S i) (rets cs')) /\
      Data s' (frames cs') m' = Data s (frames cs) m).
  { intros i s cs m s' cs' m' Hi F R F' I.
    replace (recorded e) with true by (destruct e; try reflexivity; discriminate F).
    exists 0. rewrite R. split; [|apply ef_flat; assumption].
    destruct e; try discriminate F;
      first [apply F_cond_next; [exact Hi|constructor]|apply F_plain; [exact Hi|exact I]|idtac].
    all: try (apply F_plain; [exact Hi|exact Logic.I]). }
  destruct H as [e i s cs m Hn|e i args res s cs m Hb Hw|e i s s' cs m Hs Hs'|e i xs s cs m Hx|i n s cs m Hn|n i s cs m
    |n i c s cs m|n i s cs m Hn|n i c s cs m Hn|t i j s cs m T|t i j s cs m T|t i n s cs m Hn|t i j n s cs m Hn T
    |t i s cs m|ts t i j n s cs m Ht T|ts i n s cs m Ht|ts t i j c cases p s cs m Hc Hf Ht T|ts i c cases s cs m Hc Hf
    |t i j s cs m T|i from h s cs m|i from h a r results locals args s cs m Hr Ha Hh|a r i from s cs m Ha
    |z i s from h p c cs m Hz Hc|z i c s s' from h p cs m Hz Hl Hc Hk];
    cbn [c_line] in N; unfold cfg_of, data_of; cbn [c_line c_stack c_calls c_slots].
  - replace (recorded e) with false by (destruct e; try reflexivity; discriminate Hn).
    split; [|reflexivity]. apply (F_silent l i _ e N). destruct e; try discriminate Hn; constructor.
  - apply Fl; auto; [eapply lawful_world; eauto|]. apply i_world; assumption.
  - apply Fl; auto; [apply stack_flat; assumption|]. apply i_stack; assumption.
  - apply Fl; auto; [eapply constants_flat; eauto|]. apply i_constants; assumption.
  - apply Fl; auto. apply i_assert; assumption.
  - apply Fl; auto. apply i_load.
  - apply Fl; auto. apply i_store.
  - apply Fl; auto. apply i_loads; assumption.
  - apply Fl; auto. apply i_stores; assumption.
  - cbn. split; [|reflexivity]. eapply F_b; [exact N|]. apply goto_def. apply T.
  - cbn. exists 1. split; [|apply ef_bz]. eapply F_cond_taken; [exact N|constructor|]. apply goto_def. apply T.
  - apply Fl; auto. apply i_bz_not_taken; assumption.
  - cbn. exists 1. split; [|apply ef_bnz; assumption].
    eapply F_cond_taken; [exact N|constructor|]. apply goto_def. apply T.
  - apply Fl; auto. apply i_bnz_not_taken.
  - cbn. exists (S (N.to_nat n)). split; [|apply ef_switch; apply nth_error_Some; congruence].
    eapply F_cond_taken; [exact N|constructor; exact Ht|]. apply goto_def. apply T.
  - apply Fl; auto. apply i_switch_not_taken; assumption.
  - cbn. exists (S p). split; [|apply ef_match; assumption].
    eapply F_cond_taken; [exact N|constructor; exact Ht|]. apply goto_def. apply T.
  - apply Fl; auto. apply i_match_not_taken; assumption.
  - cbn. exists 0. split; [|apply ef_call]. eapply F_callsub; [exact N|]. apply goto_def. apply T.
  - cbn. exists 0. split; [|apply ef_ret]. apply F_retsub. exact N.
  - cbn. exists 0. split; [|eapply ef_ret_proto; eauto]. apply F_retsub. exact N.
  - apply Fl; auto. apply i_proto; assumption.
  - apply Fl; auto. eapply i_frame_dig; eauto.
  - apply Fl; auto. eapply i_frame_bury; eauto.
Qed.

(* what the instructions of a trace do *)
Inductive acts (W : history -> world) : list event -> history -> data -> Prop :=
| acts_start : acts W [] [] (data_of beginning)
| acts_step tr h d e k d' : acts W tr h d -> effect (W h) e k d d' ->
    acts W (tr ++ [(e, k)]) (h ++ [Did e (x_stack d) (x_stack d')]) d'.

Lemma real_run W l h c : (forall h, lawful (W h)) -> plays W l h c ->
  exists tr, run l start tr (cfg_of c) /\ acts W tr h (data_of c).
Proof.
  intros L H. induction H as [|h c e c' H [tr [R A]] N I].
  - exists []. split; [apply run_refl|apply acts_start].
  - pose proof (real_moves _ _ _ _ _ (L h) I N) as M. destruct (recorded e).
    + destruct M as [k [F E]]. exists (tr ++ [(e, k)]). split.
      * eapply run_trans; [exact R|]. eapply run_event; [exact F|apply run_refl].
      * exact (acts_step W tr h (data_of c) e k (data_of c') A E).
    + destruct M as [F E]. exists tr. split; [|rewrite E; exact A].
      rewrite <- (app_nil_r tr). eapply run_trans; [exact R|]. eapply run_quiet; [exact F|apply run_refl].
Qed.

(* ------------------------------------------------------------------------------------------ *)
(* the converse *)
Lemma frames_cons_inv cs h p fs : frames cs = (h, p) :: fs ->
  exists from cs', cs = Call from h p :: cs' /\ frames cs' = fs.
Proof.
  destruct cs as [|[from h' p'] cs']; [discriminate|]. cbn. intros E. injection E as -> -> <-. eauto.
Qed.

Lemma no_target t j : ~ target [] t (Some j).
Proof. intros [H _]. destruct j; discriminate. Qed.

Lemma flat_real w l e s cs0 m s' cs0' m' i cs :
  flat e = true -> map c_from cs0' = map c_from cs0 ->
  instruction w [] e (Real 0 s cs0 m) (Real 1 s' cs0' m') -> frames cs = frames cs0 ->
  exists cs', instruction w l e (Real i s cs m) (Real (S i) s' cs' m') /\ frames cs' = frames cs0' /\
    map c_from cs' = map c_from cs.
Proof.
  intros F M I Q.
  assert (Same : cs0' = cs0 -> instruction w l e (Real i s cs m) (Real (S i) s' cs m') ->
    exists cs', instruction w l e (Real i s cs m) (Real (S i) s' cs' m') /\ frames cs' = frames cs0' /\
      map c_from cs' = map c_from cs).
  { intros -> X. exists cs. auto. }
  inversion I; subst;
    try (exfalso; match goal with H : target [] _ _ |- _ => revert H; apply no_target end);
    try discriminate F;
    try (apply Same; [reflexivity|econstructor; eassumption]).
  - cbn [frames map] in Q. apply frames_cons_inv in Q. destruct Q as [fr [cs' [-> Q]]].
    eexists. split; [apply i_proto; assumption|]. split; [|reflexivity]. cbn. f_equal. exact Q.
  - apply Same; [reflexivity|]. cbn [frames map] in Q. apply frames_cons_inv in Q. destruct Q as [fr [cs' [-> Q]]].
    eapply i_frame_dig; eauto.
  - apply Same; [reflexivity|]. cbn [frames map] in Q. apply frames_cons_inv in Q. destruct Q as [fr [cs' [-> Q]]].
    eapply i_frame_bury; eauto.
Qed.

Lemma rets_from cs cs' : map c_from cs' = map c_from cs -> rets cs' = rets cs.
Proof.
  unfold rets. intros H. rewrite <- (map_map c_from S), <- (map_map c_from S cs), H. reflexivity.
Qed.

Lemma unique_target l t k : unique_labels l -> defines l k t -> target l t (Some k).
Proof.
  intros U D. split; [exact D|]. intros j Hj E. specialize (U _ _ _ D E). lia.
Qed.

(* runs from the back *)
Inductive runs (l : listing) (c : cfg) : list event -> cfg -> Prop :=
| runs_refl : runs l c [] c
| runs_quiet tr c1 c2 : runs l c tr c1 -> fstep l c1 None c2 -> runs l c tr c2
| runs_event tr c1 ev c2 : runs l c tr c1 -> fstep l c1 (Some ev) c2 -> runs l c (tr ++ [ev]) c2.

Lemma runs_trans l c c1 c2 t1 t2 : runs l c t1 c1 -> runs l c1 t2 c2 -> runs l c (t1 ++ t2) c2.
Proof.
  intros H1 H2. induction H2; [rewrite app_nil_r; exact H1|eapply runs_quiet; eauto|].
  rewrite app_assoc. eapply runs_event; eauto.
Qed.

Lemma run_runs l c tr c' : run l c tr c' -> runs l c tr c'.
Proof.
  induction 1 as [c|c c1 c2 tr F H IH|c c1 c2 ev tr F H IH]; [apply runs_refl| |].
  - change tr with ([] ++ tr). eapply runs_trans; [eapply runs_quiet; [apply runs_refl|exact F]|exact IH].
  - change (ev :: tr) with ([ev] ++ tr). eapply runs_trans; [|exact IH].
    apply (runs_event l c [] c ev c1); [apply runs_refl|exact F].
Qed.

Lemma runs_run l c tr c' : runs l c tr c' -> run l c tr c'.
Proof.
  induction 1 as [|tr c1 c2 H IH F|tr c1 ev c2 H IH F]; [apply run_refl| |].
  - rewrite <- (app_nil_r tr). eapply run_trans; [exact IH|]. eapply run_quiet; [exact F|apply run_refl].
  - eapply run_trans; [exact IH|]. eapply run_event; [exact F|apply run_refl].
Qed.

Lemma acts_snoc W tr e k h d : acts W (tr ++ [(e, k)]) h d ->
  exists h0 d0, acts W tr h0 d0 /\ effect (W h0) e k d0 d /\ h = h0 ++ [Did e (x_stack d0) (x_stack d)].
Proof.
  intros H. inversion H as [E|tr0 h0 d0 e0 k0 d' A F E1 E2 E3].
  - destruct tr; discriminate.
  - apply app_inj_tail in E1. destruct E1 as [-> E1]. injection E1 as -> ->. subst. eauto.
Qed.

Lemma acts_nil W h d : acts W [] h d -> h = [] /\ d = data_of beginning.
Proof.
  intros H. inversion H as [|tr0 h0 d0 e0 k0 d' A F E1]; [auto|]. destruct tr0; discriminate.
Qed.

Lemma run_real W l tr cf : unique_labels l -> runs l start tr cf -> forall h d pc ks,
  acts W tr h d -> cf = At pc ks ->
  exists c, plays W l h c /\ cfg_of c = At pc ks /\ data_of c = d.
Proof.
  intros U R. induction R as [|tr c1 c2 R IH F|tr c1 [e k] c2 R IH F]; intros h d pc ks A Q; subst.
  - injection Q as <- <-. apply acts_nil in A. destruct A as [-> ->]. exists beginning. repeat split. apply plays_start.
  - inversion F; subst.
    + destruct (IH _ _ _ _ A eq_refl) as [[i s cs m] [P [C D]]]. unfold cfg_of in C. cbn in C. injection C as -> <-.
      exists (Real (S pc0) s cs m). split; [|split; [reflexivity|exact D]].
      pose proof (plays_step W l h (Real pc0 s cs m) e (Real (S pc0) s cs m) P ltac:(assumption)) as X.
      assert (Si : silent e) by assumption.
      replace (recorded e) with false in X by (destruct Si; reflexivity). apply X.
      apply i_nop. destruct Si; reflexivity.
    + destruct (IH _ _ _ _ A eq_refl) as [[i s cs m] [P [C D]]]. unfold cfg_of in C. cbn in C. injection C as -> <-.
      match goal with H : goto _ _ _ _ |- _ => inversion H; subst end. exists (Real pc s cs m).
      split; [|split; [reflexivity|first [exact D|reflexivity]]].
      apply (plays_step W l h (Real pc0 s cs m) (BExpr n) (Real pc s cs m) P ltac:(assumption)).
      apply i_b. apply unique_target; assumption.
  - apply acts_snoc in A. destruct A as [h0 [d0 [A [E ->]]]].
    assert (X : forall pc1 ks1, c1 = At pc1 ks1 -> nth_error l pc1 = Some e ->
      (forall i s cs m, rets cs = ks1 -> d0 = Data s (frames cs) m -> i = pc1 ->
        exists j s' cs' m', instruction (W h0) l e (Real i s cs m) (Real j s' cs' m') /\
          At j (rets cs') = At pc ks /\ Data s' (frames cs') m' = d) ->
      recorded e = true ->
      exists c, plays W l (h0 ++ [Did e (x_stack d0) (x_stack d)]) c /\ cfg_of c = At pc ks /\ data_of c = d).
    { intros pc1 ks1 -> N G Re. destruct (IH _ _ _ _ A eq_refl) as [[i s cs m] [P [C D]]].
      unfold cfg_of in C. cbn in C. injection C as -> <-. unfold data_of in D. cbn in D. subst d0.
      destruct (G pc1 s cs m eq_refl eq_refl eq_refl) as [j [s' [cs' [m' [I [C <-]]]]]].
      exists (Real j s' cs' m'). split; [|split; [exact C|reflexivity]].
      pose proof (plays_step W l h0 (Real pc1 s cs m) e (Real j s' cs' m') P N I) as X. rewrite Re in X. exact X. }
    assert (Fl : forall pc1 ks1, c1 = At pc1 ks1 -> nth_error l pc1 = Some e -> flat e = true -> k = 0 ->
      At pc ks = At (S pc1) ks1 ->
      exists c, plays W l (h0 ++ [Did e (x_stack d0) (x_stack d)]) c /\ cfg_of c = At pc ks /\ data_of c = d).
    { intros pc1 ks1 E1 N Fe -> Ec. injection Ec as -> ->.
      apply (X pc1 ks1 E1 N); [|destruct e; try reflexivity; discriminate Fe].
      intros i s cs m Rk D ->. inversion E; subst; try discriminate Fe.
      match goal with Q : Data _ _ _ = Data _ _ _ |- _ => injection Q as -> Hf -> end.
      destruct (flat_real (W h0) l e s cs0 m s' cs' m' pc1 cs) as [cs2 [I2 [F2 M2]]]; auto.
      exists (S pc1), s', cs2, m'. split; [exact I2|]. split; [|rewrite F2; reflexivity].
      rewrite (rets_from _ _ M2). reflexivity. }
    inversion F; subst; try (inversion E; fail).
    + eapply Fl; eauto. destruct e; try contradiction; reflexivity.
    + eapply Fl; eauto. match goal with H : conditional _ |- _ => destruct H; reflexivity end.
    + match goal with H : goto _ _ _ _ |- _ => inversion H; subst end.
      assert (Ct : cond_target e k0 n) by assumption.
      eapply X; eauto; [|destruct Ct; reflexivity].
      intros i s cs m <- -> ->. exists pc, (x_stack d), cs, (x_slots d).
      assert (T : target l n (Some pc)) by (apply unique_target; assumption).
      inversion E; subst; inversion Ct; subst; cbn.
      * split; [apply i_bz_taken; exact T|auto].
      * split; [apply i_bnz_taken; [assumption|exact T]|auto].
      * split; [eapply i_switch_taken; eauto|auto].
      * split; [eapply i_match_taken; eauto|auto].
    + match goal with H : goto _ _ _ _ |- _ => inversion H; subst end.
      eapply X; eauto. intros i s cs m <- -> ->.
      inversion E; subst; [discriminate|].
      exists pc, s, (Call pc0 (length s) None :: cs), m. split; [apply i_callsub, unique_target; assumption|auto].
    + eapply X; eauto. intros i s cs m Rk -> ->. inversion E; subst; [discriminate| |].
      * match goal with H : _ = frames cs |- _ => symmetry in H; apply frames_cons_inv in H;
          destruct H as [fr [cs' [-> Q]]] end.
        cbn in Rk. injection Rk as <- <-. exists (S fr), s, cs', m. split; [apply i_retsub|]. rewrite Q. auto.
      * match goal with H : _ = frames cs |- _ => symmetry in H; apply frames_cons_inv in H;
          destruct H as [fr [cs' [-> Q]]] end.
        cbn in Rk. injection Rk as <- <-. exists (S fr), (results ++ s0), cs', m.
        split; [apply i_retsub_proto; auto|]. rewrite Q. auto.
Qed.

(* ------------------------------------------------------------------------------------------ *)
(* the same moves give the same results *)
Lemma effect_lands w l e k d d' c1 c2 : assembles l -> effect w e k d d' ->
  fstep l c1 (Some (e, k)) c2 -> exists pc ks, c2 = At pc ks.
Proof.
  intros [_ Df] E F.
  assert (G : forall n ks c i, nth_error l i = Some e -> names e n -> goto l n ks c -> exists pc ks, c = At pc ks).
  { intros n ks c i Hi Hn Hg. inversion Hg; subst; [eauto|]. exfalso. destruct (Df n) as [j Hj]; [|eapply H; eauto].
    exists i, e. auto. }
  inversion F; subst; eauto; try (inversion E; subst; discriminate).
  - eapply G; eauto. match goal with H : cond_target _ _ _ |- _ => inversion H; subst end; constructor;
      eapply nth_error_In; eassumption.
  - eapply G; eauto. constructor.
Qed.

Lemma runs_last l c tr ev c' : runs l c (tr ++ [ev]) c' ->
  exists c1 c2, runs l c tr c1 /\ fstep l c1 (Some ev) c2 /\ runs l c2 [] c'.
Proof.
  intros H. remember (tr ++ [ev]) as t eqn:E. induction H as [|t c1 c2 H IH F|t c1 ev' c2 H IH F].
  - destruct tr; discriminate.
  - destruct (IH E) as [a [b [A [B C]]]]. exists a, b. split; [exact A|]. split; [exact B|].
    eapply runs_quiet; eauto.
  - apply app_inj_tail in E. destruct E as [-> ->]. exists c1, c2. split; [exact H|]. split; [exact F|apply runs_refl].
Qed.

Lemma runs_at W l tr h d c : assembles l -> runs l start tr c -> acts W tr h d ->
  exists pc ks, runs l start tr (At pc ks).
Proof.
  intros As R A. destruct A as [|tr h d e k d' A E]; [exists 0, []; apply runs_refl|].
  apply runs_last in R. destruct R as [c1 [c2 [R [F _]]]].
  destruct (effect_lands _ _ _ _ _ _ _ _ As E F) as [pc [ks ->]]. exists pc, ks. eapply runs_event; eauto.
Qed.

Lemma runs_end W l tr h d : assembles l -> runs l start tr Halted -> acts W tr h d ->
  exists pc ks, runs l start tr (At pc ks) /\ length l <= pc.
Proof.
  intros As R A. inversion R as [|t c1 c2 H F|t c1 [e k] c2 H F]; subst.
  - inversion F; subst; [eauto|]. exfalso. destruct As as [_ Df].
    match goal with H : goto _ _ _ _ |- _ => inversion H; subst end.
    destruct (Df n) as [j Hj]; [exists pc, (BExpr n); split; [assumption|constructor]|].
    match goal with H : forall k, ~ _ |- _ => exact (H _ Hj) end.
  - exfalso. apply acts_snoc in A. destruct A as [h0 [d0 [A [E _]]]].
    destruct (effect_lands _ _ _ _ _ _ _ _ As E F) as [pc [ks Q]]. discriminate Q.
Qed.

Lemma play_half l l' W h : assembles l' -> same_behaviour l l' -> (forall h, lawful (W h)) ->
  (can_do W l h -> can_do W l' h) /\ (approves W l h -> approves W l' h).
Proof.
  intros As S L. split.
  - intros [c P]. destruct (real_run _ _ _ _ L P) as [tr [R A]].
    destruct (proj1 (proj1 (S tr)) (ex_intro _ _ R)) as [c1 R'].
    destruct (runs_at _ _ _ _ _ _ As (run_runs _ _ _ _ R') A) as [pc [ks R1]].
    destruct (run_real W l' tr _ (proj1 As) R1 _ _ _ _ A eq_refl) as [c' [P' _]]. exists c'. exact P'.
  - intros [c [n [P [Hn K]]]]. destruct (real_run _ _ _ _ L P) as [tr [R A]].
    destruct K as [[N [s Hs]]|[N Hs]].
    + assert (R2 : may_do l (tr ++ [(ReturnExpr, 0)])).
      { exists Halted. eapply run_trans; [exact R|]. eapply run_event; [apply F_return; exact N|apply run_refl]. }
      apply (proj1 (S _)) in R2. destruct R2 as [c1 R2]. apply run_runs, runs_last in R2.
      destruct R2 as [c2 [c3 [R2 [F _]]]]. inversion F; subst; try contradiction;
        try (match goal with H : conditional _ |- _ => inversion H end).
      destruct (run_real W l' tr _ (proj1 As) R2 _ _ _ _ A eq_refl) as [c' [P' [C D]]].
      exists c', n. split; [exact P'|]. split; [exact Hn|]. left.
      unfold cfg_of in C. injection C as -> _. unfold data_of in D. injection D as D _ _.
      split; [assumption|]. exists s. congruence.
    + assert (R2 : may_end l tr).
      { unfold may_end. rewrite <- (app_nil_r tr). eapply run_trans; [exact R|].
        eapply run_quiet; [apply F_end; exact N|apply run_refl]. }
      apply (proj2 (S _)) in R2. apply run_runs in R2.
      destruct (runs_end _ _ _ _ _ As R2 A) as [pc [ks [R3 Hp]]].
      destruct (run_real W l' tr _ (proj1 As) R3 _ _ _ _ A eq_refl) as [c' [P' [C D]]].
      exists c', n. split; [exact P'|]. split; [exact Hn|]. right.
      unfold cfg_of in C. injection C as -> _. unfold data_of in D. injection D as D _ _.
      split; [assumption|]. congruence.
Qed.

Lemma behaviour_results l l' : assembles l -> assembles l' -> same_behaviour l l' -> same_results l l'.
Proof.
  intros A A' S W L h.
  assert (S' : same_behaviour l' l) by (intros tr; destruct (S tr); split; symmetry; assumption).
  pose proof (play_half l l' W h A' S L) as [H1 H2]. pose proof (play_half l' l W h A S' L) as [H3 H4].
  split; split; assumption.
Qed.

(* ------------------------------------------------------------------------------------------ *)
(* deletions keep programs assembling *)
Lemma definitions_defines n l : 0 < definitions n l -> exists k, defines l k n.
Proof.
  induction l as [|e l IH]; cbn; [lia|]. intros H.
  assert (X : 0 < definitions n l -> exists k, defines (e :: l) k n).
  { intros H1. destruct (IH H1) as [k Hk]. exists (S k). exact Hk. }
  destruct e; try (apply X; exact H).
  match goal with |- context [LabelExpr ?x :: l] => destruct (str_dec x n) as [<-|] end;
    [exists 0; reflexivity|apply X; exact H].
Qed.

Lemma defines_definitions n l k : defines l k n -> 0 < definitions n l.
Proof.
  revert k. induction l as [|e l IH]; intros [|k] H; try discriminate.
  - injection H as ->. cbn. destruct (str_dec n n); [lia|contradiction].
  - apply IH in H. cbn. destruct e; try exact H. lia.
Qed.

Lemma assembles_sub l l' : assembles l -> subseq l' l -> unique_labels l' ->
  (forall n, used l' n -> definitions n l' = definitions n l) -> assembles l'.
Proof.
  intros [_ D] S U E. split; [exact U|]. intros n Hn. apply definitions_defines. rewrite (E n Hn).
  destruct (D n (subseq_used _ _ _ S Hn)) as [k Hk]. eapply defines_definitions; eauto.
Qed.

Lemma remove_b_unique l : unique_labels l -> unique_labels (remove_b_just_before_its_target_label l).
Proof.
  intros H. rewrite remove_b_select. apply select_unique_labels; auto using flags_b_length.
Qed.

Lemma assembles_ops l : assembles l -> assembles (remove_ops_after_unconditional_branch l).
Proof.
  intros A. apply (assembles_sub l); auto using remove_ops_subseq, remove_ops_definitions.
  apply remove_ops_unique, A.
Qed.
Lemma assembles_b l : assembles l -> assembles (remove_b_just_before_its_target_label l).
Proof.
  intros A. apply (assembles_sub l); auto using remove_b_subseq, remove_b_definitions.
  apply remove_b_unique, A.
Qed.
Lemma assembles_optimize l : assembles l -> assembles (optimize l).
Proof.
  intros A. apply (assembles_sub l); auto using optimize_subseq, optimize_definitions.
  rewrite optimize_unfold. apply remove_b_unique, remove_ops_unique, remove_unused_unique, A.
Qed.

(* ------------------------------------------------------------------------------------------ *)
(* executions that go on from a state *)
Lemma real_step w l e c c' : lawful w -> nth_error l (c_line c) = Some e -> instruction w l e c c' ->
  exists ev, fstep l (cfg_of c) ev (cfg_of c').
Proof.
  intros L N I. pose proof (real_moves _ _ _ _ _ L I N) as M.
  destruct (recorded e); [destruct M as [k [F _]]|destruct M as [F _]]; eauto.
Qed.

Lemma goes_run w l P c c' : lawful w -> goes w l P c c' -> exists tr, run l (cfg_of c) tr (cfg_of c').
Proof.
  intros L G. induction G as [|c1 c2 e G [tr R] N _ I]; [exists []; apply run_refl|].
  destruct (real_step _ _ _ _ _ L N I) as [[ev|] F].
  - exists (tr ++ [ev]). eapply run_trans; [exact R|]. eapply run_event; [exact F|apply run_refl].
  - exists (tr ++ []). eapply run_trans; [exact R|]. eapply run_quiet; [exact F|apply run_refl].
Qed.
