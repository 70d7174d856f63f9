(* Which programs the optimizer preserves.  Dropping a retsub is the same as replacing it by an empty
   line first and dropping that one, so the programs compared here have the same lines. *)
From Verif Require Import Base Expr Linter Compiler Flow LintSpec FlowProofs LinterProofs CompilerSpec CompilerProofs.

(* which retsubs the first pass keeps *)
Lemma flags_unused_kept us prev l i :
  nth_error l i = Some RetSubExpr -> nth_error (flags_unused us prev l) i = Some true ->
  match i with
  | 0 => exists n, prev = Some (LabelExpr n) /\ In n us
  | S j => exists n, nth_error l j = Some (LabelExpr n) /\ In n us
  end.
Proof.
  revert prev i. induction l as [|o l IH]; intros prev i He Hf; [destruct i; discriminate|].
  destruct i as [|i].
  - cbn in He. injection He as ->. cbn in Hf. destruct prev as [[]|]; try discriminate.
    destruct (mem Name_ us) eqn:E; [|discriminate]. exists Name_. split; [reflexivity|].
    apply mem_In. exact E.
  - cbn in He.
    assert (G : forall prev', nth_error (flags_unused us prev' l) i = Some true ->
      (i = 0 -> forall n, prev' = Some (LabelExpr n) -> In n us -> o = LabelExpr n) ->
      exists n, nth_error (o :: l) i = Some (LabelExpr n) /\ In n us).
    { intros prev' H1 H2. specialize (IH prev' i He H1). destruct i as [|i].
      - destruct IH as (n & E & Hn). exists n. split; [|exact Hn]. cbn. f_equal. apply (H2 eq_refl n E Hn).
      - exact IH. }
    cbn [flags_unused] in Hf. destruct o; cbn [nth_error] in Hf;
      try (apply (G _ Hf); intros _ n E; discriminate).
    + destruct prev as [[]|]; cbn [nth_error] in Hf; try (apply (G _ Hf); intros _ n E; discriminate).
      destruct (mem Name_ us) eqn:M; cbn [nth_error] in Hf; apply (G _ Hf); intros _ n E Hn; try discriminate.
      injection E as ->. apply mem_In in Hn. congruence.
    + destruct (mem Name_ us) eqn:M; cbn [orb] in Hf.
      * cbn [nth_error] in Hf. apply (G _ Hf). intros _ n E _. injection E as ->. reflexivity.
      * destruct (followed_by_retsub_or_proto l) eqn:Fo; cbn [nth_error] in Hf; apply (G _ Hf).
        -- intros _ n E _. injection E as ->. reflexivity.
        -- intros -> n E Hn. exfalso. destruct l as [|o' l]; [discriminate|]. cbn in He. injection He as ->. discriminate.
Qed.

(* a retsub that is dropped becomes an empty line *)
Fixpoint blank (fs : list bool) (l : listing) : listing :=
  match fs, l with
  | f :: fs', o :: l' =>
      (if f then o else match o with RetSubExpr => EmptyExpr | _ => o end) :: blank fs' l'
  | _, _ => []
  end.

Lemma blank_select fs l : select fs (blank fs l) = select fs l.
Proof.
  revert l. induction fs as [|f fs IH]; intros [|o l]; cbn; auto. rewrite IH. destruct f; reflexivity.
Qed.

Lemma blank_length fs l : length fs = length l -> length (blank fs l) = length l.
Proof.
  revert l. induction fs as [|f fs IH]; intros [|o l] H; cbn in *; try discriminate; auto.
Qed.

Lemma blank_nth fs l i e : length fs = length l -> nth_error l i = Some e ->
  nth_error (blank fs l) i = Some e \/
  (nth_error (blank fs l) i = Some EmptyExpr /\ e = RetSubExpr /\ nth_error fs i = Some false).
Proof.
  revert l i. induction fs as [|f fs IH]; intros [|o l] [|i] H He; cbn in *; try discriminate.
  - injection He as ->. destruct f; [left; reflexivity|]. destruct e; auto.
  - apply IH; auto.
Qed.

Lemma blank_nth_inv fs l i e : length fs = length l -> nth_error (blank fs l) i = Some e ->
  (nth_error l i = Some e /\ (e = RetSubExpr -> nth_error fs i = Some true)) \/
  (e = EmptyExpr /\ nth_error l i = Some RetSubExpr /\ nth_error fs i = Some false).
Proof.
  revert l i. induction fs as [|f fs IH]; intros [|o l] [|i] H He; cbn in *; try discriminate.
  - destruct f.
    + left. split; [exact He|]. reflexivity.
    + destruct o; try (left; split; [exact He|]; injection He as <-; discriminate).
      right. injection He as <-. auto.
  - apply IH; auto.
Qed.

(* steps are determined by the listing and the event *)
Lemma fstep_fun l c ev c1 c2 : unique_labels l -> fstep l c ev c1 -> fstep l c ev c2 -> c1 = c2.
Proof.
  intros U.
  assert (G : forall n ks a b, goto l n ks a -> goto l n ks b -> a = b).
  { intros n ks a b Ha Hb. destruct Ha as [k Hk|Hno]; destruct Hb as [k' Hk'|Hno']; auto.
    - rewrite (U _ _ _ Hk Hk'). reflexivity.
    - exfalso. eapply Hno'; eauto.
    - exfalso. eapply Hno; eauto. }
  intros H1 H2. destruct H1; inversion H2; subst; try congruence; try lia;
    repeat match goal with
    | A : nth_error ?l ?i = Some _, B : nth_error ?l ?i = Some _ |- _ =>
        rewrite A in B; injection B as ?; subst
    end; try discriminate;
    try (exfalso; match goal with A : nth_error ?l ?i = Some _, B : length ?l <= ?i |- _ =>
      apply nth_error_None in B; congruence end);
    try (match goal with A : silent _ |- _ => inversion A end);
    try contradiction; eauto.
  all: try (match goal with A : conditional _ |- _ => solve [inversion A] end).
  all: try (match goal with A : cond_target _ _ _ |- _ => solve [inversion A] end).
  eapply G; [eassumption|]. assert (n = n0) as ->; [|assumption].
  match goal with A : cond_target ?e ?k n, B : cond_target ?e ?k n0 |- _ => inversion A; subst; inversion B; subst end;
    congruence.
Qed.

Lemma fstep_quiet_only l c ev c1 c2 : fstep l c None c1 -> fstep l c (Some ev) c2 -> False.
Proof.
  intros H1 H2. inversion H1; subst; inversion H2; subst;
    try (match goal with A : length ?l <= ?i |- _ => apply nth_error_None in A end);
    try congruence;
    repeat match goal with
    | A : nth_error ?l ?i = Some _, B : nth_error ?l ?i = Some _ |- _ =>
        rewrite A in B; injection B as ?; subst
    end;
    try (match goal with A : silent _ |- _ => inversion A; subst end); try contradiction; try discriminate;
    try (match goal with A : conditional _ |- _ => inversion A end);
    try (match goal with A : cond_target _ _ _ |- _ => inversion A end).
Qed.

Lemma run_continue l c0 tr c1 ev c2 : unique_labels l ->
  run l c0 tr c1 -> run l c0 (tr ++ [ev]) c2 -> exists c3, run l c1 [ev] c3.
Proof.
  intros U H. revert c2. induction H as [c|c c1 c3 tr F H IH|c c1 c3 ev' tr F H IH]; intros c2 R.
  - exists c2. exact R.
  - inversion R as [|x x1 x2 t F' R'|x x1 x2 e' t F' R']; subst.
    + destruct tr; discriminate.
    + rewrite (fstep_fun _ _ _ _ _ U F F') in *. eapply IH. exact R'.
    + exfalso. eapply fstep_quiet_only; eauto.
  - cbn in R. inversion R as [|x x1 x2 t F' R'|x x1 x2 e' t F' R']; subst.
    + exfalso. eapply fstep_quiet_only; eauto.
    + rewrite (fstep_fun _ _ _ _ _ U F F') in *. eapply IH. exact R'.
Qed.

(* runs from the back *)
Lemma run_snoc_ind l c (P : list event -> cfg -> Prop) :
  P [] c ->
  (forall tr c1 c2, run l c tr c1 -> P tr c1 -> fstep l c1 None c2 -> P tr c2) ->
  (forall tr c1 ev c2, run l c tr c1 -> P tr c1 -> fstep l c1 (Some ev) c2 -> P (tr ++ [ev]) c2) ->
  forall tr c', run l c tr c' -> P tr c'.
Proof.
  intros H0 Hq He.
  assert (X : forall c1 t c', run l c1 t c' -> forall tr, run l c tr c1 -> P tr c1 -> P (tr ++ t) c').
  { intros c1 t c' R. induction R as [c1|c1 c2 c3 t F R IH|c1 c2 c3 ev t F R IH]; intros tr Rt Pt.
    - rewrite app_nil_r. exact Pt.
    - apply IH; [|eapply Hq; eauto]. rewrite <- (app_nil_r tr). eapply run_trans; [exact Rt|].
      eapply run_quiet; [exact F|apply run_refl].
    - replace (tr ++ ev :: t) with ((tr ++ [ev]) ++ t) by (rewrite <- app_assoc; reflexivity).
      apply IH; [|eapply He; eauto]. eapply run_trans; [exact Rt|].
      eapply run_event; [exact F|apply run_refl]. }
  intros tr c' R. exact (X _ _ _ R [] (run_refl _ _) H0).
Qed.

Lemma halted_stuck l ev tr c : ~ run l Halted (ev :: tr) c.
Proof.
  intros R. inversion R as [|x x1 x2 t F _|x x1 x2 e t F _]; inversion F.
Qed.

Lemma retsub_steps l pc ks ev c : nth_error l pc = Some RetSubExpr -> fstep l (At pc ks) ev c ->
  match ks with
  | [] => ev <> None
  | r :: ks' => ev = Some (RetSubExpr, 0) /\ c = At r ks'
  end.
Proof.
  intros E F.
  assert (pc < length l) by (apply nth_error_Some; congruence).
  inversion F; subst; try lia; try discriminate; try congruence; auto.
  all: repeat match goal with
    | A : nth_error ?l ?i = Some RetSubExpr, B : nth_error ?l ?i = Some _ |- _ =>
        rewrite A in B; injection B as ?; subst
    end; try contradiction; try discriminate.
  all: try (match goal with A : silent _ |- _ => solve [inversion A] end).
  all: try (match goal with A : conditional _ |- _ => solve [inversion A] end).
  all: try (match goal with A : cond_target _ _ _ |- _ => solve [inversion A] end).
Qed.

Section Blank.
Variables (l : listing) (fs : list bool).
Hypothesis Hlen : length fs = length l.
Hypothesis U : unique_labels l.
Hypothesis Hret : forall i, nth_error l i = Some RetSubExpr ->
  (nth_error fs i = Some true <-> below_used_label l i).

Let b := blank fs l.

Lemma blank_defines i n : defines b i n <-> defines l i n.
Proof.
  unfold defines. split; intros H.
  - destruct (blank_nth_inv _ _ _ _ Hlen H) as [[H1 _]|[E _]]; [exact H1|discriminate].
  - destruct (blank_nth _ _ _ _ Hlen H) as [H1|[_ [E _]]]; [exact H1|discriminate].
Qed.

Lemma blank_used n : used b n <-> used l n.
Proof.
  split; intros (i & e & He & Hn); exists i, e; (split; [|exact Hn]).
  - destruct (blank_nth_inv _ _ _ _ Hlen He) as [[H1 _]|[-> _]]; [exact H1|inversion Hn].
  - destruct (blank_nth _ _ _ _ Hlen He) as [H1|[_ [-> _]]]; [exact H1|inversion Hn].
Qed.

Lemma blank_unique : unique_labels b.
Proof. intros i j n Hi Hj. apply blank_defines in Hi, Hj. eapply U; eauto. Qed.

Lemma blank_goto n ks c : goto b n ks c <-> goto l n ks c.
Proof.
  split; intros []; first [apply goto_def; apply blank_defines; assumption|
    apply goto_missing; intros k Hk; apply blank_defines in Hk; eapply H; eauto].
Qed.

Lemma blank_none pc : nth_error l pc = None -> nth_error b pc = None.
Proof.
  intros E. apply nth_error_None. unfold b. rewrite (blank_length _ _ Hlen). apply nth_error_None. exact E.
Qed.

(* away from the blanked lines both do the same *)
Lemma blank_step pc ks ev c : nth_error b pc = nth_error l pc ->
  (fstep b (At pc ks) ev c <-> fstep l (At pc ks) ev c).
Proof.
  intros E.
  assert (L : length b = length l) by (apply blank_length; exact Hlen).
  split; intros H; inversion H; subst;
    try (match goal with A : nth_error b pc = Some _ |- _ => rewrite E in A end);
    try (match goal with A : nth_error l pc = Some _ |- fstep b _ _ _ => rewrite <- E in A end).
  all: try (apply F_end; lia).
  all: try (eapply F_silent; eassumption).
  all: try (eapply F_plain; eassumption).
  all: try (eapply F_err; eassumption).
  all: try (eapply F_return; eassumption).
  all: try (eapply F_b; [eassumption|apply blank_goto; assumption]).
  all: try (eapply F_cond_next; eassumption).
  all: try (eapply F_cond_taken; [eassumption|eassumption|apply blank_goto; assumption]).
  all: try (eapply F_callsub; [eassumption|apply blank_goto; assumption]).
  all: try (eapply F_retsub; eassumption).
  all: try (eapply F_retsub_next; eassumption).
  all: try (eapply F_retsub_fail; eassumption).
Qed.

(* following the line to a kept retsub *)
Lemma leads_run i ks : leads_to_such_a_retsub l i ->
  exists j, run b (At i ks) [] (At j ks) /\ nth_error b j = Some RetSubExpr.
Proof.
  induction 1 as [i He Hb|i e He Hs _ (j & R & J)|i He _ (j & R & J)|i n k He Hd _ (j & R & J)].
  - exists i. split; [apply run_refl|].
    destruct (blank_nth _ _ _ _ Hlen He) as [H1|[_ [_ Hf]]]; [exact H1|].
    apply (Hret i He) in Hb. congruence.
  - exists j. split; [|exact J]. eapply run_quiet; [|exact R].
    destruct (blank_nth _ _ _ _ Hlen He) as [H1|[_ [-> _]]]; [|inversion Hs].
    eapply F_silent; eauto.
  - destruct (blank_nth _ _ _ _ Hlen He) as [H1|[H1 _]].
    + exists i. split; [apply run_refl|exact H1].
    + exists j. split; [|exact J]. eapply run_quiet; [|exact R]. eapply F_silent; [exact H1|constructor].
  - exists j. split; [|exact J]. eapply run_quiet; [|exact R].
    destruct (blank_nth _ _ _ _ Hlen He) as [H1|[_ [E _]]]; [|discriminate].
    eapply F_b; [exact H1|]. apply goto_def, blank_defines. exact Hd.
Qed.

Lemma run_leads c tr c' : run b c tr c' -> forall i ks k, c = At i ks -> tr = [(RetSubExpr, k)] ->
  leads_to_such_a_retsub l i.
Proof.
  induction 1 as [c|c c1 c2 tr F R IH|c c1 c2 ev tr F R IH]; intros i ks k -> Et.
  - discriminate.
  - inversion F; subst.
    + exfalso. exact (halted_stuck _ _ _ _ R).
    + match goal with A : nth_error b _ = Some _ |- _ =>
        destruct (blank_nth_inv _ _ _ _ Hlen A) as [[Q1 _]|[_ [Q1 _]]] end.
      * eapply lr_silent; eauto.
      * eapply lr_retsub; eauto.
    + match goal with A : nth_error b _ = Some _ |- _ =>
        destruct (blank_nth_inv _ _ _ _ Hlen A) as [[Q1 _]|[Q1 _]] end; [|discriminate].
      match goal with A : goto _ _ _ _ |- _ => inversion A; subst end.
      * eapply lr_b; eauto. apply blank_defines. assumption.
      * exfalso. exact (halted_stuck _ _ _ _ R).
  - injection Et as -> ->.
    assert (N : nth_error b i = Some RetSubExpr).
    { inversion F; subst; try assumption; contradiction. }
    destruct (blank_nth_inv _ _ _ _ Hlen N) as [[H1 H2]|[E _]]; [|discriminate].
    apply lr_here; [exact H1|]. apply Hret; auto.
Qed.

(* every retsub that is executed is kept, or is executed in a subroutine and leads to one that is *)
Definition harmless (N : nat) : Prop := forall tr i ks, length tr < N -> run l start tr (At i ks) ->
  nth_error l i = Some RetSubExpr -> below_used_label l i \/ (ks <> [] /\ leads_to_such_a_retsub l i).

Lemma blank_fwd N tr c : harmless N -> run l start tr c -> length tr <= N -> run b start tr c.
Proof.
  intros Hh R. revert tr c R.
  apply (run_snoc_ind l start (fun tr c => length tr <= N -> run b start tr c)).
  - intros _. apply run_refl.
  - intros tr c1 c2 R IH F Hle. specialize (IH Hle). rewrite <- (app_nil_r tr). eapply run_trans; [exact IH|].
    destruct c1 as [pc ks|]; [|inversion F].
    eapply run_quiet; [|apply run_refl]. apply blank_step; [|exact F].
    destruct (nth_error l pc) as [e|] eqn:E.
    + destruct (blank_nth _ _ _ _ Hlen E) as [H1|[_ [-> _]]]; [exact H1|].
      exfalso. pose proof (retsub_steps _ _ _ _ _ E F) as X. destruct ks; [exact (X eq_refl)|].
      destruct X as [X _]. discriminate X.
    + apply blank_none. exact E.
  - intros tr c1 ev c2 R IH F Hle. rewrite app_length in Hle. cbn in Hle. specialize (IH ltac:(lia)).
    eapply run_trans; [exact IH|]. destruct c1 as [pc ks|]; [|inversion F].
    destruct (nth_error l pc) as [e|] eqn:E.
    2:{ eapply run_event; [|apply run_refl]. apply blank_step; [|exact F]. rewrite E.
        apply blank_none. exact E. }
    destruct (blank_nth _ _ _ _ Hlen E) as [H1|[H1 [-> Hf]]].
    + eapply run_event; [|apply run_refl]. apply blank_step; [|exact F]. rewrite E. exact H1.
    + destruct (Hh tr pc ks ltac:(lia) R E) as [Hb|[Hk Hl]].
      { apply (Hret _ E) in Hb. congruence. }
      destruct ks as [|r ks]; [contradiction|]. clear Hk.
      assert (ev = (RetSubExpr, 0) /\ c2 = At r ks) as [-> ->].
      { destruct (retsub_steps _ _ _ _ _ E F) as [X ->]. injection X as ->. auto. }
      destruct (leads_run pc (r :: ks) Hl) as (j & Rj & J).
      eapply run_quiet_l; [exact Rj|]. eapply run_event; [apply F_retsub; exact J|apply run_refl].
Qed.

(* c is a state of the original; the shortened program is on its way from a dropped retsub to one it
   kept *)
Definition on_its_way (c d : cfg) : Prop :=
  exists i r ks m, c = At i (r :: ks) /\ nth_error l i = Some RetSubExpr /\ d = At m (r :: ks) /\
    leads_to_such_a_retsub l m.

Lemma leads_next m ks ev d : leads_to_such_a_retsub l m -> fstep b (At m ks) ev d ->
  (ev = None /\ exists m', d = At m' ks /\ leads_to_such_a_retsub l m') \/
  (nth_error b m = Some RetSubExpr).
Proof.
  intros H F. destruct H as [i He Hb|i e He Hs H|i He H|i n k He Hd H].
  - right. destruct (blank_nth _ _ _ _ Hlen He) as [H1|[_ [_ Hf]]]; [exact H1|].
    apply (Hret i He) in Hb. congruence.
  - left. destruct (blank_nth _ _ _ _ Hlen He) as [H1|[_ [-> _]]]; [|inversion Hs].
    destruct (fstep_silent_inv _ _ _ _ _ _ H1 Hs F) as [-> ->]. eauto.
  - destruct (blank_nth _ _ _ _ Hlen He) as [H1|[H1 _]]; [right; exact H1|left].
    destruct (fstep_silent_inv _ _ _ _ _ _ H1 silent_empty F) as [-> ->]. eauto.
  - left. destruct (blank_nth _ _ _ _ Hlen He) as [H1|[_ [E _]]]; [|discriminate].
    destruct (fstep_b_inv _ _ _ _ _ _ H1 F) as [-> G]. split; [reflexivity|].
    inversion G as [k' Hk'|Hno]; subst.
    + apply blank_defines in Hk'. rewrite (U _ _ _ Hk' Hd). eauto.
    + exfalso. eapply Hno. apply blank_defines. exact Hd.
Qed.

Lemma leads_after i : nth_error l i = Some RetSubExpr -> ~ below_used_label l i ->
  leads_to_such_a_retsub l i -> leads_to_such_a_retsub l (S i).
Proof.
  intros He Hn H. destruct H as [i _ Hb|i e He' Hs H|i _ H|i n k He' Hd H]; try contradiction; auto;
    rewrite He in He'; try discriminate.
Qed.

Lemma blank_bwd tr d : (forall N, harmless N) -> run b start tr d ->
  exists c, run l start tr c /\ (c = d \/ on_its_way c d).
Proof.
  intros Hh R. revert tr d R.
  apply (run_snoc_ind b start (fun tr d => exists c, run l start tr c /\ (c = d \/ on_its_way c d))).
  - exists start. split; [apply run_refl|auto].
  - intros tr d1 d2 _ (c & R & [->|W]) F.
    + destruct d1 as [pc ks|]; [|inversion F].
      destruct (nth_error l pc) as [e|] eqn:E.
      * destruct (blank_nth _ _ _ _ Hlen E) as [H1|[H1 [-> Hf]]].
        -- exists d2. split; [|auto]. rewrite <- (app_nil_r tr). eapply run_trans; [exact R|].
           eapply run_quiet; [|apply run_refl]. apply blank_step; [rewrite E; exact H1|exact F].
        -- destruct (fstep_silent_inv _ _ _ _ _ _ H1 silent_empty F) as [_ ->].
           assert (Nb : ~ below_used_label l pc) by (intros Hb; apply (Hret _ E) in Hb; congruence).
           destruct (Hh (S (length tr)) tr pc ks ltac:(lia) R E) as [Hb|[Hk Hl]]; [contradiction|].
           destruct ks as [|r ks]; [contradiction|].
           exists (At pc (r :: ks)). split; [exact R|]. right. exists pc, r, ks, (S pc).
           repeat split; auto. apply leads_after; auto.
      * exists d2. split; [|auto]. rewrite <- (app_nil_r tr). eapply run_trans; [exact R|].
        eapply run_quiet; [|apply run_refl]. apply blank_step; [|exact F]. rewrite E.
        apply blank_none. exact E.
    + destruct W as (i & r & ks & m & -> & He & -> & Hl).
      destruct (leads_next _ _ _ _ Hl F) as [[_ (m' & -> & Hl')]|Hm].
      * exists (At i (r :: ks)). split; [exact R|]. right. exists i, r, ks, m'. auto.
      * exfalso. destruct (retsub_steps _ _ _ _ _ Hm F) as [X _]. discriminate X.
  - intros tr d1 ev d2 _ (c & R & [->|W]) F.
    + destruct d1 as [pc ks|]; [|inversion F].
      exists d2. split; [|auto]. eapply run_trans; [exact R|]. eapply run_event; [|apply run_refl].
      apply blank_step; [|exact F].
      destruct (nth_error l pc) as [e|] eqn:E.
      * destruct (blank_nth _ _ _ _ Hlen E) as [H1|[H1 [-> Hf]]]; [exact H1|].
        destruct (fstep_silent_inv _ _ _ _ _ _ H1 silent_empty F) as [A _]. discriminate A.
      * apply blank_none. exact E.
    + destruct W as (i & r & ks & m & -> & He & -> & Hl).
      destruct (leads_next _ _ _ _ Hl F) as [[A _]|Hm]; [discriminate A|].
      assert (ev = (RetSubExpr, 0) /\ d2 = At r ks) as [-> ->].
      { destruct (retsub_steps _ _ _ _ _ Hm F) as [X ->]. injection X as ->. auto. }
      exists (At r ks). split; [|auto]. eapply run_trans; [exact R|].
      eapply run_event; [apply F_retsub; exact He|apply run_refl].
Qed.

Lemma blank_same : (forall N, harmless N) -> same_behaviour l b.
Proof.
  intros Hh tr. split; split.
  - intros [c R]. exists c. eapply blank_fwd; eauto.
  - intros [d R]. destruct (blank_bwd _ _ Hh R) as (c & Rc & _). exists c. exact Rc.
  - intros R. eapply blank_fwd; eauto.
  - intros R. destruct (blank_bwd _ _ Hh R) as (c & Rc & [->|(i & r & ks & m & _ & _ & E & _)]);
      [exact Rc|discriminate].
Qed.

Lemma blank_needs : retsubs_have_callers l -> same_behaviour l b -> forall N, harmless N.
Proof.
  intros C Sb N. induction N as [|N IH]; intros tr i ks Hlt R E; [lia|].
  right. destruct ks as [|r ks]; [exfalso; eapply C; eauto|]. split; [discriminate|].
  assert (Rb : run b start tr (At i (r :: ks))) by (eapply blank_fwd; [exact IH|exact R|lia]).
  assert (M : may_do l (tr ++ [(RetSubExpr, 0)])).
  { exists (At r ks). eapply run_trans; [exact R|]. eapply run_event; [apply F_retsub; exact E|apply run_refl]. }
  apply (proj1 (Sb _)) in M. destruct M as [c2 M].
  destruct (run_continue _ _ _ _ _ _ blank_unique Rb M) as [c3 R3].
  eapply run_leads; eauto.
Qed.

Hypothesis Hdel : forall i e, nth_error l i = Some e -> nth_error fs i = Some false ->
  silent e \/ e = RetSubExpr.
Hypothesis Hkeep : forall i n, defines l i n -> used l n -> nth_error fs i = Some true.

Lemma blank_deletion : same_behaviour b (select fs l).
Proof.
  rewrite <- (blank_select fs l). apply deletion_same_behaviour.
  - rewrite (blank_length _ _ Hlen). exact Hlen.
  - exact blank_unique.
  - intros i e He Hf. right; left.
    destruct (blank_nth_inv _ _ _ _ Hlen He) as [[H1 H2]|[-> _]]; [|constructor].
    destruct (Hdel _ _ H1 Hf) as [Hs|E]; [exact Hs|]. specialize (H2 E). congruence.
  - intros i n Hd Hu. apply blank_defines in Hd. apply blank_used in Hu. eapply Hkeep; eauto.
Qed.
End Blank.

Lemma same_behaviour_sym l1 l2 : same_behaviour l1 l2 -> same_behaviour l2 l1.
Proof. intros H tr. specialize (H tr). tauto. Qed.

Lemma optimize_blank l : unique_labels l ->
  exists fs, length fs = length l /\
    (forall i, nth_error l i = Some RetSubExpr -> (nth_error fs i = Some true <-> below_used_label l i)) /\
    same_behaviour (blank fs l) (optimize l).
Proof.
  intros U. set (fs := flags_unused (used_names l) None l). exists fs.
  assert (Hlen : length fs = length l) by apply flags_unused_length.
  split; [exact Hlen|]. split.
  - intros i He. split.
    + intros Hf. pose proof (flags_unused_kept _ _ _ _ He Hf) as H. destruct i as [|j].
      * destruct H as (n & E & _). discriminate.
      * destruct H as (n & Hd & Hn). exists j, n. split; [reflexivity|]. split; [exact Hd|].
        apply used_names_used. exact Hn.
    + intros (j & n & -> & Hd & Hn). apply flags_unused_retsub; auto. exists n. split; auto.
      apply used_names_used. exact Hn.
  - rewrite optimize_unfold.
    eapply same_behaviour_trans; [|eapply same_behaviour_trans;
      [apply remove_ops_same, remove_unused_unique, U|apply remove_b_same, remove_ops_unique, remove_unused_unique, U]].
    unfold remove_unused. rewrite remove_unused_select. fold fs. apply blank_deletion; auto.
    + intros i e He Hf. destruct (flags_unused_false _ _ _ _ _ He Hf) as [->|(n & -> & _)]; [auto|left; constructor].
    + intros i n Hd Hus. apply (flag_true_or l _ i (LabelExpr n)); auto.
      intros Hf. destruct (flags_unused_false _ _ _ _ _ Hd Hf) as [E|(n' & E & Hn)]; [discriminate|].
      injection E as <-. apply Hn. apply used_names_used; exact Hus.
Qed.

Lemma optimize_sufficient l : unique_labels l ->
  (forall tr i ks, run l start tr (At i ks) -> nth_error l i = Some RetSubExpr ->
     below_used_label l i \/ (ks <> [] /\ leads_to_such_a_retsub l i)) ->
  same_behaviour l (optimize l).
Proof.
  intros U H. destruct (optimize_blank l U) as (fs & Hlen & Hret & S).
  eapply same_behaviour_trans; [|exact S]. apply blank_same; auto.
  intros N tr i ks _ R E. eapply H; eauto.
Qed.

Lemma optimize_exact l : unique_labels l -> retsubs_have_callers l ->
  (same_behaviour l (optimize l) <->
   forall i, reachable l i -> nth_error l i = Some RetSubExpr -> leads_to_such_a_retsub l i).
Proof.
  intros U C. split.
  - intros Sa i (tr & ks & R) E. destruct (optimize_blank l U) as (fs & Hlen & Hret & S').
    assert (Sb : same_behaviour l (blank fs l)).
    { eapply same_behaviour_trans; [exact Sa|]. apply same_behaviour_sym. exact S'. }
    destruct (blank_needs l fs Hlen U Hret C Sb (S (length tr)) tr i ks ltac:(lia) R E) as [Hb|[_ Hl]]; [|exact Hl].
    apply lr_here; auto.
  - intros H. apply optimize_sufficient; auto. intros tr i ks R E. right. split.
    + intros ->. eapply C; eauto.
    + apply H; [|exact E]. exists tr, ks. exact R.
Qed.
