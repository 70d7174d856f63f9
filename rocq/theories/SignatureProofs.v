(* The signatures of the opcodes. *)
From Verif Require Import Base Expr OpTable Process Print Codec Signature SignatureSpec.

Definition strip (a : op_arg) : taken := Taken (oa_name a) (oa_type a) (oa_array a).
Definition mandatory (p : prog) : list taken := map strip (filter (fun a => negb (oa_optional a)) (dc_args (doc_of p))).
Definition optional (p : prog) : list taken := map strip (filter oa_optional (dc_args (doc_of p))).

Ltac wit := cbn [reads];
  match goal with
  | |- _ = _ => reflexivity
  | |- exists _ : imm_val ?k, _ => exists (zero_val k); wit
  | |- exists _ : N, _ => exists 0%N; wit
  | |- exists _ : list N, _ => exists []; wit
  | |- exists _ : list str, _ => exists []; wit
  | |- exists _ : list taken, _ => eexists; split; [reflexivity|wit]
  | |- _ \/ _ => first [left; solve [wit]|right; solve [wit]]
  end.
Lemma ops_take : Forall (fun x => takes (snd x) (mandatory (snd x)) (optional (snd x))) ops_list.
Proof.
  unfold ops_list. repeat (apply Forall_cons; [|]); [..|apply Forall_nil].
  all: cbn [snd]; unfold takes; intros l;
    match goal with |- reads ?p _ <-> _ => let m := eval vm_compute in (mandatory p) in let o := eval vm_compute in (optional p) in
      change (mandatory p) with m; change (optional p) with o; cbn [app] end.
  all: match goal with |- reads ?p _ <-> _ => try unfold p end; cbn [reads].
  all: split;
    [intros H; repeat match goal with
       | H : _ \/ _ |- _ => destruct H
       | H : exists _, _ |- _ => destruct H
       | H : _ /\ _ |- _ => destruct H
       | H : _ = _ |- _ => subst
       end; first [left; reflexivity|right; reflexivity]
    |intros [->| ->];
     solve [wit]].
Qed.

(* ---------------------------------------------------------------- the shape of the arguments *)
(* the optional arguments come last *)
Definition tidy (d : doc) : Prop := exists m o, dc_args d = m ++ o /\
  Forall (fun a => oa_optional a = false) m /\ Forall (fun a => oa_optional a = true) o /\ dc_optional d = match o with [] => false | _ => true end.
Lemma tidy_arg a d : tidy d -> tidy (doc_arg a d).
Proof.
  intros [m [o [E [M [O F]]]]]. unfold doc_arg, tidy. cbn [dc_args dc_optional]. rewrite E, F. destruct o as [|b o].
  - rewrite app_nil_r. cbn [orb]. destruct (oa_optional a) eqn:A.
    + exists m, [a]. split; [reflexivity|]. split; [exact M|]. split; [constructor; [exact A|constructor]|reflexivity].
    + exists (m ++ [a]), []. split; [rewrite app_nil_r; reflexivity|]. split; [apply Forall_app; split; [exact M|constructor; [exact A|constructor]]|].
      split; [constructor|reflexivity].
  - cbn [orb]. exists m, ((b :: o) ++ [OpArg (oa_name a) (oa_type a) (oa_array a) true]). split; [rewrite <- app_assoc; reflexivity|].
    split; [exact M|]. split; [apply Forall_app; split; [exact O|constructor; [reflexivity|constructor]]|reflexivity].
Qed.
Lemma tidy_run p : forall d, tidy d -> tidy (doc_run p d).
Proof.
  induction p as [e|v p IH|m v p IH|k n f IH|n f IH|n f IH|n f IH|n f IH]; intros d T; cbn [doc_run].
  - exact T.
  - apply IH. exact T.
  - apply IH. destruct m; exact T.
  - apply IH. apply tidy_arg. exact T.
  - apply IH. apply tidy_arg. exact T.
  - apply IH. apply tidy_arg. exact T.
  - apply IH. apply tidy_arg. exact T.
  - apply IH. apply tidy_arg. exact T.
Qed.
Lemma tidy_doc p : tidy (doc_of p).
Proof. apply tidy_run. exists [], []. repeat split; constructor. Qed.

Lemma filter_all {A} (f : A -> bool) l : Forall (fun a => f a = true) l -> filter f l = l.
Proof. induction 1 as [|a l H _ IH]; [reflexivity|]. cbn. rewrite H, IH. reflexivity. Qed.
Lemma filter_none {A} (f : A -> bool) l : Forall (fun a => f a = false) l -> filter f l = [].
Proof. induction 1 as [|a l H _ IH]; [reflexivity|]. cbn. rewrite H. exact IH. Qed.

Lemma args_split p : exists m o, dc_args (doc_of p) = m ++ o /\ Forall (fun a => oa_optional a = false) m /\ Forall (fun a => oa_optional a = true) o /\
  mandatory p = map strip m /\ optional p = map strip o.
Proof.
  destruct (tidy_doc p) as [m [o [E [M [O _]]]]]. exists m, o. split; [exact E|]. split; [exact M|]. split; [exact O|].
  unfold mandatory, optional. rewrite E, !filter_app, (filter_none _ m M), (filter_all _ o O).
  rewrite (filter_all _ m), (filter_none _ o), app_nil_r; [split; reflexivity| |].
  - apply (Forall_impl _ (fun a (H : oa_optional a = true) => f_equal negb H) O).
  - apply (Forall_impl _ (fun a (H : oa_optional a = false) => f_equal negb H) M).
Qed.

(* ---------------------------------------------------------------- the short signature *)
Lemma word_strip a : short_word (strip a) = if oa_array a then bs (oa_name a) ++ bs ", ..." else bs (oa_name a).
Proof. unfold short_word, dots, strip. cbn [tk_name tk_list]. destruct (oa_array a); [reflexivity|apply app_nil_r]. Qed.

Lemma short_opt o : Forall (fun a => oa_optional a = true) o -> short_names true o = (map (fun a => short_word (strip a)) o, true).
Proof.
  induction 1 as [|a o H _ IH]; [reflexivity|]. cbn [short_names map]. rewrite H. cbn [andb negb orb]. rewrite IH, word_strip. reflexivity.
Qed.
Definition opened (o : list op_arg) : list str :=
  match map (fun a => short_word (strip a)) o with [] => [] | w :: r => (bs "[" ++ w) :: r end.
Lemma short_man m o : Forall (fun a => oa_optional a = false) m -> Forall (fun a => oa_optional a = true) o ->
  short_names false (m ++ o) = (map (fun a => short_word (strip a)) m ++ opened o, match o with [] => false | _ => true end).
Proof.
  intros M O. induction M as [|a m H _ IH].
  - cbn [app map]. destruct o as [|a o]; [reflexivity|]. inversion_clear O as [|? ? A O']. cbn [short_names]. rewrite A. cbn [andb negb orb].
    rewrite (short_opt o O'). unfold opened. cbn [map]. rewrite word_strip. reflexivity.
  - cbn [app short_names map]. rewrite H. cbn [andb negb orb]. rewrite IH, word_strip. reflexivity.
Qed.

Lemma join_cons a b l : join (a :: b :: l) = a ++ " "%char :: join (b :: l).
Proof. reflexivity. Qed.
Lemma add_last_cons x a b l : add_last x (a :: b :: l) = a :: add_last x (b :: l).
Proof. reflexivity. Qed.
Lemma join_add_last x : forall l, l <> [] -> join (add_last x l) = join l ++ x.
Proof.
  induction l as [|a [|b l] IH]; intros N; [destruct (N eq_refl)|reflexivity|].
  rewrite add_last_cons, join_cons, <- app_assoc. cbn [app]. rewrite <- IH by discriminate. destruct (add_last x (b :: l)) as [|c r] eqn:E; [|reflexivity].
  destruct l; discriminate E.
Qed.
Lemma add_last_app x l : forall m, l <> [] -> add_last x (m ++ l) = m ++ add_last x l.
Proof.
  induction m as [|a m IH]; intros N; [reflexivity|]. cbn [app]. rewrite <- (IH N). destruct (m ++ l) as [|b r] eqn:E; [|reflexivity].
  destruct m; [destruct (N E)|discriminate E].
Qed.
Lemma join_app_cons w : forall l m, join (m ++ w :: l) = join (m ++ [join (w :: l)]).
Proof.
  intros l. induction m as [|a m IH]; [reflexivity|]. cbn [app]. destruct (m ++ w :: l) as [|b r] eqn:E; [destruct m; discriminate E|].
  rewrite join_cons, IH. destruct (m ++ [join (w :: l)]) as [|c r2] eqn:E2; [destruct m; discriminate E2|reflexivity].
Qed.
Lemma join_first x w l : join ((x ++ w) :: l) = x ++ join (w :: l).
Proof. destruct l as [|b l]; [reflexivity|]. rewrite !join_cons, <- app_assoc. reflexivity. Qed.

Lemma short_sig m o : Forall (fun a => oa_optional a = false) m -> Forall (fun a => oa_optional a = true) o ->
  args_sig (m ++ o) = bracketed short_word (map strip m) (map strip o).
Proof.
  intros M O. unfold args_sig, bracketed. rewrite (short_man m o M O), !map_map. unfold opened. destruct o as [|a o]; [reflexivity|].
  cbn [map]. rewrite add_last_app by discriminate.
  set (ws := map (fun a => short_word (strip a)) m). set (w := short_word (strip a)). set (l := map (fun x => short_word (strip x)) o).
  destruct (add_last (bs "]") ((bs "[" ++ w) :: l)) as [|b r] eqn:E; [destruct l; discriminate E|].
  rewrite join_app_cons, <- E, join_add_last by discriminate. rewrite join_first, <- app_assoc. reflexivity.
Qed.

Lemma sig_takes n p : In (n, p) ops_list -> exists m o, takes p m o /\ args_sig (dc_args (doc_of p)) = bracketed short_word m o.
Proof.
  intros I. exists (mandatory p), (optional p). split; [exact (proj1 (Forall_forall _ _) ops_take _ I)|].
  destruct (args_split p) as [m [o [E [M [O [-> ->]]]]]]. rewrite E. apply short_sig; assumption.
Qed.

(* ---------------------------------------------------------------- the long signature *)
Lemma full_strip a : full_name a = (if oa_optional a then bs "[" else []) ++ long_word (strip a).
Proof.
  unfold full_name, long_word, dots, strip. cbn [tk_kind tk_name tk_list]. destruct (oa_array a), (oa_optional a); cbn [app]; rewrite <- ?app_assoc; reflexivity.
Qed.
Lemma long_sig name m o : Forall (fun a => oa_optional a = false) m -> Forall (fun a => oa_optional a = true) o ->
  full_sig name (m ++ o) = name ++ bs " " ++ join (map long_word (map strip m) ++ map (fun a => bs "[" ++ long_word a) (map strip o)).
Proof.
  intros M O. unfold full_sig. do 2 f_equal. rewrite map_app, !map_map. f_equal. f_equal; apply map_ext_in; intros a I; rewrite full_strip.
  - rewrite (proj1 (Forall_forall _ _) M a I). reflexivity.
  - rewrite (proj1 (Forall_forall _ _) O a I). reflexivity.
Qed.

(* ---------------------------------------------------------------- what an opcode takes is unique *)
Lemma takes_unique p m o m' o' : takes p m o -> takes p m' o' -> m = m' /\ o = o'.
Proof.
  intros T U.
  assert (A : m = m' \/ m = m' ++ o') by (apply U, T; left; reflexivity).
  assert (B : m ++ o = m' \/ m ++ o = m' ++ o') by (apply U, T; right; reflexivity).
  assert (C : m' = m \/ m' = m ++ o) by (apply T, U; left; reflexivity).
  assert (D : m' ++ o' = m \/ m' ++ o' = m ++ o) by (apply T, U; right; reflexivity).
  assert (M : m = m').
  { destruct A as [A|A]; [exact A|]. destruct C as [C|C]; [symmetry; exact C|].
    pose proof (f_equal (@length _) A) as LA. pose proof (f_equal (@length _) C) as LC. rewrite app_length in LA, LC.
    destruct o as [|x o]; [rewrite C, app_nil_r; reflexivity|]. cbn [length] in LC. lia. }
  split; [exact M|]. subst m'. clear A C. destruct D as [D|D].
  - rewrite <- app_nil_r in D. apply app_inv_head in D. subst o'. destruct B as [B|B]; [rewrite <- (app_nil_r m) in B at 2|]; apply app_inv_head in B; exact B.
  - apply app_inv_head in D. symmetry. exact D.
Qed.

(* ---------------------------------------------------------------- the inserted text *)
Lemma ops_insert : forallb (fun x => seqb (filled (insert_text (bs (fst x)) (dc_args (doc_of (snd x)))))
    match mandatory (snd x) ++ optional (snd x) with [] => [] | l => bs (fst x) ++ bs " " ++ join (map (fun a => bs (tk_name a)) l) end) ops_list = true.
Proof. vm_compute. reflexivity. Qed.
Lemma ops_stops : forallb (fun x => if list_eq_dec Nat.eq_dec (stops (insert_text (bs (fst x)) (dc_args (doc_of (snd x)))))
    (seq 1 (length (mandatory (snd x) ++ optional (snd x)))) then true else false) ops_list = true.
Proof. vm_compute. reflexivity. Qed.
Lemma insert_takes n p m o : In (n, p) ops_list -> takes p m o ->
  filled (insert_text (bs n) (dc_args (doc_of p))) = match m ++ o with [] => [] | l => bs n ++ bs " " ++ join (map (fun a => bs (tk_name a)) l) end /\
  stops (insert_text (bs n) (dc_args (doc_of p))) = seq 1 (length (m ++ o)).
Proof.
  intros I T. destruct (takes_unique p m o _ _ T (proj1 (Forall_forall _ _) ops_take _ I)) as [-> ->]. cbn [snd]. split.
  - pose proof (proj1 (forallb_forall _ _) ops_insert _ I) as H. apply seqb_eq in H. exact H.
  - pose proof (proj1 (forallb_forall _ _) ops_stops _ I) as H. cbn [fst snd] in H. destruct (list_eq_dec _ _ _) as [E|] in H; [exact E|discriminate H].
Qed.

(* ---------------------------------------------------------------- brackets *)
Lemma ops_close : forallb (fun x => closes 0 (args_sig (dc_args (doc_of (snd x))))) ops_list = true.
Proof. vm_compute. reflexivity. Qed.
Lemma ops_open : forallb (fun x => Bool.eqb (closes 0 (full_sig (bs (fst x)) (dc_args (doc_of (snd x))))) (match optional (snd x) with [] => true | _ => false end)) ops_list = true.
Proof. vm_compute. reflexivity. Qed.
