From Verif Require Import Base Expr Flow Linter Compiler Fields VmOps RenameSpec Vm AliasSpec.

Lemma seqb_congr a b c d : (a = b <-> c = d) -> seqb a b = seqb c d.
Proof.
  intros H. destruct (seqb a b) eqn:E; destruct (seqb c d) eqn:E'; try reflexivity; exfalso.
  - apply seqb_eq in E. apply H in E. apply seqb_eq in E. congruence.
  - apply seqb_eq in E'. apply H in E'. apply seqb_eq in E'. congruence.
Qed.

Section apart.
Variable f : str -> str.
Variable P : str -> Prop.
Hypothesis Inj : forall a b, P a -> P b -> f a = f b -> a = b.

Definition inside (l : listing) : Prop := forall n, name_of l n -> P n.

Lemma same_name a b : P a -> P b -> seqb (f a) (f b) = seqb a b.
Proof. intros A B. apply seqb_congr. split; [apply Inj; assumption|congruence]. Qed.

Lemma inside_cons e l : inside (e :: l) -> (forall n, e = LabelExpr n \/ In n (uses e) -> P n) /\ inside l.
Proof.
  intros H. split.
  - intros n U. apply H. exists e. split; [left; reflexivity|exact U].
  - intros n (e' & I & U). apply H. exists e'. split; [right; exact I|exact U].
Qed.
Lemma inside_nil : inside [].
Proof. intros n (e & [] & _). Qed.

Lemma uses_rename e : uses (rename_expr f e) = map f (uses e).
Proof. destruct e; try reflexivity; try (destruct o; reflexivity). Qed.
Lemma labels_rename e : labels_of (rename_expr f e) = option_map (map f) (labels_of e).
Proof. destruct e; try reflexivity; try (destruct o; reflexivity). Qed.
Lemma nop_rename e : is_nop (rename_expr f e) = is_nop e.
Proof. destruct e; reflexivity. Qed.
Lemma uncond_rename e : is_uncond (rename_expr f e) = is_uncond e.
Proof. destruct e; reflexivity. Qed.
Lemma terminator_rename e : is_terminator (rename_expr f e) = is_terminator e.
Proof. destruct e; reflexivity. Qed.

(* maps from names *)
Definition rekey (m : imap) : imap := map (fun p => (f (fst p), snd p)) m.
Definition keyed (m : imap) : Prop := Forall (fun p => P (fst p)) m.

Lemma append_rekey m k v : keyed m -> P k ->
  imap_append (rekey m) (f k) v = rekey (imap_append m k v) /\ keyed (imap_append m k v).
Proof.
  intros K Pk. induction K as [|[k' vs] m H K [IH IH']]; [split; [reflexivity|repeat constructor; exact Pk]|].
  cbn [imap_append rekey map fst snd] in *. rewrite same_name by assumption.
  destruct (seqb k k'); cbn [rekey map fst snd].
  - split; [reflexivity|constructor; assumption].
  - fold (rekey m). rewrite IH. split; [reflexivity|constructor; assumption].
Qed.
Lemma get_rekey m k : keyed m -> P k -> imap_get (rekey m) (f k) = imap_get m k.
Proof.
  intros K Pk. induction K as [|[k' vs] m H K IH]; [reflexivity|].
  cbn [imap_get rekey map fst snd] in *. rewrite same_name by assumption. destruct (seqb k k'); [reflexivity|exact IH].
Qed.
Lemma fold_rekey i ns : forall m, keyed m -> Forall P ns ->
  fold_left (fun m n => imap_append m n i) (map f ns) (rekey m) = rekey (fold_left (fun m n => imap_append m n i) ns m) /\
  keyed (fold_left (fun m n => imap_append m n i) ns m).
Proof.
  induction ns as [|n ns IH]; intros m K F; [split; [reflexivity|exact K]|]. inversion F as [|? ? Pn F']; subst. cbn [map fold_left].
  destruct (append_rekey m n i K Pn) as [-> K']. apply IH; assumption.
Qed.

Lemma users_rekey l : forall i m, keyed m -> inside l ->
  label_users_from i (rekey m) (map (rename_expr f) l) = rekey (label_users_from i m l) /\ keyed (label_users_from i m l).
Proof.
  induction l as [|e l IH]; intros i m K N; [split; [reflexivity|exact K]|].
  apply inside_cons in N as [Ne N]. cbn [label_users_from map]. rewrite labels_rename.
  destruct (labels_of e) as [ns|] eqn:E; cbn [option_map]; [|apply IH; assumption].
  destruct (fold_rekey i ns m K) as [-> K']; [|apply IH; assumption].
  apply Forall_forall. intros n I. apply Ne. right. unfold uses. rewrite E. exact I.
Qed.
Lemma all_rekey l : forall i m, keyed m -> inside l ->
  all_labels_from i (rekey m) (map (rename_expr f) l) = rekey (all_labels_from i m l) /\ keyed (all_labels_from i m l).
Proof.
  induction l as [|e l IH]; intros i m K N; [split; [reflexivity|exact K]|].
  apply inside_cons in N as [Ne N]. cbn [all_labels_from map].
  destruct e; try (apply IH; assumption).
  cbn [rename_expr]. destruct (append_rekey m Name_ i K) as [-> K']; [apply Ne; left; reflexivity|]. apply IH; assumption.
Qed.
Lemma get_users l : inside l -> get_labels_users (map (rename_expr f) l) = rekey (get_labels_users l) /\ keyed (get_labels_users l).
Proof. intros N. apply (users_rekey l 0 []); [constructor|exact N]. Qed.
Lemma get_all l : inside l -> get_all_labels (map (rename_expr f) l) = rekey (get_all_labels l) /\ keyed (get_all_labels l).
Proof. intros N. apply (all_rekey l 0 []); [constructor|exact N]. Qed.

Lemma flat_rekey {A} (g : A -> A) (h h' : str * list nat -> list A) m :
  keyed m -> (forall k vs, P k -> h' (f k, vs) = map g (h (k, vs))) -> flat_map h' (rekey m) = map g (flat_map h m).
Proof.
  intros K H. induction K as [|[k vs] m Pk K IH]; [reflexivity|].
  cbn [rekey map flat_map fst snd] in *. rewrite map_app, H by exact Pk. f_equal. exact IH.
Qed.

Lemma duplicate_rename l : inside l -> run_duplicate_labels (map (rename_expr f) l) = map (rename_error f) (run_duplicate_labels l).
Proof.
  intros N. unfold run_duplicate_labels. destruct (get_all l N) as [-> K]. apply flat_rekey; [exact K|].
  intros k vs Pk. destruct (1 <? length vs); [|reflexivity]. rewrite map_map. reflexivity.
Qed.
Lemma unused_rename l : inside l -> run_unused_labels (map (rename_expr f) l) = map (rename_error f) (run_unused_labels l).
Proof.
  intros N. unfold run_unused_labels. destruct (get_all l N) as [-> K]. destruct (get_users l N) as [-> K']. apply flat_rekey; [exact K|].
  intros k vs Pk. rewrite get_rekey by assumption. destruct (_ =? 0); [|reflexivity]. rewrite map_map. reflexivity.
Qed.
Lemma red_unused_rename l : inside l -> red_unused_labels (map (rename_expr f) l) = map (rename_redundant f) (red_unused_labels l).
Proof.
  intros N. unfold red_unused_labels. destruct (get_all l N) as [-> K]. destruct (get_users l N) as [-> K']. apply flat_rekey; [exact K|].
  intros k vs Pk. rewrite get_rekey by assumption. destruct (_ =? 0); [|reflexivity]. rewrite map_map. reflexivity.
Qed.
Lemma unreachable_rename m l : keyed m -> forall i b, inside l ->
  unreachable_from (rekey m) i b (map (rename_expr f) l) = map (rename_error f) (unreachable_from m i b l).
Proof.
  intros K. induction l as [|e l IH]; intros i b N; [reflexivity|]. apply inside_cons in N as [Ne N].
  cbn [unreachable_from map]. destruct b; [|rewrite uncond_rename; apply IH; exact N].
  destruct e; cbn [rename_expr is_nop map rename_error]; rewrite ?IH by exact N; try reflexivity.
  rewrite get_rekey by (try exact K; apply Ne; left; reflexivity). destruct (0 <? _); reflexivity.
Qed.
Lemma next_rename n l : P n -> inside l -> next_label_is (f n) (map (rename_expr f) l) = next_label_is n l.
Proof.
  intros Pn. induction l as [|e l IH]; intros N; [reflexivity|]. apply inside_cons in N as [Ne N].
  cbn [next_label_is map]. destruct e; cbn [rename_expr is_nop]; try reflexivity; try (apply IH; exact N).
  apply same_name; [apply Ne; left; reflexivity|exact Pn].
Qed.
Lemma before_rename l : forall i, inside l -> b_before_label_from i (map (rename_expr f) l) = b_before_label_from i l.
Proof.
  induction l as [|e l IH]; intros i N; [reflexivity|]. apply inside_cons in N as [Ne N].
  cbn [b_before_label_from map]. rewrite IH by exact N. f_equal.
  destruct l as [|e' l]; [reflexivity|]. cbn [map]. destruct e; try reflexivity.
  cbn [rename_expr]. change (rename_expr f e' :: map (rename_expr f) l) with (map (rename_expr f) (e' :: l)).
  rewrite next_rename; [reflexivity|apply Ne; right; left; reflexivity|exact N].
Qed.
Lemma missing_rename l : inside l -> run_missing (map (rename_expr f) l) = map (rename_error f) (run_missing l).
Proof.
  intros N. unfold run_missing. destruct (get_all l N) as [-> K]. destruct (get_users l N) as [-> K']. apply flat_rekey; [exact K'|].
  intros k vs Pk.
  assert (E : existsb (fun p => seqb (f k) (fst p)) (rekey (get_all_labels l)) = existsb (fun p => seqb k (fst p)) (get_all_labels l)).
  { induction K as [|[k' ws] m H K IH]; [reflexivity|]. cbn [rekey map existsb fst] in *. rewrite same_name by assumption. f_equal. exact IH. }
  cbv beta iota. rewrite E. clear E. destruct (existsb (fun p => seqb k (fst p)) (get_all_labels l)); [reflexivity|]. rewrite map_map. reflexivity.
Qed.

Lemma inside_nth l i e : inside l -> nth_error l i = Some e -> forall n, e = LabelExpr n \/ In n (uses e) -> P n.
Proof. intros N E n U. apply N. exists e. split; [exact (nth_error_In _ _ E)|exact U]. Qed.

Lemma back_rename l n : P n -> inside l -> forall j, find_back (map (rename_expr f) l) (f n) j = find_back l n j.
Proof.
  intros Pn N. induction j as [|j IH]; [reflexivity|]. cbn [find_back]. rewrite nth_error_map.
  destruct (nth_error l j) as [e|] eqn:E; cbn [option_map]; [|exact IH].
  destruct e; cbn [rename_expr]; try exact IH.
  rewrite same_name; [rewrite IH; reflexivity| |exact Pn]. apply (inside_nth l j _ N E). left. reflexivity.
Qed.
Lemma existsb_ext_in {A} (g h : A -> bool) l : (forall x, In x l -> g x = h x) -> existsb g l = existsb h l.
Proof.
  induction l as [|x l IH]; intros H; [reflexivity|]. cbn [existsb]. rewrite H by (left; reflexivity).
  rewrite IH; [reflexivity|]. intros y I. apply H. right. exact I.
Qed.
Lemma existsb_map {A B} (g : B -> bool) (h : A -> B) l : existsb g (map h l) = existsb (fun x => g (h x)) l.
Proof. induction l as [|x l IH]; [reflexivity|]. cbn [map existsb]. rewrite IH. reflexivity. Qed.
Lemma escape_rename l a b : inside l -> can_escape (map (rename_expr f) l) a b = can_escape l a b.
Proof.
  intros N. unfold can_escape. destruct (get_all l N) as [-> K]. apply existsb_ext_in. intros i _.
  rewrite nth_error_map. destruct (nth_error l i) as [e|] eqn:E; cbn [option_map]; [|reflexivity].
  rewrite labels_rename, terminator_rename. destruct (labels_of e) as [ns|] eqn:L; cbn [option_map]; [|reflexivity].
  rewrite existsb_map. apply existsb_ext_in. intros n I. rewrite get_rekey; [reflexivity|exact K|].
  apply (inside_nth l i _ N E). right. unfold uses. rewrite L. exact I.
Qed.
Lemma loops_rename l : inside l -> run_loops (map (rename_expr f) l) = map (rename_error f) (run_loops l).
Proof.
  intros N. unfold run_loops. rewrite map_length. generalize (seq 0 (length l)). intros is.
  induction is as [|i is IH]; [reflexivity|]. cbn [flat_map]. rewrite map_app, IH. f_equal.
  destruct (i =? 0); [reflexivity|]. rewrite nth_error_map. destruct (nth_error l i) as [e|] eqn:E; cbn [option_map]; [|reflexivity].
  destruct e; cbn [rename_expr]; try reflexivity.
  rewrite back_rename; [|apply (inside_nth l i _ N E); right; left; reflexivity|exact N].
  destruct (find_back _ _ _); [|reflexivity]. rewrite escape_rename by exact N. destruct (can_escape _ _ _); reflexivity.
Qed.
Lemma pragma_rename l : forall i b, pragma_from i b (map (rename_expr f) l) = map (rename_error f) (pragma_from i b l).
Proof.
  induction l as [|e l IH]; intros i b; [reflexivity|]. cbn [pragma_from map].
  destruct e; cbn [rename_expr is_nop]; rewrite ?map_app, ?IH; try reflexivity. destruct b; reflexivity.
Qed.

Lemma lint_rename l : inside l -> lint (map (rename_expr f) l) = map (rename_error f) (lint l).
Proof.
  intros N. unfold lint. rewrite !map_app, duplicate_rename, unused_rename, missing_rename, loops_rename by exact N.
  unfold run_pragma. rewrite pragma_rename. unfold run_unreachable. destruct (get_users l N) as [-> K].
  rewrite unreachable_rename by assumption. unfold run_b_before_label. rewrite before_rename by exact N. rewrite map_map. reflexivity.
Qed.
Lemma redundant_rename l : inside l -> lint_redundant (map (rename_expr f) l) = map (rename_redundant f) (lint_redundant l).
Proof.
  intros N. unfold lint_redundant, red_b_before_label. rewrite map_app, red_unused_rename, before_rename, map_map by exact N. reflexivity.
Qed.

(* the optimizer *)
Lemma inside_sub l l' : inside l -> (forall e, In e l' -> In e l) -> inside l'.
Proof. intros N H n (e & I & U). apply N. exists e. split; [apply H; exact I|exact U]. Qed.

Lemma ops_rename l : forall b, remove_ops_from b (map (rename_expr f) l) = map (rename_expr f) (remove_ops_from b l).
Proof.
  induction l as [|e l IH]; intros b; [reflexivity|]. cbn [remove_ops_from map]. destruct b.
  - destruct e; cbn [rename_expr is_nop map]; rewrite ?IH; reflexivity.
  - rewrite uncond_rename, IH. reflexivity.
Qed.
Lemma ops_sub l : forall b e, In e (remove_ops_from b l) -> In e l.
Proof.
  induction l as [|x l IH]; intros b e I; [destruct I|]. cbn [remove_ops_from] in I. destruct b.
  - assert (D : forall b, In e (x :: remove_ops_from b l) -> In e (x :: l)).
    { intros b' [H|H]; [left; exact H|right; exact (IH _ _ H)]. }
    destruct x; cbn [is_nop] in I; try (exact (D _ I)); right; exact (IH _ _ I).
  - destruct I as [I|I]; [left; exact I|right; exact (IH _ _ I)].
Qed.
Lemma b_rename l : inside l -> remove_b_just_before_its_target_label (map (rename_expr f) l) = map (rename_expr f) (remove_b_just_before_its_target_label l).
Proof.
  induction l as [|e l IH]; intros N; [reflexivity|]. apply inside_cons in N as [Ne N].
  cbn [remove_b_just_before_its_target_label map]. rewrite map_app, IH by exact N. f_equal.
  destruct l as [|e' l]; [reflexivity|]. cbn [map]. destruct e; try reflexivity.
  cbn [rename_expr]. change (rename_expr f e' :: map (rename_expr f) l) with (map (rename_expr f) (e' :: l)).
  rewrite next_rename; [|apply Ne; right; left; reflexivity|exact N]. destruct (next_label_is _ _); reflexivity.
Qed.
Lemma followed_rename l : followed_by_retsub_or_proto (map (rename_expr f) l) = followed_by_retsub_or_proto l.
Proof.
  induction l as [|e l IH]; [reflexivity|]. cbn [followed_by_retsub_or_proto map].
  destruct e; cbn [rename_expr is_nop]; rewrite ?IH; reflexivity.
Qed.
Lemma mem_rename n ns : P n -> Forall P ns -> mem (f n) (map f ns) = mem n ns.
Proof.
  intros Pn F. unfold mem. rewrite existsb_map. apply existsb_ext_in. intros x I. 
  apply same_name; [exact Pn|]. rewrite Forall_forall in F. exact (F _ I).
Qed.
Lemma unused_from_rename ns l : Forall P ns -> forall prev, (forall n, prev = Some (LabelExpr n) -> P n) -> inside l ->
  remove_unused_from (map f ns) (option_map (rename_expr f) prev) (map (rename_expr f) l) = map (rename_expr f) (remove_unused_from ns prev l).
Proof.
  intros F. induction l as [|e l IH]; intros prev Hp N; [reflexivity|]. apply inside_cons in N as [Ne N].
  assert (G : forall g, g = e -> remove_unused_from (map f ns) (Some (rename_expr f g)) (map (rename_expr f) l) = map (rename_expr f) (remove_unused_from ns (Some e) l)).
  { intros g ->. apply (IH (Some e)); [|exact N]. intros n [= ->]. apply Ne. left. reflexivity. }
  specialize (G e eq_refl). specialize (IH prev Hp N).
  cbn [remove_unused_from map].
  destruct e; cbn [rename_expr map] in *; rewrite ?G; try reflexivity.
  - destruct prev as [p|]; [|reflexivity].
    destruct p; cbn [option_map rename_expr] in *; try reflexivity.
    rewrite mem_rename; [|apply Hp; reflexivity|exact F]. destruct (mem _ _); cbn [map]; [reflexivity|exact IH].
  - rewrite mem_rename, followed_rename; [|apply Ne; left; reflexivity|exact F].
    destruct (_ || _); cbn [map]; [reflexivity|exact IH].
Qed.
Lemma unused_sub ns l : forall prev e, In e (remove_unused_from ns prev l) -> In e l.
Proof.
  induction l as [|x l IH]; intros prev e I; [destruct I|]. cbn [remove_unused_from] in I.
  assert (D : forall b, In e (x :: remove_unused_from ns b l) -> In e (x :: l)).
  { intros b' [H|H]; [left; exact H|right; exact (IH _ _ H)]. }
  destruct x; try (exact (D _ I)).
  - destruct prev as [p|]; [|right; exact (IH _ _ I)]. destruct p; try (right; exact (IH _ _ I)).
    destruct (mem _ _); [exact (D _ I)|right; exact (IH _ _ I)].
  - destruct (_ || _); [exact (D _ I)|right; exact (IH _ _ I)].
Qed.
Lemma used_rename l : used_names (map (rename_expr f) l) = map f (used_names l).
Proof.
  unfold used_names. induction l as [|e l IH]; [reflexivity|]. cbn [map flat_map]. rewrite map_app, uses_rename, IH. reflexivity.
Qed.
Lemma merge_rename l : forall prev, merge_labels_from (option_map (rename_expr f) prev) (map (rename_expr f) l) = map (rename_expr f) (merge_labels_from prev l).
Proof.
  induction l as [|e l IH]; intros prev; [reflexivity|]. cbn [merge_labels_from map]. rewrite nop_rename.
  replace (if is_nop e then option_map (rename_expr f) prev else Some (rename_expr f e)) with (option_map (rename_expr f) (if is_nop e then prev else Some e)) by (destruct (is_nop e); reflexivity).
  rewrite IH. destruct e; try reflexivity. destruct prev as [p|]; [|reflexivity]. destruct p; reflexivity.
Qed.
Lemma optimize_rename l : inside l -> optimize (map (rename_expr f) l) = map (rename_expr f) (optimize l).
Proof.
  intros N. unfold optimize, remove_unused, remove_ops_after_unconditional_branch, merge_labels. rewrite used_rename.
  assert (F : Forall P (used_names l)).
  { apply Forall_forall. intros n I. apply in_flat_map in I as (e & I & U). apply N. exists e. split; [exact I|right; exact U]. }
  pose proof (unused_from_rename (used_names l) l F None ltac:(discriminate) N) as E. cbn [option_map] in E. rewrite E. clear E.
  rewrite ops_rename, b_rename; [apply (merge_rename _ None)|].
  apply (inside_sub l); [exact N|]. intros e I. apply ops_sub in I. exact (unused_sub _ _ _ _ I).
Qed.

(* ---------------------------------------------------------------- the machine *)
Lemma find_rename l n : P n -> inside l -> find (map (rename_expr f) l) (f n) = find l n.
Proof.
  intros Pn. unfold find. generalize (@None nat). generalize 0. induction l as [|e l IH]; intros i acc N; [reflexivity|].
  apply inside_cons in N as [Ne N]. cbn [find_from map].
  destruct e; cbn [rename_expr]; try (apply IH; exact N).
  rewrite same_name; [apply IH; exact N|apply Ne; left; reflexivity|exact Pn].
Qed.

Notation ab := (alike_branches f).
Notation am := (alike_machines f).

Lemma ab_name n m a b : shown_name f n m -> ab a b -> ab (set_name n a) (set_name m b).
Proof. intros N []. constructor; assumption. Qed.
Lemma ab_set_line x a b : ab a b -> ab (set_line x a) (set_line x b).
Proof. intros []. constructor; try assumption. reflexivity. Qed.
Lemma ab_set_stack x a b : ab a b -> ab (set_stack x a) (set_stack x b).
Proof. intros []. constructor; try assumption. reflexivity. Qed.
Lemma ab_set_frames x y a b : Forall2 (alike_frames f) x y -> ab a b -> ab (set_frames x a) (set_frames y b).
Proof. intros F []. constructor; assumption. Qed.
Lemma ab_exit a b : ab a b -> ab (exit_branch a) (exit_branch b).
Proof. intros H. apply ab_name; [right; split; [reflexivity|right; reflexivity]|apply ab_set_line, H]. Qed.

Lemma update_alike bps a b t : ab a b -> update_bps bps b t = update_bps bps a t.
Proof. intros H. unfold update_bps. rewrite (ab_id _ _ _ H), (ab_line _ _ _ H). reflexivity. Qed.
Lemma skip_from_alike ops : forall i bps a b t, ab a b ->
  exists b', skip_from (map (rename_expr f) ops) i bps b t = (b', snd (fst (skip_from ops i bps a t)), snd (skip_from ops i bps a t)) /\ ab (fst (fst (skip_from ops i bps a t))) b'.
Proof.
  induction ops as [|e ops IH]; intros i bps a b t H; [exists b; split; [reflexivity|exact H]|].
  cbn [skip_from map]. rewrite nop_rename.
  assert (H' : ab (match e with LabelExpr n => set_name n a | _ => a end) (match rename_expr f e with LabelExpr n => set_name n b | _ => b end)).
  { destruct e; try exact H. apply ab_name; [left; reflexivity|exact H]. }
  set (a1 := match e with LabelExpr n => set_name n a | _ => a end) in *.
  set (b1 := match rename_expr f e with LabelExpr n => set_name n b | _ => b end) in *. clearbody a1 b1.
  destruct (is_nop e); [|exists b1; split; [reflexivity|exact H']].
  rewrite (update_alike bps (set_line (Some (S i)) a1)) by (apply ab_set_line, H'). apply IH, ab_set_line, H'.
Qed.
Lemma skip_nops_alike l bps a b t : ab a b ->
  exists b', skip_nops (map (rename_expr f) l) bps b t = (b', snd (fst (skip_nops l bps a t)), snd (skip_nops l bps a t)) /\ ab (fst (fst (skip_nops l bps a t))) b'.
Proof.
  intros H. unfold skip_nops. rewrite (ab_line _ _ _ H). destruct (b_line a) as [i|]; [|exists b; split; [reflexivity|exact H]].
  rewrite skipn_map. apply skip_from_alike, H.
Qed.

Lemma Forall2_at {A B} (R : A -> B -> Prop) l m : Forall2 R l m -> forall k,
  match nth_error l k, nth_error m k with Some a, Some b => R a b | None, None => True | _, _ => False end.
Proof. intros F. induction F as [|a b l m H F IH]; intros [|k]; cbn; try exact I; [exact H|apply IH]. Qed.
Lemma Forall2_long {A B} (R : A -> B -> Prop) l m : Forall2 R l m -> length m = length l.
Proof. intros F. induction F; cbn; congruence. Qed.
Lemma Forall2_upd {A B} (R : A -> B -> Prop) l m a b : R a b -> Forall2 R l m -> forall k, Forall2 R (upd_nth k (fun _ => a) l) (upd_nth k (fun _ => b) m).
Proof. intros Rab F. induction F as [|x y l m H F IH]; intros [|k]; cbn; constructor; auto. Qed.

Lemma am_put k a b v w : ab a b -> am v w -> am (put k a v) (put k b w).
Proof. intros H []. constructor; try assumption. apply Forall2_upd; assumption. Qed.
Lemma am_set_trig t v w : am v w -> am (set_trig t v) (set_trig t w).
Proof. intros []. constructor; try assumption. reflexivity. Qed.
Lemma am_set_branch t v w : am v w -> am (set_branch t v) (set_branch t w).
Proof. intros []. constructor; try assumption. reflexivity. Qed.
Lemma am_set_current t v w : am v w -> am (set_current t v) (set_current t w).
Proof. intros []. constructor; try assumption. reflexivity. Qed.
Lemma am_set_error t v w : am v w -> am (set_error t v) (set_error t w).
Proof. intros []. constructor; try assumption. reflexivity. Qed.
Lemma am_set_bps t v w : am v w -> am (set_bps t v) (set_bps t w).
Proof. intros []. constructor; try assumption. reflexivity. Qed.
Lemma am_set_scratch t v w : am v w -> am (set_scratch t v) (set_scratch t w).
Proof. intros []. constructor; try assumption. reflexivity. Qed.

Lemma skip_loop_alike fuel : forall begin v w, am v w -> alike_outcomes f (skip_loop fuel begin v) (skip_loop fuel begin w).
Proof.
  induction fuel as [|fuel IH]; intros begin v w H; [exact I|]. cbn [skip_loop].
  rewrite (am_current _ _ _ H). pose proof (Forall2_at _ _ _ (am_branches _ _ _ H) (v_current v)) as A.
  destruct (nth_error (v_branches v) (v_current v)) as [a|], (nth_error (v_branches w) (v_current v)) as [b|]; try contradiction; [|apply am_set_branch, H].
  rewrite (ab_line _ _ _ A). destruct (b_line a) as [i|].
  - rewrite (am_listing _ _ _ H), (am_bps _ _ _ H), (am_trig _ _ _ H).
    destruct (skip_nops_alike (v_listing v) (v_bps v) a b (v_trig v) A) as (b' & -> & A').
    destruct (skip_nops (v_listing v) (v_bps v) a (v_trig v)) as [[a' t] ok]. cbn [fst snd] in A' |- *.
    assert (H' : am (set_trig t (put (v_current v) a' v)) (set_trig t (put (v_current v) b' w))) by (apply am_set_trig, am_put; assumption).
    rewrite (am_current _ _ _ H'). destruct ok; [apply am_set_branch, H'|]. apply IH, am_put; [apply ab_exit, A'|exact H'].
  - rewrite (Forall2_long _ _ _ (am_branches _ _ _ H)).
    destruct (_ =? begin); [apply am_set_branch, am_set_current, H|apply IH, am_set_current, H].
Qed.
Lemma vm_skip_alike v w : am v w -> alike_outcomes f (vm_skip_nops v) (vm_skip_nops w).
Proof.
  intros H. unfold vm_skip_nops. rewrite (Forall2_long _ _ _ (am_branches _ _ _ H)), (am_current _ _ _ H). apply skip_loop_alike, H.
Qed.

Lemma skip_loop_listing fuel : forall begin v v', skip_loop fuel begin v = Ret v' -> v_listing v' = v_listing v.
Proof.
  induction fuel as [|fuel IH]; intros begin v v' E; [discriminate|]. cbn [skip_loop] in E.
  destruct (nth_error (v_branches v) (v_current v)) as [b|]; [|injection E as <-; reflexivity].
  destruct (b_line b).
  - destruct (skip_nops _ _ b _) as [[b' t] [|]]; [injection E as <-; reflexivity|]. apply IH in E. exact E.
  - destruct (_ =? begin); [injection E as <-; reflexivity|]. apply IH in E. exact E.
Qed.
Lemma vm_skip_listing v v' : vm_skip_nops v = Ret v' -> v_listing v' = v_listing v.
Proof. apply skip_loop_listing. Qed.

(* two computations with the same outcome on machines that differ in the names only *)
Definition Like {A B} (R : A -> B -> Prop) (m : M A) (m' : M B) : Prop :=
  forall k v w, am v w -> inside (v_listing v) ->
    am (fst (m k v)) (fst (m' k w)) /\ v_listing (fst (m k v)) = v_listing v /\
    match snd (m k v), snd (m' k w) with
    | Ret x, Ret y => R x y
    | Panic, Panic => True
    | OutOfFuel, OutOfFuel => True
    | _, _ => False
    end.

Lemma Like_bind {A B C D} (R : A -> B -> Prop) (Q : C -> D -> Prop) (m : M A) (m' : M B) (g : A -> M C) (g' : B -> M D) :
  Like R m m' -> (forall x y, R x y -> Like Q (g x) (g' y)) -> Like Q (bind m g) (bind m' g').
Proof.
  intros Lm Lg k v w H N. unfold bind. destruct (Lm k v w H N) as (H1 & N1 & O).
  destruct (m k v) as [v1 r], (m' k w) as [w1 r']. cbn [fst snd] in *.
  destruct r as [x| |], r' as [y| |]; try contradiction; [|split; [exact H1|split; [exact N1|exact I]]..].
  rewrite <- N1 in N |- *. exact (Lg x y O k v1 w1 H1 N).
Qed.
Lemma Like_ret {A} (x : A) : Like eq (ret x) (ret x).
Proof. intros k v w H N. split; [exact H|]. split; [reflexivity|]. cbn; auto. Qed.
Lemma Like_throw {A} : Like (A := A) eq throw throw.
Proof. intros k v w H N. split; [exact H|]. split; [reflexivity|]. cbn; auto. Qed.
Lemma Like_diverge {A} : Like (A := A) eq diverge diverge.
Proof. intros k v w H N. split; [exact H|]. split; [reflexivity|]. cbn; auto. Qed.
Lemma Like_lift {A} (r : res A) : Like eq (lift r) (lift r).
Proof. intros k v w H N. split; [exact H|]. split; [reflexivity|]. cbn. destruct r; auto. Qed.
Lemma Like_get : Like ab get_b get_b.
Proof.
  intros k v w H N. unfold get_b. pose proof (Forall2_at _ _ _ (am_branches _ _ _ H) k) as A.
  destruct (nth_error (v_branches v) k), (nth_error (v_branches w) k); try contradiction; (split; [exact H|]; split; [reflexivity|]; first [exact A|exact I]).
Qed.
Lemma Like_mod g g' : (forall a b, ab a b -> ab (g a) (g' b)) -> Like eq (mod_b g) (mod_b g').
Proof.
  intros G k v w H N. unfold mod_b. pose proof (Forall2_at _ _ _ (am_branches _ _ _ H) k) as A.
  destruct (nth_error (v_branches v) k), (nth_error (v_branches w) k); try contradiction; cbn [fst snd].
  - split; [apply am_put; [apply G, A|exact H]|]. split; reflexivity.
  - split; [exact H|]. split; [reflexivity|exact I].
Qed.
Lemma Like_next : Like eq next_line next_line.
Proof. apply Like_mod. intros a b H. rewrite (ab_line _ _ _ H). apply ab_set_line, H. Qed.
Lemma Like_push x : Like eq (push x) (push x).
Proof. apply Like_mod. intros a b H. rewrite (ab_stack _ _ _ H). apply ab_set_stack, H. Qed.
Lemma Like_pop t : Like eq (pop t) (pop t).
Proof.
  eapply Like_bind; [apply Like_get|]. intros a b H. rewrite (ab_stack _ _ _ H). destruct (b_stack a) as [|x r]; [apply Like_throw|].
  destruct (accepts t x); [|apply Like_throw].
  eapply Like_bind; [apply Like_mod; intros ? ?; apply ab_set_stack|]. intros _ _ _. apply Like_ret.
Qed.
Lemma Like_prepare x y : Like eq (prepare x y) (prepare x y).
Proof.
  eapply Like_bind; [apply Like_get|]. intros a b H. pose proof (ab_frames _ _ _ H) as F.
  destruct F as [|g h gs hs G F]; [apply Like_throw|]. apply Like_mod. intros ? ?. apply ab_set_frames.
  constructor; [|exact F]. destruct G as (-> & _ & _ & -> & Gn). repeat split. exact Gn.
Qed.
Lemma Like_item n : Like eq (item n) (item n).
Proof. eapply Like_bind; [apply Like_get|]. intros a b H. rewrite (ab_stack _ _ _ H). apply Like_lift. Qed.
Lemma Like_replace n x : Like eq (replace n x) (replace n x).
Proof.
  eapply Like_bind; [apply Like_get|]. intros a b H. rewrite (ab_stack _ _ _ H). destruct (_ <? _); [|apply Like_throw].
  apply Like_mod. intros ? ?. apply ab_set_stack.
Qed.
Lemma Like_scratch n : Like eq (scratch n) (scratch n).
Proof.
  intros k v w H N. unfold scratch. cbn [fst snd]. rewrite (am_scratch _ _ _ H). split; [exact H|]. split; [reflexivity|].
  destruct (index _ _); auto.
Qed.
Lemma Like_store i x : Like eq (store i x) (store i x).
Proof.
  unfold store. destruct (v_src i) as [[n| | | |]|]; try apply Like_ret.
  intros k v w H N. rewrite (am_scratch _ _ _ H). destruct (_ <? _); cbn [fst snd].
  - split; [apply am_set_scratch, H|]. split; reflexivity.
  - split; [exact H|]. split; [reflexivity|exact I].
Qed.
Lemma Like_fork n : P n -> Like eq (fork n) (fork (f n)).
Proof.
  intros Pn. eapply Like_bind; [apply Like_get|]. intros a b A k v w H N. cbv beta zeta.
  rewrite (am_listing _ _ _ H), (am_bps _ _ _ H), (am_trig _ _ _ H), (am_id _ _ _ H), (ab_stack _ _ _ A), (ab_budget _ _ _ A), find_rename by assumption.
  set (a0 := Branch (v_id v) (find (v_listing v) n) (b_stack a) [] (b_budget a) n (b_trace a)).
  set (b0 := Branch (v_id v) (find (v_listing v) n) (b_stack a) [] (b_budget a) (f n) (b_trace b)).
  assert (A0 : ab a0 b0) by (constructor; try reflexivity; [constructor|left; reflexivity|exact (ab_trace _ _ _ A)]).
  destruct (skip_nops_alike (v_listing v) (v_bps v) a0 b0 (v_trig v) A0) as (b' & -> & A').
  destruct (skip_nops (v_listing v) (v_bps v) a0 (v_trig v)) as [[a' t] ok]. cbn [fst snd] in A' |- *.
  split; [|split; reflexivity]. destruct H. constructor; try assumption; try reflexivity.
  cbn. apply Forall2_app; [assumption|]. constructor; [exact A'|constructor].
Qed.
Lemma Like_find n : P n -> Like eq (find_m n) (find_m (f n)).
Proof.
  intros Pn k v w H N. unfold find_m. cbn [fst snd]. rewrite (am_listing _ _ _ H), find_rename by assumption.
  split; [exact H|]. split; reflexivity.
Qed.
Lemma Like_jump n : P n -> Like eq (jump n) (jump (f n)).
Proof.
  intros Pn. eapply Like_bind; [apply Like_find, Pn|]. intros x y <-. apply Like_mod. intros ? ?. apply ab_set_line.
Qed.
Lemma Like_call n : P n -> Like eq (call n) (call (f n)).
Proof.
  intros Pn. eapply Like_bind; [apply Like_get|]. intros a b H.
  eapply Like_bind; [|intros _ _ _; apply (Like_jump n Pn)]. apply Like_mod. intros ? ?. apply ab_set_frames.
  constructor; [|exact (ab_frames _ _ _ H)]. rewrite (ab_line _ _ _ H), (ab_stack _ _ _ H). repeat split. exact (ab_shown _ _ _ H).
Qed.
Lemma Like_exit : Like eq exit_m exit_m.
Proof. apply Like_mod. apply ab_exit. Qed.
Lemma Like_pop_n n t : Like eq (pop_n n t) (pop_n n t).
Proof.
  induction n as [|n IH]; [apply Like_ret|]. cbn [pop_n]. eapply Like_bind; [apply Like_pop|]. intros x y <-.
  eapply Like_bind; [exact IH|]. intros xs ys <-. apply Like_ret.
Qed.
Lemma Like_each {A B} (Q : A -> B -> Prop) (g : A -> M unit) (g' : B -> M unit) xs ys :
  Forall2 Q xs ys -> (forall x y, Q x y -> Like eq (g x) (g' y)) -> Like eq (each g xs) (each g' ys).
Proof.
  intros F G. induction F as [|x y xs ys H F IH]; [apply Like_ret|]. cbn [each]. eapply Like_bind; [apply G, H|]. intros _ _ _. exact IH.
Qed.
Lemma Forall2_same {A} (l : list A) : Forall2 eq l l.
Proof. induction l; constructor; auto. Qed.
Lemma Like_all {A} (g : A -> M unit) xs : (forall x, Like eq (g x) (g x)) -> Like eq (each g xs) (each g xs).
Proof. intros G. apply (Like_each eq); [apply Forall2_same|]. intros x y <-. apply G. Qed.
Lemma Like_forks ns : Forall P ns -> Like eq (each fork ns) (each fork (map f ns)).
Proof.
  intros F. apply (Like_each (fun a b => P a /\ b = f a)).
  - induction F; constructor; auto.
  - intros x y [Px ->]. apply Like_fork, Px.
Qed.
Lemma Like_field specs n : Like eq (field_type specs n) (field_type specs n).
Proof. unfold field_type. destruct (spec_by_field specs n); [apply Like_ret|apply Like_throw]. Qed.
Lemma Like_pops ps qs : Like eq (pops_pushes ps qs) (pops_pushes ps qs).
Proof.
  unfold pops_pushes. eapply Like_bind.
  - apply Like_all. intros t. eapply Like_bind; [apply Like_pop|]. intros _ _ _. apply Like_ret.
  - intros _ _ _. eapply Like_bind; [apply Like_all; intros t; apply Like_push|]. intros _ _ _. apply Like_next.
Qed.

Ltac atom := first
  [ apply Like_next | apply Like_exit | apply Like_throw | apply Like_diverge | apply Like_push | apply Like_pop | apply Like_pop_n
  | apply Like_prepare | apply Like_item | apply Like_replace | apply Like_scratch | apply Like_store | apply Like_field
  | apply Like_pops | apply Like_ret | (apply Like_all; intros ?; apply Like_push) ].
Ltac like := repeat first [ atom | (eapply Like_bind; [atom|intros ? ? <-]) ].

Lemma Like_execute e : (forall n, In n (uses e) -> P n) -> Like eq (execute e) (execute (rename_expr f e)).
Proof.
  intros U.
  assert (S0 : Like eq (match simple_effect e with Some (ps, qs) => pops_pushes ps qs | None => next_line end) (match simple_effect e with Some (ps, qs) => pops_pushes ps qs | None => next_line end)).
  { destruct (simple_effect e) as [[ps qs]|]; like. }
  destruct e; cbn [rename_expr]; try exact S0; try (cbn [execute]; solve [like]).
  - destruct o; try exact S0; cbn [execute]; like.
  - cbn [execute]. eapply Like_bind; [apply Like_get|]. intros a b H. pose proof (ab_frames _ _ _ H) as F.
    destruct F as [|g h gs hs G F]; [like|]. destruct G as (Gr & -> & -> & _ & Gn).
    eapply Like_bind; [like|]. intros xs ys <-. eapply Like_bind; [like|]. intros ? ? <-. eapply Like_bind; [like|]. intros ? ? <-.
    apply Like_mod. intros a' b' Hx. rewrite Gr. apply ab_set_frames; [exact F|]. apply ab_name; [exact Gn|apply ab_set_line, Hx].
  - cbn [execute]. eapply Like_bind; [like|intros ? ? <-]. eapply Like_bind; [apply Like_fork, U; left; reflexivity|intros ? ? <-; like].
  - cbn [execute]. eapply Like_bind; [like|intros ? ? <-]. eapply Like_bind; [apply Like_fork, U; left; reflexivity|intros ? ? <-; like].
  - cbn [execute]. apply Like_jump, U. left. reflexivity.
  - cbn [execute]. eapply Like_bind; [like|intros ? ? <-]. eapply Like_bind; [apply Like_forks, Forall_forall, U|intros ? ? <-; like].
  - cbn [execute]. rewrite map_length. eapply Like_bind; [like|intros ? ? <-]. eapply Like_bind; [like|intros ? ? <-].
    eapply Like_bind; [apply Like_forks, Forall_forall, U|intros ? ? <-; like].
  - cbn [execute]. apply Like_call, U. left. reflexivity.
  - cbn [execute]. eapply Like_bind; [like|intros ? ? <-]. destruct (_ <=? _)%N; like.
  - cbn [execute]. eapply Like_bind; [apply Like_get|]. intros a b H. pose proof (ab_frames _ _ _ H) as F.
    destruct F as [|g h gs hs G F]; [like|]. destruct G as (_ & _ & _ & -> & _). like.
  - cbn [execute]. eapply Like_bind; [apply Like_get|]. intros a b H. pose proof (ab_frames _ _ _ H) as F.
    destruct F as [|g h gs hs G F]; [like|]. destruct G as (_ & _ & _ & -> & _). like.
  - cbn [execute]. eapply Like_bind; [apply Like_get|]. intros a b H. rewrite (ab_stack _ _ _ H). like.
Qed.

Lemma cost_rename e n a b : ab a b -> cost_of (rename_expr f e) n b = cost_of e n a.
Proof.
  intros H. destruct e; try reflexivity; cbn [rename_expr cost_of]; rewrite ?(ab_stack _ _ _ H); reflexivity.
Qed.
Lemma Like_skip : Like eq (fun k v => match nth_error (v_branches v) k with
       | None => (v, Panic)
       | Some b => let '(b, t, _) := skip_nops (v_listing v) (v_bps v) b (v_trig v) in (set_trig t (put k b v), Ret tt) end)
  (fun k v => match nth_error (v_branches v) k with
       | None => (v, Panic)
       | Some b => let '(b, t, _) := skip_nops (v_listing v) (v_bps v) b (v_trig v) in (set_trig t (put k b v), Ret tt) end).
Proof.
  intros k v w H N. cbv beta. pose proof (Forall2_at _ _ _ (am_branches _ _ _ H) k) as A.
  destruct (nth_error (v_branches v) k) as [a|], (nth_error (v_branches w) k) as [b|]; try contradiction; [|split; [exact H|split; [reflexivity|exact I]]].
  rewrite (am_listing _ _ _ H), (am_bps _ _ _ H), (am_trig _ _ _ H).
  destruct (skip_nops_alike (v_listing v) (v_bps v) a b (v_trig v) A) as (b' & -> & A').
  destruct (skip_nops (v_listing v) (v_bps v) a (v_trig v)) as [[a' t] ok]. cbn [fst snd] in A' |- *.
  split; [apply am_set_trig, am_put; assumption|split; reflexivity].
Qed.
Lemma Like_vm_skip : Like eq (fun _ v => match vm_skip_nops v with Ret v' => (v', Ret tt) | Panic => (v, Panic) | OutOfFuel => (v, OutOfFuel) end)
  (fun _ v => match vm_skip_nops v with Ret v' => (v', Ret tt) | Panic => (v, Panic) | OutOfFuel => (v, OutOfFuel) end).
Proof.
  intros k v w H N. cbv beta. pose proof (vm_skip_alike v w H) as O. destruct (vm_skip_nops v) as [v'| |] eqn:E, (vm_skip_nops w) as [w'| |]; try contradiction; cbn [fst snd].
  - split; [exact O|]. split; [exact (vm_skip_listing v v' E)|reflexivity].
  - split; [exact H|split; [reflexivity|exact I]].
  - split; [exact H|split; [reflexivity|exact I]].
Qed.
Lemma Like_trigger : Like eq (fun k v => match nth_error (v_branches v) k with
       | None => (v, Panic)
       | Some b => (set_trig (update_bps (v_bps v) b (v_trig v)) v, Ret tt) end)
  (fun k v => match nth_error (v_branches v) k with
       | None => (v, Panic)
       | Some b => (set_trig (update_bps (v_bps v) b (v_trig v)) v, Ret tt) end).
Proof.
  intros k v w H N. cbv beta. pose proof (Forall2_at _ _ _ (am_branches _ _ _ H) k) as A.
  destruct (nth_error (v_branches v) k) as [a|], (nth_error (v_branches w) k) as [b|]; try contradiction; [|split; [exact H|split; [reflexivity|exact I]]].
  cbn [fst snd]. rewrite (am_bps _ _ _ H), (am_trig _ _ _ H), (update_alike _ a b) by exact A.
  split; [apply am_set_trig, H|split; reflexivity].
Qed.
Lemma Like_charge e c : (forall n, In n (uses e) -> P n) -> Like eq (charge e c) (charge (rename_expr f e) c).
Proof.
  intros U. unfold charge. eapply Like_bind; [apply Like_get|]. intros a b H. rewrite (ab_budget _ _ _ H).
  destruct (_ >=? c)%Z; [|like].
  eapply Like_bind; [apply Like_mod|intros ? ? _].
  { intros x y []. constructor; try assumption; cbn; try congruence. rewrite map_app. cbn. congruence. }
  eapply Like_bind; [apply Like_execute, U|intros ? ? _]. eapply Like_bind; [apply Like_skip|intros ? ? _].
  eapply Like_bind; [apply Like_vm_skip|intros ? ? _]. apply Like_trigger.
Qed.
Lemma index_rename l i : index (map (rename_expr f) l) i = match index l i with Ret e => Ret (rename_expr f e) | Panic => Panic | OutOfFuel => OutOfFuel end.
Proof. unfold index. rewrite nth_error_map. destruct (nth_error l i); reflexivity. Qed.
Lemma Like_step : Like eq step_branch step_branch.
Proof.
  unfold step_branch. eapply Like_bind; [apply Like_get|]. intros a b A k v w H N. cbv beta. rewrite (ab_line _ _ _ A).
  destruct (b_line a) as [i|]; [|apply Like_throw; assumption].
  rewrite (am_listing _ _ _ H), (am_version _ _ _ H), index_rename.
  destruct (index (v_listing v) i) as [e| |] eqn:E; [|unfold bind, lift; cbn [fst snd]; split; [exact H|split; [reflexivity|exact I]]..].
  assert (U : forall n, In n (uses e) -> P n).
  { intros n I. unfold index in E. destruct (nth_error (v_listing v) i) as [e'|] eqn:E'; [|discriminate]. injection E as ->.
    apply (inside_nth _ _ _ N E'). right. exact I. }
  refine (Like_bind (fun x y => x = e /\ y = rename_expr f e) eq (lift (Ret e)) (lift (Ret (rename_expr f e))) _ _ _ _ k v w H N).
  { intros k' v' w' H' N'. split; [exact H'|]. split; [reflexivity|]. cbn. auto. }
  intros x y [-> ->]. rewrite (cost_rename e _ a b A). eapply Like_bind; [apply Like_lift|]. intros cs ? <-.
  destruct cs as [|c cs]; (apply (Like_each eq); [apply Forall2_same|]; intros ? ? <-; apply Like_charge, U).
Qed.

Lemma step_alike v w : am v w -> inside (v_listing v) -> alike_outcomes f (step v) (step w) /\ forall v', step v = Ret v' -> v_listing v' = v_listing v.
Proof.
  intros H N. unfold step.
  assert (H0 : am (set_trig [] (set_error false v)) (set_trig [] (set_error false w))) by (apply am_set_trig, am_set_error, H).
  assert (E0 : v_listing (set_trig [] (set_error false v)) = v_listing v) by reflexivity.
  set (v0 := set_trig [] (set_error false v)) in *. set (w0 := set_trig [] (set_error false w)) in *. clearbody v0 w0.
  pose proof (vm_skip_alike v0 w0 H0) as O.
  destruct (vm_skip_nops v0) as [v1| |] eqn:E, (vm_skip_nops w0) as [w1| |]; try contradiction.
  - rewrite (am_branch _ _ _ O). pose proof (vm_skip_listing _ _ E) as E1.
    destruct (v_branch v1) as [k|]; [|split; [exact O|intros v' [= <-]; congruence]].
    rewrite <- E0, <- E1 in N. destruct (Like_step k v1 w1 O N) as (H2 & E2 & R).
    destruct (step_branch k v1) as [v2 r], (step_branch k w1) as [w2 r']. cbn [fst snd] in *.
    destruct r as [[]| |], r' as [[]| |]; try contradiction.
    + split; [exact H2|]. intros v' [= <-]. congruence.
    + split; [apply am_set_error, H2|]. intros v' [= <-]. cbn. congruence.
    + split; [exact I|discriminate].
  - split; [apply am_set_error, H0|]. intros v' [= <-]. exact E0.
  - split; [exact I|discriminate].
Qed.
Lemma run_alike fuel : forall v w, am v w -> inside (v_listing v) -> alike_outcomes f (run_vm fuel v) (run_vm fuel w) /\ forall v', run_vm fuel v = Ret v' -> v_listing v' = v_listing v.
Proof.
  induction fuel as [|fuel IH]; intros v w H N; cbn [run_vm]; rewrite (am_branch _ _ _ H), (am_error _ _ _ H);
    (destruct (v_branch v); [|split; [exact H|intros v' [= <-]; reflexivity]]);
    (destruct (v_error v); [split; [exact H|intros v' [= <-]; reflexivity]|]).
  - split; [exact I|discriminate].
  - destruct (step_alike v w H N) as [O L]. destruct (step v) as [v1| |], (step w) as [w1| |]; try contradiction; cbn [bindr]; [|split; [exact I|discriminate]..].
    specialize (L v1 eq_refl). rewrite (am_trig _ _ _ O). destruct (v_trig v1); [|split; [exact O|intros v' [= <-]; exact L]].
    rewrite <- L in N |- *. apply IH; assumption.
Qed.
Lemma new_alike l n : alike_outcomes f (new_vm l n) (new_vm (map (rename_expr f) l) n).
Proof. apply vm_skip_alike. constructor; try reflexivity. cbn. constructor; [|constructor]. constructor; try reflexivity; [constructor|right; auto]. Qed.
Lemma find_branch_alike id : forall bs cs, Forall2 ab bs cs -> forall i, find_branch i cs id = find_branch i bs id.
Proof.
  intros bs cs F. induction F as [|a b bs cs H F IH]; intros i; [reflexivity|]. cbn. rewrite (ab_id _ _ _ H), IH. reflexivity.
Qed.
Lemma switch_alike id v w : am v w -> am (switch_vm id v) (switch_vm id w).
Proof.
  intros H. unfold switch_vm. rewrite (find_branch_alike id _ _ (am_branches _ _ _ H)). destruct (find_branch 0 (v_branches v) id); [|exact H].
  apply am_set_branch, am_set_current, H.
Qed.
Lemma bind_lines_rename l lns : bind_lines (map (rename_expr f) l) lns = bind_lines l lns.
Proof.
  induction lns as [|ln lns IH]; [reflexivity|]. cbn [bind_lines]. rewrite map_length, index_rename, IH.
  destruct (_ >=? _)%Z; [reflexivity|]. destruct (_ <? _)%Z; [reflexivity|]. destruct (index l _); cbn [bindr]; try reflexivity.
  rewrite nop_rename. reflexivity.
Qed.
End apart.

Lemma keeps_inside l : inside (name_of l) l.
Proof. intros n H. exact H. Qed.

(* any commands *)
Lemma obey_alike f l c v w : keeps_apart f l -> v_listing v = l -> alike_machines f v w ->
  alike_outcomes f (obey c v) (obey c w) /\ forall v', obey c v = Ret v' -> v_listing v' = l.
Proof.
  intros K <- H. assert (N := keeps_inside (v_listing v)). destruct c as [|fuel|id|lns]; cbn [obey].
  - exact (step_alike f _ K v w H N).
  - exact (run_alike f _ K fuel v w H N).
  - split; [exact (switch_alike f id v w H)|]. intros v' [= <-]. unfold switch_vm. destruct (find_branch _ _ _); reflexivity.
  - unfold set_breakpoints. rewrite (am_listing _ _ _ H), bind_lines_rename. destruct (bind_lines _ lns); cbn [bindr fst]; [|split; [exact I|discriminate]..].
    split; [apply am_set_bps, H|]. intros v' [= <-]. reflexivity.
Qed.
Lemma drive_alike f l n cs : keeps_apart f l -> alike_outcomes f (drive l n cs) (drive (map (rename_expr f) l) n cs).
Proof.
  intros K. unfold drive.
  assert (G : forall r r', alike_outcomes f r r' -> (forall v, r = Ret v -> v_listing v = l) ->
    alike_outcomes f (fold_left (fun r c => letr v := r in obey c v) cs r) (fold_left (fun r c => letr v := r in obey c v) cs r')).
  { induction cs as [|c cs IH]; intros r r' O L; [exact O|]. cbn [fold_left].
    destruct r as [v| |], r' as [w| |]; try contradiction; cbn [bindr]; try (apply IH; [exact I|discriminate]).
    destruct (obey_alike f l c v w K (L v eq_refl) O) as [O' L']. apply IH; assumption. }
  apply G; [apply new_alike|]. intros v E. exact (vm_skip_listing _ _ E).
Qed.

(* the runs of the independent semantics *)
Lemma fstep_rename f l c ev c' : keeps_apart f l -> fstep l c ev c' ->
  fstep (map (rename_expr f) l) c (option_map (fun p => (rename_expr f (fst p), snd p)) ev) c'.
Proof.
  intros K H.
  assert (At_ : forall pc e, nth_error l pc = Some e -> nth_error (map (rename_expr f) l) pc = Some (rename_expr f e)).
  { intros pc e E. rewrite nth_error_map, E. reflexivity. }
  assert (Go : forall pc e n ks c, nth_error l pc = Some e -> In n (uses e) -> goto l n ks c -> goto (map (rename_expr f) l) (f n) ks c).
  { intros pc e n ks d E U [k D|D]; [apply goto_def, (At_ _ _ D)|]. apply goto_missing. intros k X. unfold defines in X. rewrite nth_error_map in X.
    destruct (nth_error l k) as [e'|] eqn:E'; [|discriminate]. cbn in X. destruct e'; try discriminate. injection X as X.
    apply (D k). unfold defines. rewrite E'. f_equal. f_equal. apply K; [|exists e; split; [exact (nth_error_In _ _ E)|right; exact U]|exact X].
    eexists. split; [exact (nth_error_In _ _ E')|left; reflexivity]. }
  destruct H as [pc ks L|pc ks e E S|pc ks e E S|pc ks E|pc ks E|pc ks n c E G|pc ks e E S|pc ks e k n c E T G|pc ks n c E G|pc r ks E|pc E|pc E]; cbn [option_map fst snd].
  - constructor. rewrite map_length. exact L.
  - apply (F_silent _ _ _ _ (At_ _ _ E)). destruct S; constructor.
  - apply (F_plain _ _ _ _ (At_ _ _ E)). destruct e; try exact S.
  - apply F_err. exact (At_ _ _ E).
  - apply F_return. exact (At_ _ _ E).
  - apply (F_b _ _ _ _ _ (At_ _ _ E)). apply (Go _ _ _ _ _ E); [left; reflexivity|exact G].
  - apply (F_cond_next _ _ _ _ (At_ _ _ E)). destruct S; constructor.
  - apply (F_cond_taken _ _ _ _ _ (f n) _ (At_ _ _ E)).
    + destruct T; constructor; rewrite nth_error_map; rewrite H; reflexivity.
    + apply (Go _ _ _ _ _ E); [|exact G]. destruct T; try (left; reflexivity); exact (nth_error_In _ _ H).
  - apply (F_callsub _ _ _ _ _ (At_ _ _ E)). apply (Go _ _ _ _ _ E); [left; reflexivity|exact G].
  - apply F_retsub. exact (At_ _ _ E).
  - apply F_retsub_next. exact (At_ _ _ E).
  - apply F_retsub_fail. exact (At_ _ _ E).
Qed.
Lemma run_rename f l c tr c' : keeps_apart f l -> run l c tr c' ->
  run (map (rename_expr f) l) c (map (fun p => (rename_expr f (fst p), snd p)) tr) c'.
Proof.
  intros K H. induction H as [c|c c1 c2 tr S H IH|c c1 c2 ev tr S H IH]; [apply run_refl|eapply run_quiet|eapply run_event]; try exact IH;
    exact (fstep_rename f l _ _ _ K S).
Qed.
Lemma fstep_renamed f l c ev c' : keeps_apart f l -> fstep (map (rename_expr f) l) c ev c' ->
  exists ev', ev = option_map (fun p => (rename_expr f (fst p), snd p)) ev' /\ fstep l c ev' c'.
Proof.
  intros K H.
  assert (At_ : forall pc e, nth_error (map (rename_expr f) l) pc = Some e -> exists e', nth_error l pc = Some e' /\ e = rename_expr f e').
  { intros pc e E. rewrite nth_error_map in E. destruct (nth_error l pc) as [e'|]; [|discriminate]. injection E as <-. exists e'. split; reflexivity. }
  assert (Go : forall pc e n ks c, nth_error l pc = Some e -> In n (uses e) -> goto (map (rename_expr f) l) (f n) ks c -> goto l n ks c).
  { intros pc e n ks d E U [k D|D].
    - apply At_ in D as (e' & E' & D). destruct e'; try discriminate. injection D as D. apply goto_def. unfold defines. rewrite E'. f_equal. f_equal.
      symmetry. apply K; [exists e; split; [exact (nth_error_In _ _ E)|right; exact U]| |exact D].
      eexists. split; [exact (nth_error_In _ _ E')|left; reflexivity].
    - apply goto_missing. intros k X. apply (D k). unfold defines. rewrite nth_error_map, X. reflexivity. }
  destruct H as [pc ks L|pc ks e E S|pc ks e E S|pc ks E|pc ks E|pc ks n c E G|pc ks e E S|pc ks e k n c E T G|pc ks n c E G|pc r ks E|pc E|pc E];
    try (apply At_ in E as (e' & E & X)).
  - exists None. split; [reflexivity|]. constructor. rewrite map_length in L. exact L.
  - exists None. split; [reflexivity|]. apply (F_silent _ _ _ _ E). subst e. destruct e'; cbn in S; inversion S; constructor.
  - exists (Some (e', 0)). subst e. split; [reflexivity|]. apply (F_plain _ _ _ _ E). destruct e'; exact S.
  - destruct e'; try discriminate. exists (Some (ErrExpr, 0)). split; [reflexivity|]. apply F_err, E.
  - destruct e'; try discriminate. exists (Some (ReturnExpr, 0)). split; [reflexivity|]. apply F_return, E.
  - destruct e'; try discriminate. injection X as ->. exists None. split; [reflexivity|]. apply (F_b _ _ _ _ _ E). apply (Go _ _ _ _ _ E); [left; reflexivity|exact G].
  - exists (Some (e', 0)). subst e. split; [reflexivity|]. apply (F_cond_next _ _ _ _ E). destruct e'; cbn in S; inversion S; constructor.
  - exists (Some (e', Datatypes.S k)). subst e. split; [reflexivity|].
    assert (T' : exists m, n = f m /\ cond_target e' k m /\ In m (uses e')).
    { destruct e'; cbn in T; inversion T; subst; try (eexists; split; [reflexivity|]; split; [constructor|left; reflexivity]);
        rewrite nth_error_map in *; match goal with H : option_map f ?o = _ |- _ => destruct o as [m|] eqn:Em; [|discriminate]; injection H as <- end;
        (exists m; split; [reflexivity|]; split; [constructor; exact Em|exact (nth_error_In _ _ Em)]). }
    destruct T' as (m & -> & T' & U). apply (F_cond_taken _ _ _ _ _ _ _ E T'). exact (Go _ _ _ _ _ E U G).
  - destruct e'; try discriminate. injection X as ->. eexists (Some (CallSubExpr _, 0)). split; [reflexivity|]. apply (F_callsub _ _ _ _ _ E). apply (Go _ _ _ _ _ E); [left; reflexivity|exact G].
  - destruct e'; try discriminate. exists (Some (RetSubExpr, 0)). split; [reflexivity|]. apply F_retsub, E.
  - destruct e'; try discriminate. exists (Some (RetSubExpr, 1)). split; [reflexivity|]. apply F_retsub_next, E.
  - destruct e'; try discriminate. exists (Some (RetSubExpr, 2)). split; [reflexivity|]. apply F_retsub_fail, E.
Qed.
Lemma run_renamed f l c tr c' : keeps_apart f l -> run (map (rename_expr f) l) c tr c' ->
  exists tr', tr = map (fun p => (rename_expr f (fst p), snd p)) tr' /\ run l c tr' c'.
Proof.
  intros K H. induction H as [c|c c1 c2 tr S H (tr' & -> & IH)|c c1 c2 ev tr S H (tr' & -> & IH)].
  - exists []. split; [reflexivity|apply run_refl].
  - destruct (fstep_renamed f l _ _ _ K S) as ([e|] & E & S'); [discriminate|]. exists tr'. split; [reflexivity|]. exact (run_quiet _ _ _ _ _ S' IH).
  - destruct (fstep_renamed f l _ _ _ K S) as ([e|] & E & S'); [|discriminate]. injection E as ->. exists (e :: tr'). split; [reflexivity|]. exact (run_event _ _ _ _ _ _ S' IH).
Qed.

(* the renaming of the language server keeps the names apart when the new name is not in use *)
Lemma ren_apart l old new : ~ name_of l new -> keeps_apart (ren old new) l.
Proof.
  intros N a b A B. unfold ren. destruct (seqb a old) eqn:Ea, (seqb b old) eqn:Eb; intros E; try exact E.
  - apply seqb_eq in Ea, Eb. congruence.
  - subst. contradiction.
  - subst. contradiction.
Qed.
