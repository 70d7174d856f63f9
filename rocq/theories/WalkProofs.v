From Verif Require Import Base Strconv Literals LiteralsProofs CodecProofs Process Sarif Walk WalkSpec.
From Coq Require Import Permutation ZifyBool ZifyNat ZifyN.
Ltac Zify.zify_post_hook ::= Z.div_mod_to_equations.

(* ------------------------------------------------------------------------------------------ *)
(* names that end with .teal *)
Lemma no_dot r : existsb (Ascii.eqb ".") r = false <-> ~ In "."%char r.
Proof.
  split.
  - intros E I. assert (X : existsb (Ascii.eqb ".") r = true) by (apply existsb_exists; exists "."%char; split; [exact I|reflexivity]).
    congruence.
  - intros N. destruct (existsb _ r) eqn:E; [|reflexivity]. apply existsb_exists in E as (x & I & X).
    apply Ascii.eqb_eq in X as <-. contradiction.
Qed.
Lemma ext_skip p s : existsb (Ascii.eqb ".") s = true -> ext (p ++ s) = ext s.
Proof.
  intros D. induction p as [|c p IH]; [reflexivity|]. cbn [app ext].
  rewrite existsb_app, D, orb_true_r, andb_false_r. exact IH.
Qed.
Lemma ext_suffix s : exists p, s = p ++ ext s.
Proof.
  induction s as [|c s [p IH]]; [exists []; reflexivity|]. cbn [ext].
  destruct (Ascii.eqb c "." && negb (existsb (Ascii.eqb ".") s)); [exists []; reflexivity|].
  exists (c :: p). cbn [app]. rewrite <- IH. reflexivity.
Qed.
Lemma ext_teal s : seqb (ext s) (bs ".teal") = true <-> exists p, s = p ++ bs ".teal".
Proof.
  rewrite seqb_eq. split.
  - intros E. destruct (ext_suffix s) as [p P]. exists p. rewrite <- E. exact P.
  - intros [p ->]. rewrite ext_skip by reflexivity. reflexivity.
Qed.
Lemma last_teal path : (exists p, last path [] = p ++ bs ".teal") <-> teal_file path.
Proof.
  split.
  - intros [p E]. destruct (exists_last (l := path)) as (d & x & ->).
    + intros ->. cbn in E. destruct p; discriminate.
    + rewrite last_last in E. subst x. exists d, p. reflexivity.
  - intros (d & p & ->). exists p. apply last_last.
Qed.

(* ------------------------------------------------------------------------------------------ *)
(* the order *)
Lemma byte_eq a b : byte a = byte b -> a = b.
Proof. intros E. rewrite <- (ascii_byte a), <- (ascii_byte b), E. reflexivity. Qed.
Lemma leb_spec a : forall b, leb_str a b = true <-> a = b \/ str_before a b.
Proof.
  induction a as [|x a IH]; intros [|y b]; cbn [leb_str].
  - split; auto.
  - split; [intros _; right; constructor|reflexivity].
  - split; [discriminate|]. intros [E|E]; [discriminate|inversion E].
  - rewrite orb_true_iff, andb_true_iff, N.ltb_lt, N.eqb_eq, IH. split.
    + intros [L|[E [->|L]]]; [right; apply BDiffer; exact L|apply byte_eq in E as ->; left; reflexivity|].
      apply byte_eq in E as ->. right. apply BSame. exact L.
    + intros [E|E]; [injection E as -> ->; auto|]. inversion E; subst; auto.
Qed.
Lemma leb_total a : forall b, leb_str a b = false -> str_before b a.
Proof.
  induction a as [|x a IH]; intros [|y b]; cbn [leb_str]; intros H; try discriminate; [constructor|].
  apply orb_false_iff in H as [H1 H2]. apply N.ltb_ge in H1. destruct (N.eqb_spec (byte x) (byte y)) as [E|E].
  - apply byte_eq in E as ->. apply BSame, IH. exact H2.
  - apply BDiffer. lia.
Qed.
Lemma str_trans a : forall b c, str_before a b -> str_before b c -> str_before a c.
Proof.
  induction a as [|x a IH]; intros b c H K.
  - inversion H; subst. inversion K; subst; constructor.
  - inversion H; subst; inversion K; subst.
    + apply BDiffer. lia.
    + apply BDiffer. assumption.
    + apply BDiffer. assumption.
    + apply BSame. eapply IH; eassumption.
Qed.

Lemma insert_perm {A} (e : str * A) l : Permutation (insert e l) (e :: l).
Proof.
  induction l as [|f l IH]; [reflexivity|]. cbn [insert]. destruct (leb_str (fst e) (fst f)); [reflexivity|].
  rewrite IH. apply perm_swap.
Qed.
Lemma sort_perm {A} (l : list (str * A)) : Permutation (sort l) l.
Proof. induction l as [|e l IH]; [reflexivity|]. cbn [sort fold_right]. fold (sort l). rewrite insert_perm, IH. reflexivity. Qed.

Definition names_before {A} (e f : str * A) : Prop := str_before (fst e) (fst f).
Lemma insert_order {A} (e : str * A) l : ~ In (fst e) (map fst l) -> in_order names_before l -> in_order names_before (insert e l).
Proof.
  induction l as [|f l IH]; intros N O; [constructor; [constructor|exact O]|]. cbn [insert].
  inversion O as [|? ? F O']; subst. destruct (leb_str (fst e) (fst f)) eqn:L.
  - apply leb_spec in L as [L|L]; [destruct N; left; symmetry; exact L|].
    apply OCons; [|exact O]. apply Forall_cons; [exact L|]. eapply Forall_impl; [|exact F]. intros g G. exact (str_trans _ _ _ L G).
  - apply leb_total in L. apply OCons.
    + apply Forall_forall. intros g G. apply (Permutation_in _ (insert_perm e l)) in G as [<-|G]; [exact L|].
      rewrite Forall_forall in F. exact (F g G).
    + apply IH; [|exact O']. intros I. apply N. right. exact I.
Qed.
Lemma sort_order {A} (l : list (str * A)) : NoDup (map fst l) -> in_order names_before (sort l).
Proof.
  induction l as [|e l IH]; intros N; [constructor|]. cbn [sort fold_right]. fold (sort l). inversion N; subst.
  apply insert_order; [|apply IH; assumption]. intros I. apply H1.
  apply (Permutation_in _ (Permutation_map fst (sort_perm l))). exact I.
Qed.

(* ------------------------------------------------------------------------------------------ *)
(* the walk *)
Lemma node_ind' (P : node -> Prop) : (forall c, P (File c)) ->
  (forall l u, (forall e, In e l -> P (snd e)) -> P (Dir l u)) -> forall n, P n.
Proof.
  intros HF HD. fix IH 1. intros [c|l u]; [apply HF|]. apply HD.
  induction l as [|[nm n] l IL]; [intros x []|]. intros x [<-|I]; [exact (IH n)|exact (IL x I)].
Qed.

Lemma walk_dir path l u p c : In (p, c) (walk path (Dir l u)) <-> exists e, In e l /\ In (p, c) (walk (path ++ [fst e]) (snd e)).
Proof.
  cbn [walk]. rewrite in_concat. split.
  - intros (fs & I & J). apply in_map_iff in I as ([nm fs'] & E & I). cbn in E. subst fs'.
    apply (Permutation_in _ (sort_perm _)) in I. apply in_map_iff in I as (e & E & I). injection E as <- <-. exists e. split; assumption.
  - intros (e & I & J). exists (walk (path ++ [fst e]) (snd e)). split; [|exact J].
    apply in_map_iff. exists (fst e, walk (path ++ [fst e]) (snd e)). split; [reflexivity|].
    apply (Permutation_in _ (Permutation_sym (sort_perm _))). apply in_map_iff. exists e. split; [reflexivity|exact I].
Qed.

Lemma walk_spec n : forall path p c, In (p, c) (walk path n) <-> exists q, p = path ++ q /\ listed_at n q c /\ teal_file p.
Proof.
  induction n as [x|l u IH] using node_ind'; intros path p c.
  - cbn [walk]. destruct (seqb (ext (last path [])) (bs ".teal")) eqn:E.
    + apply ext_teal, last_teal in E. split.
      * intros [I|[]]. injection I as <- <-. exists []. rewrite app_nil_r. split; [reflexivity|]. split; [constructor|exact E].
      * intros (q & -> & L & _). inversion L; subst. rewrite app_nil_r. left. reflexivity.
    + split; [intros []|]. intros (q & -> & L & T). inversion L; subst. rewrite app_nil_r in T.
      assert (T' : seqb (ext (last path [])) (bs ".teal") = true) by (apply ext_teal, last_teal; exact T).
      rewrite E in T'. discriminate.
  - rewrite walk_dir. split.
    + intros (e & I & J). apply (IH e I) in J as (q & -> & L & T). exists (fst e :: q). rewrite <- app_assoc in *.
      split; [reflexivity|]. split; [|exact T]. apply LListed with (n := snd e); [rewrite <- surjective_pairing; exact I|exact L].
    + intros (q & -> & L & T). inversion L; subst. exists (name, n). split; [assumption|]. cbn [fst snd].
      apply (IH (name, n)); [assumption|]. exists path0. rewrite <- app_assoc. split; [reflexivity|]. split; assumption.
Qed.

Lemma before_prefix {A} (lt : A -> A -> Prop) p : forall a b, before lt a b -> before lt (p ++ a) (p ++ b).
Proof. induction p as [|x p IH]; intros a b H; [exact H|]. apply BSame, IH, H. Qed.
Lemma order_app {A} (lt : A -> A -> Prop) a b : in_order lt a -> in_order lt b ->
  (forall x y, In x a -> In y b -> lt x y) -> in_order lt (a ++ b).
Proof.
  induction 1 as [|x l F O IH]; intros B H; [exact B|]. cbn [app]. apply OCons.
  - apply Forall_app. split; [exact F|]. apply Forall_forall. intros y Y. apply H; [left; reflexivity|exact Y].
  - apply IH; [exact B|]. intros z y Z Y. apply H; [right; exact Z|exact Y].
Qed.

Lemma concat_order path (es : list (str * list (list str * option str))) :
  in_order names_before es ->
  (forall e p c, In e es -> In (p, c) (snd e) -> exists q, p = path ++ fst e :: q) ->
  (forall e, In e es -> in_order path_before (map fst (snd e))) ->
  in_order path_before (map fst (concat (map snd es))).
Proof.
  induction 1 as [|e es F O IH]; intros B S; [constructor|]. cbn [map concat]. rewrite map_app. apply order_app.
  - apply S. left. reflexivity.
  - apply IH; [intros f p c I J; apply (B f p c); [right; exact I|exact J]|intros f I; apply S; right; exact I].
  - intros x y X Y. apply in_map_iff in X as ([p c] & <- & X). apply in_map_iff in Y as ([p' c'] & <- & Y). cbn [fst].
    destruct (B e p c (or_introl eq_refl) X) as [q ->].
    apply in_concat in Y as (fs & Y1 & Y2). apply in_map_iff in Y1 as (f & <- & Y1).
    destruct (B f p' c' (or_intror Y1) Y2) as [q' ->].
    apply before_prefix, BDiffer. rewrite Forall_forall in F. exact (F f Y1).
Qed.

Lemma nodup_left {A} (a b : list A) : NoDup (a ++ b) -> NoDup a.
Proof.
  induction a as [|x a IH]; intros N; [constructor|]. cbn [app] in N. apply NoDup_cons_iff in N as [X N].
  constructor; [|exact (IH N)]. intros I. apply X, in_or_app. left. exact I.
Qed.
Lemma walk_order n : proper n -> forall path, in_order path_before (map fst (walk path n)).
Proof.
  induction n as [x|l u IH] using node_ind'; intros W path.
  - cbn [walk]. destruct (seqb _ _); repeat constructor.
  - inversion W as [|? ? N P]; subst. cbn [walk]. apply (concat_order path).
    + apply sort_order. rewrite map_map. rewrite map_app in N. exact (nodup_left _ _ N).
    + intros e p c I J. apply (Permutation_in _ (sort_perm _)) in I. apply in_map_iff in I as (f & <- & I). cbn [fst snd] in *.
      apply walk_spec in J as (q & -> & _). exists q. rewrite <- app_assoc. reflexivity.
    + intros e I. apply (Permutation_in _ (sort_perm _)) in I. apply in_map_iff in I as (f & <- & I). cbn [snd].
      apply IH; [exact I|]. destruct f as [nm n]. apply (P nm n). apply in_or_app. left. exact I.
Qed.

Lemma listed_file n q c : listed_at n q c -> file_at n q c.
Proof. induction 1; econstructor; eassumption. Qed.
Lemma listable_at n q c : listable n -> file_at n q c -> listed_at n q c.
Proof.
  intros A F. induction F as [c|l u name n path c I F IH|l u name n path c I F IH]; [constructor| |].
  - inversion A as [|l' P E]; subst. eapply LListed; [exact I|]. apply IH. exact (P name n I).
  - inversion A; subst. destruct I.
Qed.

Lemma before_irrefl {A} (lt : A -> A -> Prop) : (forall x, ~ lt x x) -> forall l, ~ before lt l l.
Proof. intros I l. induction l as [|x l IH]; intros H; inversion H; subst; [exact (I _ H1)|exact (IH H1)]. Qed.
Lemma path_irrefl p : ~ path_before p p.
Proof. apply before_irrefl. apply before_irrefl. intros x. lia. Qed.
Lemma order_nodup {A} (lt : A -> A -> Prop) l : (forall x, ~ lt x x) -> in_order lt l -> NoDup l.
Proof.
  intros I. induction 1 as [|x l F O IH]; constructor; [|exact IH]. intros J. rewrite Forall_forall in F. exact (I x (F x J)).
Qed.

(* ------------------------------------------------------------------------------------------ *)
(* uris *)
Lemma upper_hex_val d : (d < 16)%N -> hex_of (upper_hex d) = d /\ In (upper_hex d) (bs "0123456789ABCDEF").
Proof.
  intros H. split.
  - unfold hex_of, upper_hex. destruct (N.ltb_spec d 10); rewrite byte_ascii by lia.
    + destruct (N.ltb_spec (48 + d) 65); lia.
    + destruct (N.ltb_spec (55 + d) 65); lia.
  - destruct d as [|p]; [cbn; auto|]. do 4 (destruct p as [p|p|]; [| |cbn; tauto]); lia.
Qed.
Lemma member c l : existsb (Ascii.eqb c) l = true -> In c l.
Proof. intros H. apply existsb_exists in H as (x & I & E). apply Ascii.eqb_eq in E as ->. exact I. Qed.
Lemma plain_uri c : url_plain c = true ->
  In c (bs "abcdefghijklmnopqrstuvwxyzABCDEFGHIJKLMNOPQRSTUVWXYZ0123456789-._~:/@!$&'()*+,;=") /\ c <> "%"%char.
Proof.
  intros H. split.
  - destruct c as [[] [] [] [] [] [] [] []]; try discriminate H;
      apply member; vm_compute; reflexivity.
  - intros ->. discriminate.
Qed.
Lemma escape_uri s : uri_text (url_escape s) /\ means (url_escape s) s.
Proof.
  induction s as [|c s [IH1 IH2]]; [split; constructor|]. cbn [url_escape flat_map]. fold (url_escape s).
  destruct (url_plain c) eqn:E.
  - apply plain_uri in E as [E N]. split; [apply UChar; assumption|apply MChar; assumption].
  - pose proof (byte_lt c). cbn [app].
    destruct (upper_hex_val (byte c / 16)) as [V1 I1]; [lia|]. destruct (upper_hex_val (byte c mod 16)) as [V2 I2]; [lia|].
    split; [apply UEscape; assumption|].
    replace c with (ascii_of_N (16 * hex_of (upper_hex (byte c / 16)) + hex_of (upper_hex (byte c mod 16)))) at 3.
    + apply MEscape. exact IH2.
    + rewrite V1, V2. rewrite <- (ascii_byte c) at 3. f_equal. lia.
Qed.
Lemma ordinary_uri p :
  (forall e c, In e p -> In c e -> In c (bs "abcdefghijklmnopqrstuvwxyzABCDEFGHIJKLMNOPQRSTUVWXYZ0123456789-._~$&+,:;=@")) ->
  file_uri p = bs "file://" ++ flat_map (fun e => "/"%char :: e) p.
Proof.
  intros H. unfold file_uri. f_equal.
  assert (K : forall s, (forall c, In c s -> url_plain c = true) -> url_escape s = s).
  { induction s as [|c s IH]; intros A; [reflexivity|]. cbn [url_escape flat_map]. fold (url_escape s).
    rewrite (A c (or_introl eq_refl)), IH; [reflexivity|]. intros d I. apply A. right. exact I. }
  apply K. intros c I. apply in_flat_map in I as (e & I & J). destruct J as [<-|J]; [reflexivity|].
  refine (proj1 (forallb_forall url_plain _) _ c (H e c I J)). vm_compute. reflexivity.
Qed.
Lemma means_fun r s : means r s -> forall s', means r s' -> s = s'.
Proof.
  induction 1 as [|c r s N M IH|a b r s M IH]; intros s' K; inversion K; subst; try congruence; f_equal; auto.
Qed.
Lemma elements_inj p : forall q, (forall e, In e p -> ~ In "/"%char e) -> (forall e, In e q -> ~ In "/"%char e) ->
  flat_map (fun e => "/"%char :: e) p = flat_map (fun e => "/"%char :: e) q -> p = q.
Proof.
  induction p as [|a p IH]; intros [|b q] P Q E; cbn [flat_map app] in E; try discriminate; [reflexivity|].
  injection E as E.
  assert (X : forall a b r s, ~ In "/"%char a -> ~ In "/"%char b -> a ++ r = b ++ s ->
    (r = [] \/ exists r', r = "/"%char :: r') -> (s = [] \/ exists s', s = "/"%char :: s') -> a = b /\ r = s).
  { clear. induction a as [|x a IH]; intros [|y b] r s A B E R S; cbn [app] in E.
    - split; [reflexivity|exact E].
    - subst r. destruct R as [R|[r' R]]; [discriminate|]. injection R as -> R. destruct B. left. reflexivity.
    - subst s. destruct S as [S|[s' S]]; [discriminate|]. injection S as -> S. destruct A. left. reflexivity.
    - injection E as -> E. destruct (IH b r s) as [-> ->]; auto; intros I; [apply A|apply B]; right; exact I. }
  destruct (X a b _ _ (P a (or_introl eq_refl)) (Q b (or_introl eq_refl)) E) as [-> E'].
  - destruct p; [left; reflexivity|right; cbn; eauto].
  - destruct q; [left; reflexivity|right; cbn; eauto].
  - f_equal. apply IH; [intros e I; apply P; right; exact I|intros e I; apply Q; right; exact I|exact E'].
Qed.
Lemma uri_inj p q : (forall e, In e p -> ~ In "/"%char e) -> (forall e, In e q -> ~ In "/"%char e) ->
  file_uri p = file_uri q -> p = q.
Proof.
  intros P Q E. apply elements_inj; [exact P|exact Q|]. apply app_inv_head in E.
  destruct (escape_uri (flat_map (fun e => "/"%char :: e) p)) as [_ M]. rewrite E in M.
  destruct (escape_uri (flat_map (fun e => "/"%char :: e) q)) as [_ M']. exact (means_fun _ _ M _ M').
Qed.
Lemma uri_ok p : uri_text (file_uri p) /\ means (file_uri p) (bs "file://" ++ flat_map (fun e => "/"%char :: e) p).
Proof.
  destruct (escape_uri (flat_map (fun e => "/"%char :: e) p)) as [U M]. unfold file_uri. split.
  - cbn [bs list_ascii_of_string app]. repeat (apply UChar; [cbn; tauto|]). exact U.
  - cbn [bs list_ascii_of_string app]. repeat (apply MChar; [discriminate|]). exact M.
Qed.
Lemma listed_names n q c : listed_at n q c -> proper n -> forall e, In e q -> ~ In "/"%char e.
Proof.
  induction 1 as [c|l u name n path c I L IH]; intros W e E; [destruct E|]. inversion W as [|? ? N P]; subst.
  destruct (P name n) as (_ & A & B); [apply in_or_app; left; exact I|]. destruct E as [<-|E]; [exact A|exact (IH B e E)].
Qed.


(* ------------------------------------------------------------------------------------------ *)
(* the reports *)
Lemma files_artifacts en fs : forall rp rp', scan_files en rp fs = Ret (Some rp') ->
  rp_artifacts rp' = rp_artifacts rp ++ map fst fs /\ ~ In None (map snd fs).
Proof.
  induction fs as [|[u [src|]] fs IH]; intros rp rp' E; cbn [scan_files] in E.
  - injection E as <-. rewrite app_nil_r. split; [reflexivity|intros []].
  - destruct (process en src) as [x| |]; try discriminate. cbn [bindr] in E.
    destruct (file_results u 0 (r_diag x)) as [rs| |]; try discriminate. cbn [bindr] in E.
    apply IH in E as [E N]. cbn [rp_artifacts] in E. rewrite E, <- app_assoc. split; [reflexivity|].
    intros [I|I]; [discriminate|exact (N I)].
  - discriminate.
Qed.
Lemma scan_path_artifacts en path t rp : scan_path en path t = Ret (Some rp) ->
  exists fs, scanned path t = Some fs /\ rp_artifacts rp = map file_uri (map fst fs) /\ ~ In None (map snd fs).
Proof.
  unfold scan_path, scan. destruct (scanned path t) as [fs|]; [|discriminate]. intros E. exists fs. split; [reflexivity|].
  apply files_artifacts in E as [E N]. rewrite !map_map in *. cbn [rp_artifacts app fst snd] in *. split; [exact E|exact N].
Qed.
Lemma map_nodup {A B} (f : A -> B) l : (forall x y, In x l -> In y l -> f x = f y -> x = y) -> NoDup l -> NoDup (map f l).
Proof.
  intros I. induction 1 as [|x l N D IH]; constructor.
  - intros J. apply in_map_iff in J as (y & E & J). apply I in E as ->; [exact (N J)|right; exact J|left; reflexivity].
  - apply IH. intros a b X Y. apply I; right; assumption.
Qed.
Lemma report_uris en path l u rp : proper (Dir l u) -> (forall e, In e path -> ~ In "/"%char e) ->
  scan_path en path (Itself (Dir l u)) = Ret (Some rp) ->
  NoDup (rp_artifacts rp) /\ Forall uri_text (rp_artifacts rp) /\
  forall a, In a (rp_artifacts rp) <-> exists q src, a = file_uri (path ++ q) /\ listed_at (Dir l u) q (Some src) /\ teal_file (path ++ q).
Proof.
  intros W P E. apply scan_path_artifacts in E as (fs & S & -> & N). assert (fs = walk path (Dir l u)) as -> by (change (Some (walk path (Dir l u)) = Some fs) in S; congruence).
  assert (Q : forall p, In p (map fst (walk path (Dir l u))) -> forall e, In e p -> ~ In "/"%char e).
  { intros p I e J. apply in_map_iff in I as ([p' c] & <- & I). apply walk_spec in I as (q & -> & L & _).
    cbn [fst] in J. apply in_app_or in J as [J|J]; [exact (P e J)|exact (listed_names _ _ _ L W e J)]. }
  split; [|split].
  - apply map_nodup; [|exact (order_nodup _ _ path_irrefl (walk_order _ W path))].
    intros x y X Y. apply uri_inj; apply Q; assumption.
  - apply Forall_forall. intros a I. apply in_map_iff in I as (p & <- & _). apply uri_ok.
  - intros a. split.
    + intros I. apply in_map_iff in I as (p & <- & I). apply in_map_iff in I as ([p' c] & <- & I).
      assert (J := I). apply walk_spec in J as (q & -> & L & T). destruct c as [src|].
      * exists q, src. split; [reflexivity|split; assumption].
      * destruct N. apply in_map_iff. exists (path ++ q, None). split; [reflexivity|exact I].
    + intros (q & src & -> & L & T). apply in_map. apply in_map_iff. exists (path ++ q, Some src). split; [reflexivity|].
      apply walk_spec. exists q. auto.
Qed.
