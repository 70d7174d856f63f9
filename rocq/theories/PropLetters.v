(* Property C101: the operands of an opcode are named as in its description. *)
From Verif Require Import Base Expr OpTable Process Signature SignatureSpec SignatureProofs LangDocs LetterSpec Notes NotesSpec LangOps NotesProofs PropNotes.

(* ------------------------------------------------------------------------------------------ *)
(* reading a description *)
Definition ends_b (s : str) : bool := match s with [] => true | c :: _ => negb (letter c) end.
Lemma ends_b_eq s : ends_b s = true <-> word_ends s.
Proof. destruct s as [|c s]; cbn; [tauto|]. destruct (letter c); cbn; intuition discriminate. Qed.
Definition after_b (v : str) : bool :=
  ends_b v || match v with t :: h :: w => Ascii.eqb t "t" && Ascii.eqb h "h" && ends_b w | _ => false end.
Lemma after_b_eq v : after_b v = true <-> word_ends v \/ exists w, v = bs "th" ++ w /\ word_ends w.
Proof.
  unfold after_b. rewrite orb_true_iff, ends_b_eq. split.
  - intros [H|H]; [left; exact H|right]. destruct v as [|t [|h w]]; try discriminate H.
    apply andb_true_iff in H as [H E]. apply andb_true_iff in H as [A B].
    apply Ascii.eqb_eq in A. apply Ascii.eqb_eq in B. subst t h. exists w. split; [reflexivity|]. apply ends_b_eq. exact E.
  - intros [H|[w [-> W]]]; [left; exact H|right]. cbn. apply ends_b_eq. exact W.
Qed.
(* the letters that name something, behind a text that ends in a letter or not *)
Fixpoint named (inside : bool) (d : str) : str :=
  match d with
  | [] => []
  | c :: r => (if negb inside && after_b r then [c] else []) ++ named (letter c) r
  end.
Lemma named_in c : forall d u0, In c (named (negb (ends_b (rev u0))) d) <->
  exists u v, d = u ++ c :: v /\ word_ends (rev (u0 ++ u)) /\ (word_ends v \/ exists w, v = bs "th" ++ w /\ word_ends w).
Proof.
  induction d as [|a d IH]; intros u0.
  - cbn. split; [intros []|]. intros [u [v [E _]]]. destruct u; discriminate E.
  - cbn [named]. rewrite in_app_iff. specialize (IH (u0 ++ [a])). rewrite rev_app_distr in IH. cbn [rev app ends_b] in IH.
    rewrite negb_involutive in IH. rewrite IH. rewrite negb_involutive. split.
    + intros [H|[u [v [E [A B]]]]].
      * destruct (ends_b (rev u0) && after_b d) eqn:Q; [|destruct H]. destruct H as [->|[]]. apply andb_true_iff in Q as [Q1 Q2].
        exists [], d. split; [reflexivity|]. rewrite app_nil_r. split; [apply ends_b_eq; exact Q1|apply after_b_eq; exact Q2].
      * exists (a :: u), v. split; [rewrite E; reflexivity|]. rewrite <- app_assoc in A. split; [exact A|exact B].
    + intros [u [v [E [A B]]]]. destruct u as [|b u].
      * injection E as -> ->. left. rewrite app_nil_r in A. apply ends_b_eq in A. apply after_b_eq in B. rewrite A, B. left. reflexivity.
      * injection E as -> ->. right. exists u, v. rewrite <- app_assoc. auto.
Qed.
Lemma named_names c d : In c (named false d) <-> names c d.
Proof. rewrite (named_in c d []). reflexivity. Qed.

(* ------------------------------------------------------------------------------------------ *)
(* one letter operands whose letter the description does not know *)
Definition strange : list (string * string) :=
  [("txn", "i"); ("gtxn", "i"); ("gtxns", "i"); ("vrf_verify", "f")]%string.
(* opcodes whose description names an operand by a letter that is not its name *)
Definition unnamed : list string :=
  ["intc"; "bytec"; "arg"; "global"; "uncover"; "frame_dig"; "frame_bury"; "match"]%string.

Definition in_strs (x : ascii) (l : str) : bool := existsb (Ascii.eqb x) l.
Lemma in_strs_eq x l : in_strs x l = true <-> In x l.
Proof.
  unfold in_strs. rewrite existsb_exists. split; [intros [y [I E]]; apply Ascii.eqb_eq in E; subst; exact I|].
  intros I. exists x. split; [exact I|apply Ascii.eqb_refl].
Qed.
Definition pair_in (n a : string) : bool := existsb (fun x => String.eqb (fst x) n && String.eqb (snd x) a) strange.
Definition all_letters : str := letters_from 65 26.
Definition small_of (c : ascii) (a : taken) : bool := seqb (bs (tk_name a)) [small c].
Definition check (o : lang_doc) : bool :=
  match ops_get (bs (ld_name o)) with
  | None => false
  | Some p =>
      let l := mandatory p ++ optional p in
      let d := named false (bs (ld_doc o)) in
      forallb (fun a => forallb (fun c => negb (small_of c a) ||
        (Bool.eqb (in_strs c d) (negb (pair_in (ld_name o) (tk_name a))) && negb (in_strs c (on_stack o)))) all_letters) l &&
      Bool.eqb (existsb (String.eqb (ld_name o)) unnamed)
        (negb (forallb (fun c => negb (capital c) || in_strs c (on_stack o) || existsb (small_of c) l) d)) &&
      (if list_eq_dec string_dec (nodup string_dec (map tk_name l)) (map tk_name l) then true else false)
  end.
Lemma checked : forallb check lang_docs = true.
Proof. vm_compute. reflexivity. Qed.

Lemma capital_letter c : capital c = true -> In c all_letters.
Proof. destruct c as [[] [] [] [] [] [] [] []]; intros H; try discriminate H; vm_compute; tauto. Qed.
Lemma lettered_small c a : lettered c a <-> capital c = true /\ small_of c a = true.
Proof. unfold lettered, small_of. rewrite seqb_eq. tauto. Qed.
Lemma pair_in_eq n a : pair_in n a = true <-> In (n, a) strange.
Proof.
  unfold pair_in. rewrite existsb_exists. split.
  - intros [[x y] [I E]]. apply andb_true_iff in E as [E1 E2]. cbn in E1, E2. apply String.eqb_eq in E1. apply String.eqb_eq in E2. subst. exact I.
  - intros I. exists (n, a). split; [exact I|]. cbn. rewrite !String.eqb_refl. reflexivity.
Qed.
Lemma unnamed_eq n : existsb (String.eqb n) unnamed = true <-> In n unnamed.
Proof.
  rewrite existsb_exists. split; [intros [x [I E]]; apply String.eqb_eq in E; subst; exact I|].
  intros I. exists n. split; [exact I|apply String.eqb_refl].
Qed.

Section One.
Context (o : lang_doc) (p : prog) (m t : list taken).
Context (I : In o lang_docs) (G : ops_get (bs (ld_name o)) = Some p) (T : takes p m t).

Lemma one_checked :
  forallb (fun a => forallb (fun c => negb (small_of c a) ||
    (Bool.eqb (in_strs c (named false (bs (ld_doc o)))) (negb (pair_in (ld_name o) (tk_name a))) && negb (in_strs c (on_stack o)))) all_letters) (m ++ t) = true /\
  existsb (String.eqb (ld_name o)) unnamed =
    negb (forallb (fun c => negb (capital c) || in_strs c (on_stack o) || existsb (small_of c) (m ++ t)) (named false (bs (ld_doc o)))) /\
  NoDup (map tk_name (m ++ t)).
Proof.
  pose proof (proj1 (forallb_forall _ _) checked o I) as H. unfold check in H. rewrite G in H.
  destruct (takes_unique _ _ _ _ _ T (get_takes _ _ G)) as [E1 E2]. rewrite <- E1, <- E2 in H.
  apply andb_true_iff in H as [H N]. apply andb_true_iff in H as [H1 H2]. apply Bool.eqb_prop in H2.
  split; [exact H1|]. split; [exact H2|].
  destruct (list_eq_dec string_dec (nodup string_dec (map tk_name (m ++ t))) (map tk_name (m ++ t))) as [E|_]; [|discriminate N].
  rewrite <- E. apply NoDup_nodup.
Qed.

Lemma one_letter a c : In a (m ++ t) -> lettered c a ->
  (names c (bs (ld_doc o)) <-> ~ In (ld_name o, tk_name a) strange) /\ ~ In c (on_stack o).
Proof.
  intros A L. destruct one_checked as [H _]. rewrite forallb_forall in H. specialize (H a A). rewrite forallb_forall in H.
  apply lettered_small in L as [C L]. specialize (H c (capital_letter c C)). rewrite L in H. cbn [negb orb] in H.
  apply andb_true_iff in H as [H1 H2]. apply Bool.eqb_prop in H1. rewrite <- named_names, <- in_strs_eq, H1, <- pair_in_eq, <- (in_strs_eq c (on_stack o)).
  split; [|intros X; rewrite X in H2; discriminate H2].
  destruct (pair_in (ld_name o) (tk_name a)); cbn [negb]; split; intros X; try (intros Y; discriminate Y); try discriminate X.
  - destruct X. reflexivity.
  - reflexivity.
Qed.

Lemma one_name : ~ In (ld_name o) unnamed <->
  forall c, capital c = true -> names c (bs (ld_doc o)) -> In c (on_stack o) \/ exists a, In a (m ++ t) /\ lettered c a.
Proof.
  destruct one_checked as [_ [H _]]. rewrite <- unnamed_eq, H. split.
  - intros N c C D. destruct (forallb _ _) eqn:F in N; [|destruct N; reflexivity]. rewrite forallb_forall in F.
    apply named_names in D. specialize (F c D). rewrite C in F. cbn [negb orb] in F. apply orb_true_iff in F as [F|F].
    + left. apply in_strs_eq. exact F.
    + right. apply existsb_exists in F as [a [A L]]. exists a. split; [exact A|]. apply lettered_small. auto.
  - intros N. assert (F : forallb (fun c => negb (capital c) || in_strs c (on_stack o) || existsb (small_of c) (m ++ t)) (named false (bs (ld_doc o))) = true).
    { apply forallb_forall. intros c D. destruct (capital c) eqn:C; [|reflexivity]. cbn [negb orb]. apply orb_true_iff.
      destruct (N c C (proj1 (named_names _ _) D)) as [S|[a [A L]]]; [left; apply in_strs_eq; exact S|right].
      apply existsb_exists. exists a. split; [exact A|]. apply lettered_small in L. tauto. }
    rewrite F. discriminate.
Qed.
End One.

(* ------------------------------------------------------------------------------------------ *)
Lemma known_doc o : In o lang_docs -> exists p, ops_get (bs (ld_name o)) = Some p /\ takes p (mandatory p) (optional p).
Proof.
  intros I. pose proof (proj1 (forallb_forall _ _) checked o I) as H. unfold check in H.
  destruct (ops_get (bs (ld_name o))) as [p|] eqn:G; [|discriminate H]. exists p. split; [reflexivity|]. exact (get_takes _ _ G).
Qed.

(* C101: an operand named by a letter is the one the description gives that letter - refuted by vrf_verify, whose
   description does not speak of its operand f at all *)
Theorem C101_refuted : exists o p m t a c, In o lang_docs /\ ops_get (bs (ld_name o)) = Some p /\ takes p m t /\
  In a m /\ lettered c a /\ ~ names c (bs (ld_doc o)).
Proof.
  destruct (find (fun o => String.eqb (ld_name o) "vrf_verify") lang_docs) as [o|] eqn:F; [|vm_compute in F; discriminate F].
  apply find_some in F as [I W]. apply String.eqb_eq in W. destruct (known_doc o I) as [p [G T]].
  assert (A : In (Taken "f" IVrf false) (mandatory p)) by (rewrite W in G; vm_compute in G; injection G as <-; vm_compute; tauto).
  exists o, p, (mandatory p), (optional p), (Taken "f" IVrf false), "F"%char.
  assert (L : lettered "F" (Taken "f" IVrf false)) by (split; vm_compute; reflexivity).
  repeat (split; [assumption|]). intros N.
  apply (one_letter o p _ _ I G T (Taken "f" IVrf false) "F" ltac:(apply in_or_app; auto) L) in N. rewrite W in N. apply N. vm_compute. tauto.
Qed.
Print Assumptions C101_refuted.

(* for every other opcode it is so, but for the index that txn, gtxn and gtxns take beyond the specification; and
   the letter is never that of a value on the stack *)
Theorem C101_partial o p m t a c : In o lang_docs -> ops_get (bs (ld_name o)) = Some p -> takes p m t -> In a (m ++ t) -> lettered c a ->
  (names c (bs (ld_doc o)) <-> ~ In (ld_name o, tk_name a) [("txn", "i"); ("gtxn", "i"); ("gtxns", "i"); ("vrf_verify", "f")]%string) /\
  ~ In c (on_stack o).
Proof. intros I G T. exact (one_letter o p m t I G T a c). Qed.
Print Assumptions C101_partial.

(* the other way round: every letter of a description is that of a value on the stack or of an operand, except for
   the opcodes that call their operand differently (and match, whose operands on the stack are a list) *)
Theorem C101_explained o p m t : In o lang_docs -> ops_get (bs (ld_name o)) = Some p -> takes p m t ->
  ((forall c, capital c = true -> names c (bs (ld_doc o)) -> In c (on_stack o) \/ exists a, In a (m ++ t) /\ lettered c a) <->
   ~ In (ld_name o) ["intc"; "bytec"; "arg"; "global"; "uncover"; "frame_dig"; "frame_bury"; "match"]%string).
Proof. intros I G T. symmetry. exact (one_name o p m t I G T). Qed.
Print Assumptions C101_explained.

(* two operands of an opcode never have the same name, so that a message about one of them (C99) says which *)
Theorem C101_distinct s p m t : In (s, p) ops_list -> takes p m t -> NoDup (map tk_name (m ++ t)).
Proof.
  intros I T. destruct (takes_unique p m t _ _ T (proj1 (Forall_forall _ _) ops_take _ I)) as [-> ->]. cbn [snd].
  assert (H : forallb (fun x => let l := map tk_name (mandatory (snd x) ++ optional (snd x)) in
    if list_eq_dec string_dec (nodup string_dec l) l then true else false) ops_list = true) by (vm_compute; reflexivity).
  rewrite forallb_forall in H. specialize (H _ I). cbn [snd] in H. cbv zeta in H.
  match type of H with (if ?d then _ else _) = _ => destruct d as [E|_]; [|discriminate H] end.
  rewrite <- E. apply NoDup_nodup.
Qed.
Print Assumptions C101_distinct.

(* the operands whose name is a word: labels and constants are called by what they are *)
Definition words : list (string * list string) :=
  [("byte", ["value"]); ("int", ["value"]); ("method", ["signature"]); ("addr", ["address"]);
   ("ecdsa_verify", ["curve index"]); ("ecdsa_pk_decompress", ["curve index"]); ("ecdsa_pk_recover", ["curve index"]);
   ("intcblock", ["value"]); ("intc", ["value"]); ("bytecblock", ["bytes"]); ("bytec", ["index"]); ("arg", ["index"]);
   ("global", ["field"]); ("bnz", ["label"]); ("bz", ["label"]); ("b", ["label"]); ("uncover", ["index"]);
   ("pushbytes", ["value"]); ("pushint", ["value"]); ("pushbytess", ["value"]); ("pushints", ["value"]);
   ("callsub", ["label"]); ("frame_dig", ["index"]); ("frame_bury", ["index"]); ("switch", ["label"]); ("match", ["label"]);
   ("ec_add", ["curve"]); ("ec_scalar_mul", ["curve"]); ("ec_pairing_check", ["curve"]); ("ec_multi_exp", ["curve"]);
   ("ec_subgroup_check", ["curve"]); ("ec_map_to", ["curve"])]%string.
Lemma words_all : forallb (fun x => let l := map tk_name (mandatory (snd x) ++ optional (snd x)) in
  forallb (fun y => negb (String.eqb (fst y) (fst x)) || if list_eq_dec string_dec l (snd y) then true else false) words &&
  (existsb (fun y => String.eqb (fst y) (fst x)) words || forallb (fun n => length (bs n) =? 1) l)) ops_list = true.
Proof. vm_compute. reflexivity. Qed.
Theorem C101_words s p m t : In (s, p) ops_list -> takes p m t ->
  (forall w, In (s, w) words -> map tk_name (m ++ t) = w) /\
  ((forall w, ~ In (s, w) words) -> forall a, In a (m ++ t) -> length (bs (tk_name a)) = 1).
Proof.
  intros I T. destruct (takes_unique p m t _ _ T (proj1 (Forall_forall _ _) ops_take _ I)) as [-> ->]. cbn [snd].
  pose proof (proj1 (forallb_forall _ _) words_all _ I) as H. cbv beta zeta in H. cbn [fst snd] in H. apply andb_true_iff in H as [H1 H2]. split.
  - intros w W. rewrite forallb_forall in H1. specialize (H1 _ W). cbn [fst snd] in H1. rewrite String.eqb_refl in H1. cbn [negb orb] in H1.
    match type of H1 with (if ?d then _ else _) = _ => destruct d as [E|_]; [exact E|discriminate H1] end.
  - intros N a A. apply orb_true_iff in H2 as [H2|H2].
    + apply existsb_exists in H2 as [[n w] [W E]]. cbn [fst] in E. apply String.eqb_eq in E. subst n. destruct (N w W).
    + rewrite forallb_forall in H2. apply Nat.eqb_eq. apply H2. apply in_map. exact A.
Qed.
Print Assumptions C101_words.

(* the operands with a letter are read in the order of the immediate note: each means what stands there *)
Definition means_b (n : string) (x : str) : bool :=
  existsb (fun y => String.eqb (fst y) n && existsb (fun d => seqb x (bs "{uint8 " ++ bs d ++ bs "}")) (snd y)) meanings.
Lemma means_b_eq n x : means_b n x = true -> exists d, means n d /\ x = bs "{uint8 " ++ bs d ++ bs "}".
Proof.
  unfold means_b. intros H. apply existsb_exists in H as [[n' ds] [I H]]. apply andb_true_iff in H as [N H]. cbn [fst snd] in *.
  apply String.eqb_eq in N. subst n'. apply existsb_exists in H as [d [D E]]. apply seqb_eq in E. exists d. split; [exists ds; auto|exact E].
Qed.
Fixpoint in_order_b (l : list taken) (m : list (encoding * bool * str)) : bool :=
  match l, m with
  | a :: l, x :: m => (negb (length (bs (tk_name a)) =? 1) || means_b (tk_name a) (snd x)) && in_order_b l m
  | _, _ => true
  end.
Lemma orders : forallb (fun o => match ops_get (bs (lo_name o)), note_encodings o with
  | Some p, Some m => in_order_b (mandatory p ++ optional p) m | _, _ => false end) lang_ops = true.
Proof. vm_compute. reflexivity. Qed.
Lemma in_order_nth : forall l m j a x, in_order_b l m = true -> nth_error l j = Some a -> nth_error m j = Some x -> length (bs (tk_name a)) = 1 ->
  exists d, means (tk_name a) d /\ snd x = bs "{uint8 " ++ bs d ++ bs "}".
Proof.
  induction l as [|b l IH]; intros [|y m] [|j] a x H A X L; try discriminate A; try discriminate X; cbn [in_order_b] in H; apply andb_true_iff in H as [H1 H2].
  - injection A as ->. injection X as ->. rewrite L in H1. cbn in H1. apply means_b_eq. exact H1.
  - exact (IH m j a x H2 A X L).
Qed.
Theorem C101_order o p m t l es j a e : In o lang_ops -> ops_get (bs (lo_name o)) = Some p -> takes p m t ->
  note (bs (lo_note o)) l -> encoded l es -> nth_error (m ++ t) j = Some a -> nth_error es j = Some e -> length (bs (tk_name a)) = 1 ->
  exists d, means (tk_name a) d /\ snd e = bs "{uint8 " ++ bs d ++ bs "}".
Proof.
  intros I G T N E A X L. destruct (takes_unique _ _ _ _ _ T (get_takes _ _ G)) as [-> ->].
  pose proof (proj1 (forallb_forall _ _) orders o I) as H. cbv beta in H. rewrite G in H.
  destruct (note_encodings o) as [es'|] eqn:Q; [|discriminate H]. destruct (note_encodings_spec o es' Q) as [l' [N' E']].
  rewrite (note_unique _ _ _ N N') in E. rewrite (encoded_unique _ _ E _ E') in X. exact (in_order_nth _ _ j a e H A X L).
Qed.
Print Assumptions C101_order.

Example C101_ex : exists o p m t a, In o lang_docs /\ ld_name o = "store"%string /\ ops_get (bs (ld_name o)) = Some p /\ takes p m t /\ In a (m ++ t) /\ lettered "I" a /\ names "I" (bs (ld_doc o)) /\ names "A" (bs (ld_doc o)) /\ ~ names "F" (bs (ld_doc o)) /\ names "I" (bs "Ith constant from intcblock") /\ ~ names "T" (bs "branch unconditionally to TARGET").
Proof.
  destruct (find (fun o => String.eqb (ld_name o) "store") lang_docs) as [o|] eqn:F; [|vm_compute in F; discriminate F].
  apply find_some in F as W. destruct W as [I W]. apply String.eqb_eq in W. destruct (known_doc o I) as [p [G T]].
  exists o, p, (mandatory p), (optional p), (Taken "i" IUint8 false). rewrite <- !named_names.
  split; [exact I|]. split; [exact W|]. split; [exact G|]. split; [exact T|].
  split; [rewrite W in G; vm_compute in G; injection G as <-; vm_compute; tauto|]. split; [split; vm_compute; reflexivity|].
  vm_compute in F. injection F as <-. rewrite <- !in_strs_eq.
  split; [vm_compute; reflexivity|]. split; [vm_compute; reflexivity|]. split; [vm_compute; discriminate|]. split; [vm_compute; reflexivity|vm_compute; discriminate].
Qed.
