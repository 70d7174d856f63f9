(* Properties C80 and C81: the immediate notes of langspec.json are read as they are written, and the
   opcode table agrees with them. *)
From Verif Require Import Base Fields Expr OpTable Process Query Literals ProcessSpec AnswerSpec AnswerProofs HintProofs
  Signature SignatureSpec SignatureProofs Notes NotesSpec LangOps NotesProofs.

(* C80: the reader accepts the notes of the grammar, and no other text, and gives their structure. *)
Theorem C80_note s l : tokenize (length s) s = Some l <-> note s l.
Proof. apply tokenize_exact. Qed.
Print Assumptions C80_note.
Theorem C80_refused s : parse_imm_args s = None <-> ~ exists l, note s l.
Proof.
  unfold parse_imm_args. pose proof (tokenize_exact s) as T. destruct (tokenize (length s) s) as [l|].
  - split; [discriminate|]. intros N. destruct N. exists l. apply T. reflexivity.
  - split; [|reflexivity]. intros _ [l L]. apply T in L. discriminate L.
Qed.
Print Assumptions C80_refused.
(* the arguments: one for each immediate, with the text of the note *)
Theorem C80_args s l m : note s l -> encoded l m ->
  parse_imm_args s = Some (map (fun x => NoteArg (snd x) (snd (fst x))) m).
Proof.
  intros N E. unfold parse_imm_args. rewrite (proj2 (tokenize_exact s l) N), (merge_encoded l m E). reflexivity.
Qed.
Print Assumptions C80_args.

(* every note of langspec.json is one, and tells the encoding of the immediates *)
Definition note_encodings (o : lang_op) : option (list (encoding * bool * str)) :=
  match tokenize (length (bs (lo_note o))) (bs (lo_note o)) with Some l => encode l | None => None end.
Lemma note_encodings_spec o m : note_encodings o = Some m -> exists l, note (bs (lo_note o)) l /\ encoded l m.
Proof.
  unfold note_encodings. destruct (tokenize _ _) as [l|] eqn:T; [|discriminate]. intros E. exists l.
  split; [apply tokenize_exact; exact T|]. apply (encode_encoded (length l)); [lia|exact E].
Qed.
Lemma notes_encoded : forallb (fun o => match note_encodings o with Some _ => true | None => false end) lang_ops = true.
Proof. vm_compute. reflexivity. Qed.
Theorem C80_built_in o : In o lang_ops -> exists l m, note (bs (lo_note o)) l /\ encoded l m.
Proof.
  intros I. pose proof (proj1 (forallb_forall _ _) notes_encoded o I) as E. cbn beta in E.
  destruct (note_encodings o) as [m|] eqn:N; [|discriminate E]. destruct (note_encodings_spec o m N) as [l H]. exists l, m. exact H.
Qed.
Print Assumptions C80_built_in.

Example C80_ex :
  parse_imm_args (bs "{varuint count} [({varuint length} bytes), ...]") = Some [NoteArg (bs "[{bytes}, ...]") true] /\
  parse_imm_args (bs "{uint8 branch count} [{int16 branch offset, big-endian}, ...]") = Some [NoteArg (bs "[{label}, ...]") true] /\
  parse_imm_args (bs "{varuint length} {bytes}") = Some [NoteArg (bs "{bytes}") false] /\
  parse_imm_args (bs "{uint8 n} {int8 m}") = Some [NoteArg (bs "{uint8 n}") false; NoteArg (bs "{int8 m}") false] /\
  parse_imm_args (bs "{uint8 n} ") = None /\ parse_imm_args (bs "{uint8 n") = None /\ parse_imm_args (bs "uint8") = None.
Proof. vm_compute. repeat split. Qed.

(* ------------------------------------------------------------------------------------------ *)
(* C81: an opcode reads the immediates of its note. *)


Definition enc_dec : forall x y : encoding * bool, {x = y} + {x <> y}.
Proof. repeat decide equality. Defined.
Definition encs_eqb (x y : list (encoding * bool)) : bool := if list_eq_dec enc_dec x y then true else false.
Lemma encs_eqb_eq x y : encs_eqb x y = true -> x = y.
Proof. unfold encs_eqb. destruct (list_eq_dec enc_dec x y); [auto|discriminate]. Qed.
Lemma note_imm o m : note_encodings o = Some m -> immediates o (map fst m).
Proof. intros H. destruct (note_encodings_spec o m H) as [l [N E]]. exists l, m. auto. Qed.
Lemma note_imm_of o e : option_map (map fst) (note_encodings o) = Some e -> immediates o e.
Proof. destruct (note_encodings o) as [m|] eqn:E; [|discriminate]. intros H. injection H as <-. apply note_imm. exact E. Qed.
Lemma get_takes n p : ops_get n = Some p -> takes p (mandatory p) (optional p).
Proof. intros G. destruct (get_in _ _ G) as [s [I _]]. exact (proj1 (Forall_forall _ _) ops_take _ I). Qed.
Lemma op_names : forallb (fun o => match ops_get (bs (lo_name o)) with Some _ => true | None => false end) lang_ops = true.
Proof. vm_compute. reflexivity. Qed.

Theorem C81_known o : In o lang_ops -> exists p, ops_get (bs (lo_name o)) = Some p.
Proof.
  intros I. pose proof (proj1 (forallb_forall _ _) op_names o I) as H. cbn beta in H.
  destruct (ops_get (bs (lo_name o))) as [p|]; [exists p; reflexivity|discriminate H].
Qed.
Print Assumptions C81_known.

(* The group index of gitxna is one byte, and is read as a number of 64 bits; and three opcodes take an
   operand more than they have. *)
Theorem C81_refuted : exists o p l e, In o lang_ops /\ ops_get (bs (lo_name o)) = Some p /\ immediates o e /\ reads p l /\
  map operand_encoding l <> e /\ e = [(EUint8, false); (EUint8, false); (EUint8, false)] /\ map tk_kind l = [IInt; ITxnaField; IUint8].
Proof.
  destruct (find (fun o => String.eqb (lo_name o) "gitxna") lang_ops) as [o|] eqn:F; [|vm_compute in F; discriminate F].
  destruct (ops_get (bs "gitxna")) as [p|] eqn:P; [|vm_compute in P; discriminate P].
  exists o, p, (mandatory p), [(EUint8, false); (EUint8, false); (EUint8, false)].
  pose proof (get_takes _ _ P) as T. apply find_some in F as W. destruct W as [I W]. apply String.eqb_eq in W. rewrite W.
  split; [exact I|]. split; [exact P|]. clear I W. vm_compute in F. injection F as <-.
  split. { apply note_imm_of. vm_compute. reflexivity. }
  split; [apply T; left; reflexivity|]. vm_compute in P. injection P as <-. split; [vm_compute; discriminate|]. split; vm_compute; reflexivity.
Qed.
Print Assumptions C81_refuted.

(* Every other opcode can be written with the immediates of its note, and all but five only so. *)
Definition optional_ops : list string := ["extract"; "txn"; "gtxn"; "gtxns"]%string.
Lemma ops_encodings : forallb (fun o => match ops_get (bs (lo_name o)), note_encodings o with
  | Some p, Some m =>
      String.eqb (lo_name o) "gitxna" ||
      (if existsb (String.eqb (lo_name o)) optional_ops
       then encs_eqb (map operand_encoding (mandatory p)) (map fst m) || encs_eqb (map operand_encoding (mandatory p ++ optional p)) (map fst m)
       else encs_eqb (map operand_encoding (mandatory p)) (map fst m) && match optional p with [] => true | _ => false end)
  | _, _ => false end) lang_ops = true.
Proof. vm_compute. reflexivity. Qed.
Theorem C81_partial o p : In o lang_ops -> ops_get (bs (lo_name o)) = Some p -> lo_name o <> "gitxna"%string ->
  exists e, immediates o e /\ (exists l, reads p l /\ map operand_encoding l = e) /\
    (~ In (lo_name o) optional_ops -> forall l, reads p l -> map operand_encoding l = e).
Proof.
  intros I G N. pose proof (proj1 (forallb_forall _ _) ops_encodings o I) as H. cbn beta in H. rewrite G in H.
  destruct (note_encodings o) as [m|] eqn:E; [|discriminate H]. exists (map fst m). split; [apply note_imm; exact E|].
  pose proof (get_takes _ _ G) as T.
  destruct (String.eqb_spec (lo_name o) "gitxna") as [|_]; [contradiction|]. cbn [orb] in H.
  destruct (existsb (String.eqb (lo_name o)) optional_ops) eqn:O.
  - split.
    + apply orb_true_iff in H as [H|H]; apply encs_eqb_eq in H; [exists (mandatory p)|exists (mandatory p ++ optional p)];
      (split; [apply T; auto|exact H]).
    + intros Z. destruct Z. apply existsb_exists in O as [x [X Y]]. apply String.eqb_eq in Y. rewrite Y. exact X.
  - apply andb_true_iff in H as [H Q]. apply encs_eqb_eq in H. split; [exists (mandatory p); split; [apply T; auto|exact H]|].
    intros _ l L. apply T in L. destruct (optional p); [|discriminate Q]. rewrite app_nil_r in L. destruct L as [->| ->]; exact H.
Qed.
Print Assumptions C81_partial.
Theorem C81_unique o e e' : immediates o e -> immediates o e' -> e = e'.
Proof. apply immediates_unique. Qed.
Print Assumptions C81_unique.

(* what the four opcodes with optional operands read *)
Theorem C81_optional o p : In o lang_ops -> ops_get (bs (lo_name o)) = Some p -> In (lo_name o) optional_ops ->
  exists e m t, immediates o e /\ takes p m t /\
    (if String.eqb (lo_name o) "extract" then m = [] /\ map operand_encoding t = e
     else map operand_encoding m = e /\ map operand_encoding t = [(EUint8, false)]).
Proof.
  intros I G O. assert (C : forallb (fun o => match ops_get (bs (lo_name o)), note_encodings o with
    | Some p, Some m => negb (existsb (String.eqb (lo_name o)) optional_ops) ||
        (if String.eqb (lo_name o) "extract" then match mandatory p with [] => true | _ => false end && encs_eqb (map operand_encoding (optional p)) (map fst m)
         else encs_eqb (map operand_encoding (mandatory p)) (map fst m) && encs_eqb (map operand_encoding (optional p)) [(EUint8, false)])
    | _, _ => false end) lang_ops = true) by (vm_compute; reflexivity).
  pose proof (proj1 (forallb_forall _ _) C o I) as H. clear C. cbn beta in H. rewrite G in H.
  destruct (note_encodings o) as [m|] eqn:E; [|discriminate H]. exists (map fst m), (mandatory p), (optional p).
  split; [apply note_imm; exact E|]. split; [exact (get_takes _ _ G)|].
  replace (existsb (String.eqb (lo_name o)) optional_ops) with true in H.
  2: { symmetry. apply existsb_exists. exists (lo_name o). split; [exact O|apply String.eqb_refl]. }
  cbn [negb orb] in H. destruct (String.eqb (lo_name o) "extract"); apply andb_true_iff in H as [A B]; apply encs_eqb_eq in B.
  - split; [|exact B]. destruct (mandatory p); [reflexivity|discriminate A].
  - apply encs_eqb_eq in A. split; assumption.
Qed.
Print Assumptions C81_optional.

(* The fields an opcode takes by name, in the version of the specification, are the ones it lists, and they
   have the types it lists. *)
Definition strs_eqb (x y : list str) : bool := if list_eq_dec (list_eq_dec ascii_dec) x y then true else false.
Lemma strs_eqb_eq x y : strs_eqb x y = true -> x = y.
Proof. unfold strs_eqb. destruct (list_eq_dec (list_eq_dec ascii_dec) x y); [auto|discriminate]. Qed.
Definition taken_in (k : imm) (s : field_spec) : bool :=
  offered k s && ((offered_from k s <=? 8)%N || match k with ITxnaField => true | _ => false end).
Definition lists (o : lang_op) (k : imm) : bool :=
  match field_table k with
  | None => false
  | Some sp =>
      strs_eqb (map f_name (filter (taken_in k) sp)) (map bs (lo_enum o)) &&
      strs_eqb [map (fun s => type_letter (f_type s)) (filter (taken_in k) sp)] [bs (lo_types o)] &&
      forallb (fun s => match read_uint8 (f_name s) with None => true | Some _ => false end) sp
  end.
Lemma ops_list_fields : forallb (fun o => match lo_enum o, ops_get (bs (lo_name o)) with
  | [], _ => true
  | _, Some p => existsb (fun a => lists o (tk_kind a)) (mandatory p)
  | _, None => false end) lang_ops = true.
Proof. vm_compute. reflexivity. Qed.
Lemma no_field en v k sp x : field_table k = Some sp -> (forall s, In s sp -> f_name s <> x) -> value_read en v k x = read_uint8 x.
Proof.
  intros T N. assert (B : spec_by_name sp x = None).
  { pose proof (spec_by_name_in sp x) as Q. destruct (spec_by_name sp x) as [[f y]|]; [|reflexivity].
    destruct Q as [Q1 Q2]. destruct (N y (nth_error_In _ _ Q1) Q2). }
  unfold value_read. destruct k; try discriminate T; injection T as <-; cbn [operand_value number_of];
  unfold read_txn_field, read_field; rewrite B; destruct (read_uint8 x); reflexivity.
Qed.
Theorem C81_fields o p m t : In o lang_ops -> ops_get (bs (lo_name o)) = Some p -> takes p m t -> lo_enum o <> [] ->
  exists a sp, In a m /\ field_table (tk_kind a) = Some sp /\
    (forall en x, In x (map bs (lo_enum o)) <-> read_uint8 x = None /\ exists n, value_read en 8 (tk_kind a) x = Some n) /\
    Forall2 (fun x c => exists s, In s sp /\ f_name s = bs x /\ type_letter (f_type s) = c) (lo_enum o) (bs (lo_types o)).
Proof.
  intros I G T E. destruct (takes_unique _ _ _ _ _ T (get_takes _ _ G)) as [-> _].
  pose proof (proj1 (forallb_forall _ _) ops_list_fields o I) as H. cbn beta in H. rewrite G in H.
  assert (X : existsb (fun a => lists o (tk_kind a)) (mandatory p) = true) by (destruct (lo_enum o); [congruence|exact H]).
  apply existsb_exists in X as [a [A L]]. unfold lists in L. destruct (field_table (tk_kind a)) as [sp|] eqn:F; [|discriminate L].
  apply andb_true_iff in L as [L U]. apply andb_true_iff in L as [L1 L2]. apply strs_eqb_eq in L1. apply strs_eqb_eq in L2. injection L2 as L2.
  rewrite forallb_forall in U. exists a, sp. split; [exact A|]. split; [exact F|]. split.
  - intros en x. rewrite <- L1. split.
    + intros Q. apply in_map_iff in Q as [s [<- Q]]. apply filter_In in Q as [Q1 Q2]. specialize (U s Q1).
      split; [destruct (read_uint8 (f_name s)); [discriminate U|reflexivity]|].
      apply In_nth_error in Q1 as [j J]. exists (N.of_nat j). rewrite (field_value en 8 _ _ _ _ F J). unfold taken_in in Q2. rewrite Q2. reflexivity.
    + intros [R [n V]]. destruct (in_dec (list_eq_dec ascii_dec) x (map f_name sp)) as [Q|Q].
      * apply in_map_iff in Q as [s [<- Q]]. apply in_map_iff. exists s. split; [reflexivity|]. apply filter_In. split; [exact Q|].
        apply In_nth_error in Q as [j J]. rewrite (field_value en 8 _ _ _ _ F J) in V. fold (taken_in (tk_kind a) s) in V.
        destruct (taken_in (tk_kind a) s); [reflexivity|discriminate V].
      * rewrite (no_field en 8 _ sp x F) in V; [rewrite R in V; discriminate V|]. intros s S <-. apply Q. apply in_map. exact S.
  - rewrite <- L2. clear - L1. set (k := tk_kind a) in *. clearbody k.
    assert (P : forall l es, (forall s, In s l -> In s sp) -> map f_name l = map bs es ->
      Forall2 (fun x c => exists s, In s sp /\ f_name s = bs x /\ type_letter (f_type s) = c) es (map (fun s => type_letter (f_type s)) l)).
    { induction l as [|s l IH]; intros [|x es] S M; try discriminate M; [constructor|]. injection M as M1 M2. cbn [map]. constructor.
      - exists s. split; [apply S; left; reflexivity|]. split; [exact M1|reflexivity].
      - apply IH; [intros y Y; apply S; right; exact Y|exact M2]. }
    apply P; [|exact L1]. intros s S. apply filter_In in S as [S _]. exact S.
Qed.
Print Assumptions C81_fields.

Example C81_ex : exists o p, In o lang_ops /\ lo_name o = "asset_params_get"%string /\ ops_get (bs (lo_name o)) = Some p /\
  immediates o [(EUint8, false)] /\ (exists l, reads p l /\ map operand_encoding l = [(EUint8, false)]) /\
  In "AssetURL"%string (lo_enum o) /\ ~ In "Sender"%string (lo_enum o).
Proof.
  destruct (find (fun o => String.eqb (lo_name o) "asset_params_get") lang_ops) as [o|] eqn:F; [|vm_compute in F; discriminate F].
  destruct (ops_get (bs "asset_params_get")) as [p|] eqn:P; [|vm_compute in P; discriminate P]. exists o, p.
  apply find_some in F as W. destruct W as [I W]. apply String.eqb_eq in W. rewrite W. split; [exact I|]. split; [reflexivity|].
  split; [exact P|]. pose proof (get_takes _ _ P) as T. vm_compute in F. injection F as <-. split; [apply note_imm_of; vm_compute; reflexivity|].
  split. { exists (mandatory p). split; [apply T; auto|]. vm_compute in P. injection P as <-. reflexivity. }
  cbn [lo_enum]. split; [|intros Q]; [vm_compute; auto 20|]. vm_compute in Q. repeat destruct Q as [Q|Q]; try discriminate Q. exact Q.
Qed.
