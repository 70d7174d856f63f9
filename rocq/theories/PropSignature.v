(* Property C78: the signature of an opcode shows what it takes. *)
From Verif Require Import Base Expr OpTable Process Print Codec Signature SignatureSpec SignatureProofs HintProofs.

(* The long signature opens a bracket in front of each optional argument and closes none. *)
Theorem C78_refuted : exists n p m o, In (n, p) ops_list /\ takes p m o /\
  full_sig (bs n) (dc_args (doc_of p)) <> bs n ++ bs " " ++ bracketed long_word m o /\
  closes 0 (full_sig (bs n) (dc_args (doc_of p))) = false.
Proof.
  assert (G : exists p, In ("extract"%string, p) ops_list /\ optional p <> [] /\
    full_sig (bs "extract") (dc_args (doc_of p)) = bs "extract [{uint8 : s} [{uint8 : l}" /\
    bs "extract" ++ bs " " ++ bracketed long_word (mandatory p) (optional p) = bs "extract [{uint8 : s} {uint8 : l}]").
  { destruct (ops_get (bs "extract")) as [p|] eqn:E; [|vm_compute in E; discriminate E]. destruct (get_in _ _ E) as [s [I S]].
    assert (s = "extract"%string) as -> by (rewrite <- (string_of_list_ascii_of_string s); unfold bs in S; rewrite <- S; reflexivity).
    exists p. split; [exact I|]. vm_compute in E. injection E as <-. vm_compute. repeat split; discriminate. }
  destruct G as [p [I [_ [F B]]]]. exists "extract"%string, p, (mandatory p), (optional p). split; [exact I|].
  split; [exact (proj1 (Forall_forall _ _) ops_take _ I)|]. rewrite F, B. split; [vm_compute; discriminate|reflexivity].
Qed.
Print Assumptions C78_refuted.

(* The short signature is right for every opcode; the long one if there are no optional arguments, and
   otherwise it is right up to the brackets. *)
Theorem C78_partial n p : In (n, p) ops_list -> exists m o, takes p m o /\
  args_sig (dc_args (doc_of p)) = bracketed short_word m o /\
  full_sig (bs n) (dc_args (doc_of p)) = bs n ++ bs " " ++ join (map long_word m ++ map (fun a => bs "[" ++ long_word a) o) /\
  (o = [] -> full_sig (bs n) (dc_args (doc_of p)) = bs n ++ bs " " ++ bracketed long_word m o) /\
  closes 0 (args_sig (dc_args (doc_of p))) = true /\
  (closes 0 (full_sig (bs n) (dc_args (doc_of p))) = true <-> o = []).
Proof.
  intros I. pose proof (proj1 (Forall_forall _ _) ops_take _ I) as T. cbn [snd] in T. exists (mandatory p), (optional p). split; [exact T|].
  pose proof (proj1 (forallb_forall _ _) ops_close _ I) as C. cbn [snd] in C.
  pose proof (proj1 (forallb_forall _ _) ops_open _ I) as D. apply eqb_prop in D. cbn [fst snd] in D. rewrite D. clear D.
  destruct (args_split p) as [m [o [E [M [O [Em Eo]]]]]]. rewrite E in *. rewrite Em, Eo.
  split; [apply short_sig; assumption|]. rewrite (long_sig (bs n) m o M O). split; [reflexivity|].
  split. { intros N. rewrite N. cbn [map]. rewrite app_nil_r. unfold bracketed. rewrite app_nil_r. reflexivity. }
  split; [exact C|]. destruct (map strip o); split; intros H; first [reflexivity|discriminate H].
Qed.
Print Assumptions C78_partial.
Theorem C78_unique p m o m' o' : takes p m o -> takes p m' o' -> m = m' /\ o = o'.
Proof. apply takes_unique. Qed.
Print Assumptions C78_unique.

(* What a completion inserts: the name and every argument once, as fields numbered from 1. *)
Theorem C78_inserted n p m o : In (n, p) ops_list -> takes p m o ->
  filled (insert_text (bs n) (dc_args (doc_of p))) = match m ++ o with [] => [] | l => bs n ++ bs " " ++ join (map (fun a => bs (tk_name a)) l) end /\
  stops (insert_text (bs n) (dc_args (doc_of p))) = seq 1 (length (m ++ o)).
Proof. apply insert_takes. Qed.
Print Assumptions C78_inserted.

Example C78_ex : match ops_get (bs "gtxn"), ops_get (bs "switch") with
  | Some p, Some q =>
      args_sig (dc_args (doc_of p)) = bs "t f [i]" /\ takes p [Taken "t" IUint8 false; Taken "f" ITxnField false] [Taken "i" IUint8 false] /\
      full_sig (bs "gtxn") (dc_args (doc_of p)) = bs "gtxn {uint8 : t} {transaction field index : f} [{uint8 : i}" /\
      insert_text (bs "gtxn") (dc_args (doc_of p)) = bs "gtxn ${1:t} ${2:f} ${3:i}" /\
      args_sig (dc_args (doc_of q)) = bs "label, ..." /\ full_sig (bs "switch") (dc_args (doc_of q)) = bs "switch {label name : label, ...}"
  | _, _ => False end.
Proof.
  destruct (ops_get (bs "gtxn")) as [p|] eqn:P; [|vm_compute in P; discriminate P]. destruct (ops_get (bs "switch")) as [q|] eqn:Q; [|vm_compute in Q; discriminate Q].
  assert (T : takes p (mandatory p) (optional p)) by (destruct (get_in _ _ P) as [s [I _]]; exact (proj1 (Forall_forall _ _) ops_take _ I)).
  vm_compute in P. injection P as <-. vm_compute in Q. injection Q as <-. split; [vm_compute; reflexivity|]. split; [exact T|]. vm_compute. repeat split.
Qed.

(* different types are shown with different words; only numbers with and without named constants share one *)
Theorem C78_types k k' : type_text k = type_text k' ->
  k = k' \/ (k = IInt /\ k' = IConstInt) \/ (k = IConstInt /\ k' = IInt).
Proof. destruct k, k'; intros E; try discriminate E; auto. Qed.
Print Assumptions C78_types.
Example C78_types_ex : type_text IInt = type_text IConstInt /\ type_text IInt8 = bs "int8" /\ type_text IUint8 = bs "uint8".
Proof. repeat split. Qed.
