(* Named fields: the readers of parser.go against the published tables. *)
From Verif Require Import Base LexSpec Expr Fields Strconv Literals LiteralsProofs Codec CodecProofs Print OpTable Process AvmFields.
From Coq Require Import Lia FinFun.

(* what a group reads: the entries of the table, from their version on, and 8-bit numerals *)
Definition reads_table (read : N -> str -> option (N * bool)) (t : list (string * N)) : Prop :=
  forall v s, (1 <= v)%N ->
    read v s = match field_of t (string_of_list_ascii s) with
               | Some (i, w) => if (v <? w)%N then None else Some (i, true)
               | None => match read_uint8 s with Some n => Some (n, false) | None => None end
               end.

(* the code's table in the same form *)
Definition table_of (sp : list field_spec) : list (string * N) :=
  map (fun s => (string_of_list_ascii (f_name s), N.max 1 (f_version s))) sp.

Lemma bs_back s : bs (string_of_list_ascii s) = s.
Proof. unfold bs. apply list_ascii_of_string_of_list_ascii. Qed.
Lemma back_bs n : string_of_list_ascii (bs n) = n.
Proof. unfold bs. apply string_of_list_ascii_of_string. Qed.
Lemma seqb_names a b : seqb a b = String.eqb (string_of_list_ascii a) (string_of_list_ascii b).
Proof.
  destruct (seqb_spec a b) as [->|N]; symmetry; [apply String.eqb_refl|].
  apply String.eqb_neq. intros E. apply N. rewrite <- (bs_back a), <- (bs_back b), E. reflexivity.
Qed.

(* with distinct names the first and the last entry of a name coincide *)
Lemma spec_by_name_acc sp : forall i s acc,
  spec_by_name_from i sp s acc = match spec_by_name_from i sp s None with Some x => Some x | None => acc end.
Proof.
  induction sp as [|a sp IH]; intros i s acc; [reflexivity|]. cbn [spec_by_name_from].
  destruct (seqb (f_name a) s); [|exact (IH _ _ _)].
  rewrite (IH (i + 1)%N s (Some (i, a))). destruct (spec_by_name_from (i + 1) sp s None); reflexivity.
Qed.
Lemma spec_by_name_out sp : forall i s, ~ In s (map f_name sp) -> spec_by_name_from i sp s None = None.
Proof.
  induction sp as [|a sp IH]; intros i s N; [reflexivity|]. cbn [spec_by_name_from map In] in *.
  destruct (seqb_spec (f_name a) s); [tauto|]. apply IH. tauto.
Qed.
Lemma spec_by_name_table sp : NoDup (map f_name sp) -> forall i s,
  match spec_by_name_from i sp s None with
  | Some (f, x) => field_from i (table_of sp) (string_of_list_ascii s) = Some (f, N.max 1 (f_version x)) /\
                   (i <= f)%N /\ nth_error sp (N.to_nat (f - i)) = Some x /\ f_name x = s
  | None => field_from i (table_of sp) (string_of_list_ascii s) = None
  end.
Proof.
  induction sp as [|a sp IH]; intros D i s; [reflexivity|].
  cbn [map] in D. inversion D as [|? ? Na Ns]; subst. cbn [spec_by_name_from table_of map field_from].
  rewrite <- seqb_names. destruct (seqb_spec (f_name a) s) as [E|E].
  - rewrite spec_by_name_acc, spec_by_name_out by congruence.
    repeat split; [lia|now rewrite N.sub_diag|exact E].
  - specialize (IH Ns (i + 1)%N s). destruct (spec_by_name_from (i + 1) sp s None) as [[f x]|]; [|exact IH].
    destruct IH as [IH1 [IH2 [IH3 IH4]]]. repeat split; [exact IH1|lia| |exact IH4].
    replace (N.to_nat (f - i)) with (S (N.to_nat (f - (i + 1)))) by lia. exact IH3.
Qed.

Fixpoint distinct (l : list str) : bool :=
  match l with [] => true | x :: r => negb (mem x r) && distinct r end.
Lemma distinct_nodup l : distinct l = true -> NoDup l.
Proof.
  induction l as [|x l IH]; intros H; [constructor|]. cbn [distinct] in H. apply Bool.andb_true_iff in H as [A B].
  constructor; [|exact (IH B)]. intros I. apply mem_In in I. rewrite I in A. discriminate.
Qed.

Lemma read_field_table sp : distinct (map f_name sp) = true -> reads_table (read_field sp) (table_of sp).
Proof.
  intros D v s V. unfold read_field, spec_by_name, field_of.
  pose proof (spec_by_name_table sp (distinct_nodup _ D) 0 s) as H.
  destruct (spec_by_name_from 0 sp s None) as [[f x]|]; [|now rewrite H].
  destruct H as [-> _]. destruct (N.ltb_spec v (f_version x)), (N.ltb_spec v (N.max 1 (f_version x))); reflexivity || lia.
Qed.
Lemma read_txn_table : reads_table (read_txn_field ITxnField) (table_of txnFieldSpecs).
Proof.
  intros v s V. rewrite <- (read_field_table txnFieldSpecs eq_refl v s V). reflexivity.
Qed.

Lemma tables_agree :
  table_of txnFieldSpecs = avm_txn /\ table_of globalFieldSpecs = avm_global /\ table_of ecdsaCurveSpecs = avm_ecdsa /\
  table_of base64EncodingSpecs = avm_base64 /\ table_of jsonRefSpecs = avm_json /\ table_of vrfStandardSpecs = avm_vrf /\
  table_of blockFieldSpecs = avm_block /\ table_of assetHoldingFieldSpecs = avm_asset_holding /\
  table_of assetParamsFieldSpecs = avm_asset_params /\ table_of appParamsFieldSpecs = avm_app_params /\
  table_of acctParamsFieldSpecs = avm_acct_params.
Proof. repeat split; vm_compute; reflexivity. Qed.

Theorem groups_read :
  reads_table (read_txn_field ITxnField) avm_txn /\ reads_table (read_field globalFieldSpecs) avm_global /\
  reads_table (read_field ecdsaCurveSpecs) avm_ecdsa /\ reads_table (read_field base64EncodingSpecs) avm_base64 /\
  reads_table (read_field jsonRefSpecs) avm_json /\ reads_table (read_field vrfStandardSpecs) avm_vrf /\
  reads_table (read_field blockFieldSpecs) avm_block /\ reads_table (read_field assetHoldingFieldSpecs) avm_asset_holding /\
  reads_table (read_field assetParamsFieldSpecs) avm_asset_params /\ reads_table (read_field appParamsFieldSpecs) avm_app_params /\
  reads_table (read_field acctParamsFieldSpecs) avm_acct_params.
Proof.
  destruct tables_agree as (<- & <- & <- & <- & <- & <- & <- & <- & <- & <- & <-).
  split; [exact read_txn_table|]. repeat split; apply read_field_table; vm_compute; reflexivity.
Qed.

(* fields set by itxn_field, and array fields *)
Lemma txn_side_tables : forallb (fun x =>
    match version_of avm_itxn (string_of_list_ascii (f_name x)) with
    | Some w => (f_itx x =? w)%N && negb (w =? 0)%N
    | None => (f_itx x =? 0)%N
    end && Bool.eqb (f_array x) (existsb (String.eqb (string_of_list_ascii (f_name x))) avm_txn_arrays)) txnFieldSpecs = true.
Proof. vm_compute. reflexivity. Qed.

Lemma txn_lookup s : exists o, spec_by_name txnFieldSpecs s = o /\
  match o with
  | Some (f, x) => In x txnFieldSpecs /\ f_name x = s /\ field_of avm_txn (string_of_list_ascii s) = Some (f, N.max 1 (f_version x))
  | None => field_of avm_txn (string_of_list_ascii s) = None
  end.
Proof.
  eexists. split; [reflexivity|]. unfold spec_by_name, field_of.
  pose proof (spec_by_name_table txnFieldSpecs (distinct_nodup (map f_name txnFieldSpecs) eq_refl) 0 s) as H.
  destruct tables_agree as [A _]. rewrite A in H.
  destruct (spec_by_name_from 0 txnFieldSpecs s None) as [[f x]|]; [|exact H].
  destruct H as [H1 [_ [H2 H3]]]. split; [exact (nth_error_In _ _ H2)|]. split; assumption.
Qed.

Theorem itxn_reads v s :
  read_txn_field IItxnField v s =
  match field_of avm_txn (string_of_list_ascii s) with
  | Some (i, _) => match version_of avm_itxn (string_of_list_ascii s) with
                   | Some w => if (v <? w)%N then None else Some (i, true)
                   | None => None
                   end
  | None => match read_uint8 s with Some n => Some (n, false) | None => None end
  end.
Proof.
  destruct (txn_lookup s) as [o [E H]]. unfold read_txn_field. rewrite E. destruct o as [[f x]|]; [|now rewrite H].
  destruct H as [I [Nx ->]]. pose proof txn_side_tables as A. rewrite forallb_forall in A. specialize (A x I).
  apply Bool.andb_true_iff in A as [A _]. rewrite Nx in A.
  destruct (version_of avm_itxn (string_of_list_ascii s)) as [w|].
  - apply Bool.andb_true_iff in A as [A B]. apply N.eqb_eq in A. rewrite A. apply Bool.negb_true_iff in B. rewrite B. reflexivity.
  - rewrite A. reflexivity.
Qed.

Theorem txna_reads v s :
  read_txn_field ITxnaField v s =
  match field_of avm_txn (string_of_list_ascii s) with
  | Some (i, _) => if existsb (String.eqb (string_of_list_ascii s)) avm_txn_arrays then Some (i, true) else None
  | None => match read_uint8 s with Some n => Some (n, false) | None => None end
  end.
Proof.
  destruct (txn_lookup s) as [o [E H]]. unfold read_txn_field. rewrite E. destruct o as [[f x]|]; [|now rewrite H].
  destruct H as [I [Nx ->]]. pose proof txn_side_tables as A. rewrite forallb_forall in A. specialize (A x I).
  apply Bool.andb_true_iff in A as [_ A]. apply Bool.eqb_prop in A. rewrite A, Nx. reflexivity.
Qed.

(* ------------------------------------------------------------------------------------------ *)
(* printing *)
Lemma nth_field_from t : forall i n v k, NoDup (map fst t) -> nth_error t k = Some (n, v) ->
  field_from i t n = Some ((i + N.of_nat k)%N, v).
Proof.
  induction t as [|[m w] t IH]; intros i n v k D N; [destruct k; discriminate|].
  cbn [map fst] in D. inversion D as [|? ? Nm Nt]; subst. cbn [field_from]. destruct k as [|k].
  - injection N as -> ->. rewrite String.eqb_refl, N.add_0_r. reflexivity.
  - cbn in N. destruct (String.eqb_spec m n) as [->|_].
    + exfalso. apply Nm. apply nth_error_In in N. exact (in_map fst _ _ N).
    + rewrite (IH (i + 1)%N n v k Nt N). f_equal. f_equal. lia.
Qed.

Theorem printed_read sp ty inv f v x : distinct (map f_name sp) = true -> nth_error sp (N.to_nat f) = Some x ->
  (f_version x <= v)%N -> read_field sp v (field_text sp ty inv f) = Some (f, true).
Proof.
  intros D N V. unfold field_text. rewrite N. unfold read_field, spec_by_name.
  pose proof (spec_by_name_table sp (distinct_nodup _ D) 0 (f_name x)) as H.
  assert (field_from 0 (table_of sp) (string_of_list_ascii (f_name x)) = Some (f, N.max 1 (f_version x))) as F.
  { rewrite (nth_field_from (table_of sp) 0 _ (N.max 1 (f_version x)) (N.to_nat f)).
    - f_equal. f_equal. lia.
    - unfold table_of. rewrite map_map. cbn [fst].
      rewrite <- (map_map f_name string_of_list_ascii). apply FinFun.Injective_map_NoDup; [|exact (distinct_nodup _ D)].
      intros a b E. rewrite <- (bs_back a), <- (bs_back b), E. reflexivity.
    - unfold table_of. rewrite nth_error_map, N. reflexivity. }
  destruct (spec_by_name_from 0 sp (f_name x) None) as [[g y]|]; rewrite F in H; [|discriminate].
  destruct H as [H [_ [Hy _]]]. injection H as <- E. rewrite N.sub_0_r in Hy. rewrite N in Hy. injection Hy as <-.
  destruct (N.ltb_spec v (f_version x)); [lia|reflexivity].
Qed.
