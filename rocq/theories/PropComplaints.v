(* Properties C103 and C104: what is said about an operand that is refused. *)
From Verif Require Import Base LexSpec Lexer Expr Linter Fields Strconv Literals Codec OpTable Process ProcessSpec
  ErrorSpec ErrorProofs Complaints ComplaintSpec ComplaintProofs.
From Verif Require Import PropProcess.
From Coq Require Import Lia.

(* ---------------------------------------------------------------- C103: a refusal is explained *)
(* Every error about an operand comes with a complaint about the token that is marked, and there is
   none without an error. *)
Theorem C103 en src r i l : process en src = Ret r -> nth_error (r_lines r) i = Some l ->
  forall t, In (error_at t RValue) (errors_on i (r_diag r)) <->
    exists t' u b c, l = u ++ t' :: b /\ said en (version_at i (r_lines r)) u t' b c /\ error_at t' RValue = error_at t RValue.
Proof.
  intros E N t. destruct (errors_exact en src r i l E N) as [[S ->]|[t0 [rs [NS [-> M]]]]].
  - split; [intros []|]. intros (t' & u & b & c & -> & H & _). apply said_mistake in H.
    destruct (mistake_marks _ _ _ _ _ H) as [f [F _]]. apply fault_statement in S. congruence.
  - split.
    + intros [Q|[]]. assert (rs = RValue) by (unfold error_at in Q; congruence). subst rs.
      destruct (mistake_said _ _ _ _ M) as (u & b & c & -> & H). exists t0, u, b, c. auto.
    + intros (t' & u & b & c & -> & H & Q). apply said_mistake in H. destruct (mistake_unique _ _ _ _ _ _ _ M H) as [-> ->].
      left. exact Q.
Qed.
Print Assumptions C103.

(* one complaint for a line at most *)
Theorem C103_one en v u t b c u' t' b' c' : said en v u t b c -> said en v u' t' b' c' -> u ++ t :: b = u' ++ t' :: b' ->
  u = u' /\ t = t' /\ b = b' /\ c = c'.
Proof. exact (said_unique en v u t b c u' t' b' c'). Qed.
Print Assumptions C103_one.

(* A complaint that tells a version can be taken at its word: the version in force is told, too, it is
   lower, up to the version told the operand stays refused, and from then on neither it nor anything
   before it in the line is. *)
Theorem C103_version en v u t b k n need got : said en v u t b (Complaint k n (CTooNew need got)) ->
  got = v /\ (v < need)%N /\
  (forall w, (v <= w < need)%N -> said en w u t b (Complaint k n (CTooNew need w))) /\
  (forall w u' t' b' c', (need <= w)%N -> u ++ t :: b = u' ++ t' :: b' -> said en w u' t' b' c' -> length u < length u').
Proof. exact (said_version en v u t b k n need got). Qed.
Print Assumptions C103_version.

(* and where none is told no later version helps *)
Theorem C103_no_version en v u t b k n x : said en v u t b (Complaint k n x) -> (forall need got, x <> CTooNew need got) ->
  forall w, (v <= w)%N -> said en w u t b (Complaint k n x).
Proof.
  intros S F. apply (said_forever en v u t b _ S). cbn [c_cause]. destruct x; try reflexivity. destruct (F need got eq_refl).
Qed.
Print Assumptions C103_no_version.

(* "value out of range" is said of a text exactly if it begins with a numeral whose value is too large;
   s is what is left of the text without the prefix that tells the base *)
Theorem C103_range s base bits : uint_error s base bits = Some NumRange <->
  s <> [] /\ exists u w m, (if (base =? 0)%N then snd (prefix0 s) else s) = u ++ w /\
    numeral (base =? 0)%N (if (base =? 0)%N then fst (prefix0 s) else base) u m /\ (2 ^ bits <= m)%N.
Proof. exact (uint_range s base bits). Qed.
Print Assumptions C103_range.

(* the complaints of the conversions are there exactly where their values are not *)
Theorem C103_values en v k a r : operand_error en v k a r = None <->
  operand en v k a r <> None \/ (k = IBytes /\ encoding a = true /\ r = []).
Proof. exact (operand_error_spec en v k a r). Qed.
Print Assumptions C103_values.

(* an inner transaction takes no field that it may not set, and an array no field that has one value,
   whatever the version; both are fields of a transaction *)
Theorem C103_never en v u t b k n x : said en v u t b (Complaint k n x) -> x = CNotArray \/ x = CNotInner ->
  (x = CNotArray -> k = ITxnaField) /\ (x = CNotInner -> k = IItxnField) /\
  exists f sp, spec_by_name txnFieldSpecs (tok_v t) = Some (f, sp) /\ (x = CNotArray -> f_array sp = false) /\ (x = CNotInner -> f_itx sp = 0%N).
Proof.
  intros S X. inversion S as [|o u0 t0 b0 p k0 n0 a r c K R U Q]; subst; [destruct X; discriminate|].
  assert (F : forall specs, field_error specs v a <> Some x).
  { intros specs. unfold field_error. destruct (spec_by_name specs a) as [[f sp]|].
    - destruct (v <? f_version sp)%N; destruct X as [->| ->]; discriminate.
    - destruct (uint_error a 10 8); destruct X as [->| ->]; discriminate. }
  assert (T : forall k', k' = ITxnField \/ k' = IItxnField \/ k' = ITxnaField -> txn_field_error k' v a = Some x ->
    (x = CNotArray -> k' = ITxnaField) /\ (x = CNotInner -> k' = IItxnField) /\
    exists f sp, spec_by_name txnFieldSpecs a = Some (f, sp) /\ (x = CNotArray -> f_array sp = false) /\ (x = CNotInner -> f_itx sp = 0%N)).
  { intros k' Hk. unfold txn_field_error. destruct (spec_by_name txnFieldSpecs a) as [[f sp]|].
    - destruct Hk as [->|[->| ->]].
      + destruct (v <? f_version sp)%N; intros E; destruct X as [->| ->]; discriminate.
      + destruct (N.eqb_spec (f_itx sp) 0) as [Z|Z].
        * intros [= <-]. split; [discriminate|]. split; [reflexivity|]. exists f, sp. split; [reflexivity|]. split; [discriminate|auto].
        * destruct (v <? f_itx sp)%N; intros E; destruct X as [->| ->]; discriminate.
      + destruct (f_array sp) eqn:A; [discriminate|]. intros [= <-]. split; [reflexivity|]. split; [discriminate|].
        exists f, sp. split; [reflexivity|]. split; [auto|discriminate].
    - destruct (uint_error a 10 8); intros E; destruct X as [->| ->]; discriminate. }
  destruct k; cbn [operand_error at_fault] in U, Q; try (destruct (F _ U)); try (injection Q as -> _; apply T; auto; fail); exfalso.
  - destruct (uint_error a 10 8); destruct X as [->| ->]; discriminate.
  - destruct (int_error a 10 8); destruct X as [->| ->]; discriminate.
  - destruct (uint_error a 0 64); destruct X as [->| ->]; discriminate.
  - destruct (const_error a); destruct X as [->| ->]; discriminate.
  - unfold bytes_error, parens_error, library in U.
    repeat match type of U with
    | context [if ?b then _ else _] => destruct b
    | context [match ?o with _ => _ end] => destruct o
    end; destruct X as [->| ->]; discriminate.
  - discriminate.
  - destruct (addr_ok en a); destruct X as [->| ->]; discriminate.
  - destruct (nth_error a 0); [destruct (nth_error a (length a - 1)); [destruct (_ || _)|]|]; destruct X as [->| ->]; discriminate.
Qed.
Print Assumptions C103_never.

(* The message tells the causes apart: two complaints about one text, read as one kind of operand, with
   the same message have the same cause. *)
Theorem C103_apart en en' v v' k a r r' c c' x : operand_error en v k a r = Some c -> operand_error en' v' k a r' = Some c' ->
  cause_text c = Some x -> cause_text c' = Some x -> c = c'.
Proof. exact (causes_apart en en' v v' k a r r' c c' x). Qed.
Print Assumptions C103_apart.

(* and its words are these; the version in force and the text are those of the line *)
Theorem C103_words en v u t b k n c x : said en v u t b (Complaint k n c) -> k <> IBytes ->
  complaint_text (Complaint k n c) = Some x ->
  match c with
  | CUint s NumRange | CInt s NumRange | CField s NumRange => s = tok_v t /\ exists y, x = y ++ bs """: value out of range"
  | CUint s NumSyntax | CInt s NumSyntax | CField s NumSyntax => s = tok_v t /\ exists y, x = y ++ bs """: invalid syntax"
  | CTooNew need _ => exists y, x = y ++ bs "not available in this version (need >= " ++ dec need ++ bs ", got: " ++ dec v ++ bs ")"
  | CNotArray => exists y, x = y ++ bs "not available in array context"
  | CNotInner => exists y, x = y ++ bs "not available for internal transactions"
  | CQuotes => x = bs "missing quotes"
  | _ => False
  end.
Proof.
  intros S K E. unfold complaint_text in E. cbn [c_kind c_name c_cause] in E.
  assert (A : exists a r, operand_error en v k a r = Some c /\ a = tok_v t).
  { inversion S as [o a0 t0 b0 e Kd V U|o u0 t0 b0 p k0 n0 a r c0 Kd R U Q]; subst.
    - exists (tok_v t), []. cbn [operand_error]. rewrite U. auto.
    - exists a, r. split; [exact U|]. destruct k; try congruence; cbn [at_fault] in Q; congruence. }
  destruct A as (a & r & U & ->). pose proof (cause_of _ _ _ _ _ _ U K) as C.
  assert (H : forall a b : str, Some a = Some b -> a = b) by congruence.
  destruct c; cbn [cause_text] in E; try (destruct C; fail).
  - apply num_words in E. destruct e; auto.
  - apply num_words in E. destruct e; auto.
  - destruct (num_text "ParseUint" s e) as [y|] eqn:Ey; [|discriminate]. cbn [prefixed] in E. apply H in E. subst x.
    pose proof (num_words "ParseUint" s e y []) as W. rewrite Ey in W. destruct (W eq_refl) as [z ->].
    destruct e; (split; [exact C|]); rewrite !app_assoc; eexists; reflexivity.
  - cbn [prefixed] in E. apply H in E. subst. eexists. reflexivity.
  - cbn [prefixed] in E. apply H in E. subst. eexists. reflexivity.
  - cbn [prefixed] in E. apply H in E. subst. eexists. reflexivity.
  - subst k. cbn in E. apply H in E. subst. reflexivity.
  - discriminate.
Qed.
Print Assumptions C103_words.

(* the texts *)
Fixpoint first_said (en : env) (v : N) (p : prog) (args : list str) {struct p} : option complaint :=
  match p with
  | MinVersion _ p | ModeMinVersion _ _ p => first_said en v p args
  | Read k n f =>
      match args with
      | [] => None
      | a :: r => match operand en v k a r with Some x => first_said en v (f (fst x)) (snd x)
                  | None => option_map (Complaint k n) (operand_error en v k a r) end
      end
  | _ => None
  end.
Lemma first_said_sound en v p : forall args c, first_said en v p args = Some c ->
  exists a r, read_as en v p args (c_kind c) (c_name c) a r /\ operand_error en v (c_kind c) a r = Some (c_cause c).
Proof.
  induction p as [e|x p IH|o x p IH|k nm f IH|nm f IH|nm f IH|nm f IH|nm f IH]; intros args c E; cbn [first_said] in E; try discriminate.
  - destruct (IH _ _ E) as (a & r & R & Q). exists a, r. split; [constructor; exact R|exact Q].
  - destruct (IH _ _ E) as (a & r & R & Q). exists a, r. split; [constructor; exact R|exact Q].
  - destruct args as [|a r]; [discriminate|]. destruct (operand en v k a r) as [[y z]|] eqn:O.
    + cbn [fst snd] in E. destruct (IH _ _ _ E) as (a' & r' & R & Q). exists a', r'. split; [econstructor; eassumption|exact Q].
    + destruct (operand_error en v k a r) as [x|] eqn:U; [|discriminate]. injection E as <-. exists a, r. split; [constructor|exact U].
Qed.
Definition told (v : N) (op : string) (args : list string) : option string :=
  match ops_get (bs op) with
  | Some p => match first_said env0 v p (map bs args) with
              | Some c => option_map string_of_list_ascii (complaint_text c)
              | None => None
              end
  | None => None
  end.
Example C103_ex :
  told 3 "txn" ["NumLogs"]%string = Some "failed to parse txn field: f: not available in this version (need >= 5, got: 3)"%string /\
  told 8 "itxn_field" ["TxID"]%string = Some "failed to parse txn field: f: not available for internal transactions"%string /\
  told 8 "txna" ["Fee"; "0"]%string = Some "failed to parse txn field: f: not available in array context"%string /\
  told 8 "txna" ["Accounts"; "256"]%string = Some "failed to parse uint8: i: strconv.ParseUint: parsing ""256"": value out of range"%string /\
  told 8 "txna" ["Accounts"; "999x"]%string = Some "failed to parse uint8: i: strconv.ParseUint: parsing ""999x"": value out of range"%string /\
  told 8 "txna" ["Accounts"; "99x"]%string = Some "failed to parse uint8: i: strconv.ParseUint: parsing ""99x"": invalid syntax"%string /\
  told 8 "frame_dig" ["-129"]%string = Some "failed to parse int8: index: strconv.ParseInt: parsing ""-129"": value out of range"%string /\
  told 8 "byte" ["base32(AA"]%string = Some "byte base32 arg lacks close paren"%string /\
  told 8 "byte" ["x"]%string = Some "byte arg did not parse: x"%string /\
  told 8 "byte" ["""\q"""]%string = Some "invalid escape seq \q"%string /\
  told 8 "byte" ["""\x4"""]%string = Some "non-terminated hex seq"%string /\
  told 8 "method" ["x"]%string = Some "missing quotes"%string.
Proof. vm_compute. repeat split; reflexivity. Qed.

(* ---------------------------------------------------------------- C104: a complaint names the operand *)
(* Complaints about a number or a field name the kind of operand and the operand.  Not about the fields
   of global: an unknown one is said to be no transaction field. *)
Theorem C104_refuted : exists u t b k n c x,
  said env0 6 u t b (Complaint k n c) /\ family k <> None /\ complaint_text (Complaint k n c) = Some x /\ ~ names_operand k n x /\
  k = IGlobal /\ x = bs "failed to parse txn field: strconv.ParseUint: parsing ""Bogus"": invalid syntax".
Proof.
  exists [Token (bs "global") 0 0 6 TokValue], (Token (bs "Bogus") 0 7 12 TokValue), [], IGlobal, "field"%string,
    (CField (bs "Bogus") NumSyntax).
  eexists. split; [|split; [discriminate|split; [reflexivity|split; [|split; reflexivity]]]].
  - eapply SOperand with (u := []) (a := bs "Bogus") (r := []); [reflexivity|cbn; repeat (apply RMin || apply RHere)|reflexivity|reflexivity].
  - intros (w & x & F & E). injection F as <-. discriminate E.
Qed.
Print Assumptions C104_refuted.

(* nor about a curve: its kind is misspelt *)
Theorem C104_curve : exists u t b k n c x,
  said env0 6 u t b (Complaint k n c) /\ complaint_text (Complaint k n c) = Some x /\ ~ names_operand k n x /\
  k = IEcdsaCurve /\ x = bs "failed to parse ESCDS curve index: curve index: not available in this version (need >= 7, got: 6)".
Proof.
  exists [Token (bs "ecdsa_verify") 0 0 12 TokValue], (Token (bs "Secp256r1") 0 13 22 TokValue), [], IEcdsaCurve, "curve index"%string,
    (CTooNew 7 6).
  eexists. split; [|split; [reflexivity|split; [|split; reflexivity]]].
  - eapply SOperand with (u := []) (a := bs "Secp256r1") (r := []); [reflexivity|cbn; repeat (apply RMin || apply RHere)|reflexivity|reflexivity].
  - intros (w & x & F & E). injection F as <-. discriminate E.
Qed.
Print Assumptions C104_curve.

(* the kinds for which it is so *)
Definition named (k : imm) : bool :=
  match k with
  | IInt | IConstInt | IUint8 | IInt8 | ITxnField | IItxnField | ITxnaField | IJsonRef | IEcGroup | IBase64 => true
  | _ => false
  end.
Theorem C104_partial en v u t b k n c x : named k = true -> said en v u t b (Complaint k n c) ->
  complaint_text (Complaint k n c) = Some x -> names_operand k n x.
Proof.
  intros K _ E. unfold complaint_text in E. cbn [c_kind c_name c_cause] in E. destruct (cause_text c) as [y|]; [|discriminate].
  cbn [prefixed] in E. injection E as <-.
  destruct k; try discriminate K; (eexists; exists y; split; [reflexivity|]; unfold wrapping; rewrite <- !app_assoc; reflexivity).
Qed.
Print Assumptions C104_partial.

(* and the others never name it: a text that begins with the kind is one about another kind *)
Theorem C104_others en v u t b k n c x : named k = false -> family k <> None -> said en v u t b (Complaint k n c) ->
  complaint_text (Complaint k n c) = Some x -> ~ names_operand k n x.
Proof.
  intros K F S E (w & y & Ew & Ey).
  assert (C : forall specs, (exists a, field_error specs v a = Some c) -> forall z, cause_text c = Some z ->
    (exists z', z = bs "failed to parse txn field: strconv" ++ z') \/ exists z', z = bs "not available" ++ z').
  { intros specs [a Q] z Z. unfold field_error in Q. destruct (spec_by_name specs a) as [[f sp]|].
    - destruct (v <? f_version sp)%N; [|discriminate]. injection Q as <-. cbn [cause_text] in Z. injection Z as <-. right. eexists. reflexivity.
    - destruct (uint_error a 10 8) as [e|]; [|discriminate]. injection Q as <-. cbn [cause_text] in Z. unfold num_text in Z.
      destruct (quote_chars a); [|discriminate]. cbn [prefixed] in Z. injection Z as <-. left. eexists. reflexivity. }
  inversion S as [|o u0 t0 b0 p k0 n0 a r c0 Kd R U Q]; subst; [discriminate K|].
  unfold complaint_text in E. cbn [c_kind c_name c_cause] in E. destruct (cause_text c) as [z|] eqn:Z; [|discriminate].
  cbn [prefixed] in E.
  destruct k; try discriminate K; try (destruct (F eq_refl)); cbn [operand_error] in U;
    destruct (C _ (ex_intro _ a U) z eq_refl) as [[z' ->]|[z' ->]]; injection Ew as <-;
    apply (f_equal (fun o => match o with Some l => firstn 18 l | None => [] end)) in E; vm_compute in E; discriminate E.
Qed.
Print Assumptions C104_others.

Example C104_ex :
  told 8 "global" ["Bogus"]%string = Some "failed to parse txn field: strconv.ParseUint: parsing ""Bogus"": invalid syntax"%string /\
  told 8 "block" ["Bogus"]%string = told 8 "global" ["Bogus"]%string /\
  told 8 "json_ref" ["Bogus"]%string = Some "failed to parse JSON ref field: r: failed to parse txn field: strconv.ParseUint: parsing ""Bogus"": invalid syntax"%string.
Proof. vm_compute. repeat split; reflexivity. Qed.
