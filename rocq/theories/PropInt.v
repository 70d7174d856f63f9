(* Property C87: integer constants. *)
From Verif Require Import Base LexSpec Lexer Expr Linter Fields Strconv Literals Codec OpTable Process ProcessSpec ProcessThms
  ErrorSpec ErrorProofs IntSpec IntProofs.
From Verif Require Import PropProcess.

(* ---------------------------------------------------------------- C87: integers mean what they say *)
Lemma lookup_names s n :
  ((lookup txn_type_map s = Some n \/ (lookup txn_type_map s = None /\ lookup on_completion_map s = Some n)) <->
   exists x, s = bs x /\ (constant_name x n \/ type_description x n)) /\
  ((lookup txn_type_map s = None /\ lookup on_completion_map s = None) <->
   forall x m, s = bs x -> ~ (constant_name x m \/ type_description x m)).
Proof.
  assert (F : forall (m : list (string * N)) k, lookup m s = Some k -> exists x, In (x, k) m /\ s = bs x).
  { intros m k. unfold lookup. destruct (find _ m) as [[x y]|] eqn:E; [|discriminate]. intros H. injection H as ->.
    apply find_some in E. destruct E as [I E]. exists x. split; [exact I|]. cbn [fst] in E. apply seqb_eq in E. auto. }
  assert (A : forall x k, s = bs x -> constant_name x k \/ type_description x k ->
    lookup txn_type_map s = Some k \/ (lookup txn_type_map s = None /\ lookup on_completion_map s = Some k)).
  { intros x k -> [H|H]; destruct H; vm_compute; auto. }
  assert (B : forall k, lookup txn_type_map s = Some k \/ lookup on_completion_map s = Some k ->
    exists x, s = bs x /\ (constant_name x k \/ type_description x k)).
  { intros k [H|H]; apply F in H; destruct H as [x [I ->]]; exists x; (split; [reflexivity|]); cbn [In txn_type_map on_completion_map] in I;
    repeat (destruct I as [I|I]; [injection I as <- <-; first [left; constructor|right; constructor]|]); destruct I. }
  split; split.
  - intros [H|[_ H]]; apply B; auto.
  - intros [x [E H]]. exact (A x n E H).
  - intros [H1 H2] x m E H. destruct (A x m E H) as [K|[_ K]]; congruence.
  - intros H. destruct (lookup txn_type_map s) as [k|] eqn:E1.
    { destruct (B k ltac:(auto)) as [x [E K]]. destruct (H x k E K). }
    destruct (lookup on_completion_map s) as [k|] eqn:E2; [|auto].
    destruct (B k ltac:(auto)) as [x [E K]]. destruct (H x k E K).
Qed.

Lemma no_name_number s : (exists x n, s = bs x /\ (constant_name x n \/ type_description x n)) -> forall m, ~ number s m.
Proof.
  intros [x [n [-> H]]] m K. apply parse_uint_numeral in K. destruct H as [H|H]; destruct H; vm_compute in K; discriminate.
Qed.

(* the operand of int, of pushint, intcblock, pushints and of #pragma version *)
Theorem C87_operand s n : (read_const_int s = Some n <-> constant s n) /\ (parse_uint s 0 64 = Some n <-> number s n).
Proof.
  split; [|apply parse_uint_numeral]. unfold read_const_int, constant. destruct (lookup_names s n) as [L1 L2]. split.
  - destruct (lookup txn_type_map s) as [k|] eqn:E1.
    { intros H. right. apply L1. left. exact H. }
    destruct (lookup on_completion_map s) as [k|] eqn:E2.
    { intros H. right. apply L1. right. auto. }
    intros H. left. apply parse_uint_numeral. exact H.
  - intros [H|H].
    + assert (X : lookup txn_type_map s = None /\ lookup on_completion_map s = None).
      { apply L2. intros x m E K. exact (no_name_number s (ex_intro _ x (ex_intro _ m (conj E K))) n H). }
      destruct X as [-> ->]. apply parse_uint_numeral. exact H.
    + apply L1 in H. destruct H as [->|[-> ->]]; reflexivity.
Qed.
Print Assumptions C87_operand.

(* a text stands for one number at most *)
Theorem C87_determined s n m : constant s n -> constant s m -> n = m.
Proof. intros H K. apply C87_operand in H, K. congruence. Qed.
Print Assumptions C87_determined.

Lemma int_entries en v t a : tok_t t <> TokComment -> tok_v t = bs "int" ->
  entries en v [t; a] = [match read_const_int (tok_v a) with Some n => IntExpr n | None => EmptyExpr end] /\
  (statement en v [t; a] <-> read_const_int (tok_v a) <> None) /\
  (read_const_int (tok_v a) = None -> mistake en v [t; a] a RValue).
Proof.
  intros NC E.
  assert (K : kind_of [t; a] = LOp opInt [tok_v a]).
  { unfold kind_of. destruct (tok_t t); try congruence; rewrite E; vm_compute; reflexivity. }
  assert (A : assemble en v opInt [tok_v a] = match read_const_int (tok_v a) with Some n => Some (IntExpr n, []) | None => None end).
  { unfold opInt. cbn [assemble operand operand_value]. destruct (read_const_int (tok_v a)); reflexivity. }
  unfold entries, statement. rewrite K, A. split; [|split].
  - destruct (read_const_int (tok_v a)); reflexivity.
  - destruct (read_const_int (tok_v a)) as [n|]; split; try congruence; eauto.
    intros [e H]. discriminate.
  - intros R. apply (MValue en v t [] a [] opInt).
    + exact K.
    + right. exists "value". split; reflexivity.
    + cbn [texts map app]. intros [[e H]|[n [_ H]]].
      * rewrite A, R in H. discriminate.
      * unfold opInt in H. cbn [prog_fault operand operand_value] in H. rewrite R in H. cbn in H. discriminate.
    + intros b. unfold opInt. cbn [texts map app assemble operand operand_value]. rewrite R. reflexivity.
Qed.

(* a line with int: the number of its operand is loaded; anything else is reported *)
Theorem C87 en src r i t a : process en src = Ret r -> filter is_surplus_diag (r_diag r) = [] ->
  nth_error (r_lines r) i = Some [t; a] -> tok_t t <> TokComment -> tok_v t = bs "int" ->
  (forall n, constant (tok_v a) n -> nth_error (r_listing r) i = Some (IntExpr n) /\ errors_on i (r_diag r) = []) /\
  ((forall n, ~ constant (tok_v a) n) ->
   nth_error (r_listing r) i = Some EmptyExpr /\ errors_on i (r_diag r) = [error_at a RValue]).
Proof.
  intros P F L NC E.
  destruct (listing_lines en src r P F) as [_ LL]. destruct (LL i _ L) as [e [Le Ee]]. clear LL.
  destruct (int_entries en (version_at i (r_lines r)) t a NC E) as [I1 [I2 I3]].
  unfold version_at in I1. rewrite I1 in Ee. injection Ee as <-.
  pose proof (errors_exact en src r i _ P L) as X. split.
  - intros n C. apply C87_operand in C. rewrite C in *. split; [exact Le|].
    destruct X as [[_ X]|[u [rs [X _]]]]; [exact X|]. destruct X. apply I2. discriminate.
  - intros N. destruct (read_const_int (tok_v a)) as [n|] eqn:R.
    { destruct (N n). apply C87_operand. exact R. }
    split; [exact Le|]. destruct X as [[X _]|[u [rs [_ [X M]]]]].
    + apply I2 in X. congruence.
    + destruct (mistake_unique en _ _ _ _ _ _ M (I3 eq_refl)) as [-> ->]. exact X.
Qed.
Print Assumptions C87.

Example C87_ex : match process env0 (lines ["int 0x10"; "int 0b1_01"; "int 017"; "int 0o17"; "int 1_000"; "int OptIn"; "int axfer";
    "int ApplicationCall"; "int 18446744073709551615"; "int 18446744073709551616"; "int 1__0"; "int 0x"; "int optin"; "int -1"]) with
  Ret r => r_listing r = map IntExpr [16; 5; 15; 15; 1000; 1; 4; 6; 18446744073709551615]%N ++ repeat EmptyExpr 5 /\
           map dg_line (r_diag r) = [9; 10; 11; 12; 13] | _ => False end.
Proof. vm_compute. split; reflexivity. Qed.

(* the blocks of constants take numbers only *)
Theorem C87_blocks en src r i t args : process en src = Ret r -> filter is_surplus_diag (r_diag r) = [] ->
  nth_error (r_lines r) i = Some (t :: args) -> tok_t t <> TokComment ->
  (forall ns, Forall2 number (texts args) ns ->
     (tok_v t = bs "intcblock" -> nth_error (r_listing r) i = Some (IntcBlockExpr ns)) /\
     (tok_v t = bs "pushints" -> nth_error (r_listing r) i = Some (PushIntsExpr ns))) /\
  ((forall ns, ~ Forall2 number (texts args) ns) -> tok_v t = bs "intcblock" \/ tok_v t = bs "pushints" ->
   nth_error (r_listing r) i = Some EmptyExpr /\ errors_on i (r_diag r) <> []).
Proof.
  intros P F L NC.
  destruct (listing_lines en src r P F) as [_ LL]. destruct (LL i _ L) as [e [Le Ee]]. clear LL.
  pose proof (errors_exact en src r i _ P L) as X. unfold version_at in X.
  assert (AI : forall l ns, all_ints l = Some ns <-> Forall2 number l ns).
  { induction l as [|a l IH]; intros ns; cbn [all_ints].
    - split; [intros H; injection H as <-; constructor|intros H; inversion H; reflexivity].
    - destruct (parse_uint a 0 64) as [x|] eqn:Ea; cbn [obind].
      + destruct (all_ints l) as [xs|] eqn:El; cbn [obind]; split.
        * intros H. injection H as <-. constructor; [apply parse_uint_numeral; exact Ea|apply IH; reflexivity].
        * intros H. inversion H as [|? y ? ys H1 H2]; subst. apply parse_uint_numeral in H1. apply IH in H2. congruence.
        * discriminate.
        * intros H. inversion H as [|? y ? ys H1 H2]; subst. apply IH in H2. discriminate.
      + split; [discriminate|]. intros H. inversion H as [|? y ? ys H1 H2]; subst. apply parse_uint_numeral in H1. congruence. }
  assert (K1 : tok_v t = bs "intcblock" -> kind_of (t :: args) = LOp opIntConstBlock (texts args)).
  { intros E. unfold kind_of. destruct (tok_t t); try congruence; rewrite E;
    change (label_name (bs "intcblock")) with (@None str); cbv iota; change (seqb (bs "intcblock") (bs "#pragma")) with false; cbv iota;
    replace (ops_get (bs "intcblock")) with (Some opIntConstBlock) by (vm_compute; reflexivity); reflexivity. }
  assert (K2 : tok_v t = bs "pushints" -> exists p, kind_of (t :: args) = LOp p (texts args) /\
    forall v, assemble en v p (texts args) = match all_ints (texts args) with Some ns => Some (PushIntsExpr ns, []) | None => None end).
  { intros E. exists opPushInts. split.
    - unfold kind_of. destruct (tok_t t); try congruence; rewrite E;
      change (label_name (bs "pushints")) with (@None str); cbv iota; change (seqb (bs "pushints") (bs "#pragma")) with false; cbv iota;
      replace (ops_get (bs "pushints")) with (Some opPushInts) by (vm_compute; reflexivity); reflexivity.
    - intros v. unfold opPushInts. cbn [assemble]. destruct (all_ints (texts args)); reflexivity. }
  assert (K3 : tok_v t = bs "intcblock" -> forall v, assemble en v opIntConstBlock (texts args) =
    match all_ints (texts args) with Some ns => Some (IntcBlockExpr ns, []) | None => None end).
  { intros _ v. unfold opIntConstBlock. cbn [assemble]. destruct (all_ints (texts args)); reflexivity. }
  split.
  - intros ns N. apply AI in N. split; intros E.
    + unfold entries in Ee. rewrite (K1 E), (K3 E), N in Ee. injection Ee as <-. exact Le.
    + destruct (K2 E) as [p [K A]]. unfold entries in Ee. rewrite K, A, N in Ee. injection Ee as <-. exact Le.
  - intros N E.
    assert (Z : all_ints (texts args) = None).
    { destruct (all_ints (texts args)) as [ns|] eqn:Z; [|reflexivity]. destruct (N ns). apply AI. exact Z. }
    assert (Y : entries en (last_version 1 (firstn i (r_lines r))) (t :: args) = [EmptyExpr] /\
                ~ statement en (last_version 1 (firstn i (r_lines r))) (t :: args)).
    { destruct E as [E|E].
      - unfold entries, statement. rewrite (K1 E), (K3 E), Z. split; [reflexivity|]. intros [x H]. discriminate.
      - destruct (K2 E) as [p [K A]]. unfold entries, statement. rewrite K, A, Z. split; [reflexivity|]. intros [x H]. discriminate. }
    destruct Y as [Y1 Y2]. rewrite Y1 in Ee. injection Ee as <-. split; [exact Le|].
    destruct X as [[X _]|[u [rs [_ [X _]]]]]; [contradiction|]. rewrite X. discriminate.
Qed.
Print Assumptions C87_blocks.
Example C87_blocks_ex : match process env0 (lines ["#pragma version 8"; "intcblock 1 0x2 0_3"; "pushints 0b100 5"; "intcblock 1 pay"]) with
  Ret r => r_listing r = [PragmaExpr 8; IntcBlockExpr [1; 2; 3]; PushIntsExpr [4; 5]; EmptyExpr]%N | _ => False end.
Proof. vm_compute. reflexivity. Qed.
