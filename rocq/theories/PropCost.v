(* C83: the debugger charges the published costs. *)
From Verif Require Import Base Expr Fields Literals OpTable Process ProcessSpec LangOps VmOps Vm VmProofs VmSkip VmStep
  VmExec VmSpec VmInv VmThms VmFlow CostSpec CostProofs.
From Coq Require Import ZifyBool ZifyNat ZifyN.

(* whenever the opcode n, on a stack of the kind Q, written with these operands, is executed, it costs what is published *)
Definition costs_right_if (Q : list value -> Prop) (n : string) : Prop :=
  forall en av p args e rest l ver v v' k b i,
    ops_get (bs n) = Some p -> assemble en av p args = Some (e, rest) ->
    reach l ver v -> before l v k b i e -> Q (b_stack b) -> step v = Ret v' ->
    right_cost ver n args v v' k.
Definition costs_right : string -> Prop := costs_right_if (fun _ => True).

(* an environment in which no base32 text and no address is valid *)
Definition en0 : env := Env (fun _ => None) (fun _ => false).

(* ------------------------------------------------------------------------------------------ *)
(* the states behind n steps *)
Fixpoint forward (n : nat) (v : vm) : vm :=
  match n with
  | 0 => v
  | S n => match step v with Ret v' => forward n v' | _ => v end
  end.
Definition behind (n : nat) (l : listing) : vm :=
  match new_vm l 8 with
  | Ret v => forward n v
  | _ => Vm 0 [] 0 [] [] None 0 [] [] false
  end.

Lemma forward_later n : forall v0 v, later v0 v -> later v0 (forward n v).
Proof.
  induction n as [|n IH]; intros v0 v L; cbn; [exact L|].
  destruct (step v) as [v'| |] eqn:E; [|exact L|exact L].
  apply IH. eapply later_command; [exact L|]. apply cmd_step. exact E.
Qed.

Lemma behind_reach n l : (exists v, new_vm l 8 = Ret v) -> reach l 8 (behind n l).
Proof.
  intros [v E]. exists v. split; [exact E|]. unfold behind. rewrite E. apply forward_later, later_now.
Qed.

(* The price of json_ref is counted from the key instead of the object. *)
Definition long_object : listing := [ByteExpr (bs "12345678") 0; ByteExpr (bs "k") 0; JsonRefExpr 1].
(* It is rounded twice. *)
Definition short_object : listing := [ByteExpr (bs "1234") 0; ByteExpr (bs "1234") 0; JsonRefExpr 1].

Ltac other_price l o :=
  intros R;
  assert (H : charged (behind 2 l) (behind 3 l) 0 (25 + 2 * ((Z.of_nat (length o) + 7 - 1) / 7)));
  [ eapply (R en0 8%N opJSONRef [bs "JSONUint64"] (JsonRefExpr 1) [] l 8%N (behind 2 l) (behind 3 l) 0);
    [vm_compute; reflexivity|vm_compute; reflexivity
    |apply behind_reach; eexists; vm_compute; reflexivity
    |split; vm_compute; reflexivity|first [exact I|vm_compute; reflexivity]|vm_compute; reflexivity|vm_compute; reflexivity|vm_compute; reflexivity|constructor]
  | destruct H as [b [b' [Hb [Hb' H]]]]; vm_compute in Hb, Hb'; injection Hb as <-; injection Hb' as <-;
    vm_compute in H; destruct H as [[_ H]|[H _]]; discriminate ].

Theorem C83_json_key_refuted : ~ costs_right "json_ref".
Proof. other_price long_object (bs "12345678"). Qed.
Print Assumptions C83_json_key_refuted.

Theorem C83_json_rounding_refuted :
  ~ costs_right_if (fun s => nth_error s 0 = nth_error s 1) "json_ref".
Proof. other_price short_object (bs "1234"). Qed.
Print Assumptions C83_json_rounding_refuted.

(* ------------------------------------------------------------------------------------------ *)
Lemma holds_length x s : holds_bytes x s -> lengths x = [N.of_nat (length s)].
Proof. induction 1; [reflexivity|]. cbn. assumption. Qed.

Lemma base64_round n : base64_cost (N.of_nat n) = (1 + 1 * ((Z.of_nat n + 16 - 1) / 16))%Z.
Proof.
  unfold base64_cost. rewrite nat_N_Z. pose proof (Z.div_mod (Z.of_nat n) 16 ltac:(lia)) as D.
  pose proof (Z.mod_pos_bound (Z.of_nat n) 16 ltac:(lia)) as M.
  destruct (Z.of_nat n mod 16 >? 0)%Z eqn:G.
  - rewrite <- (Z.div_unique (Z.of_nat n + 16 - 1) 16 (Z.of_nat n / 16 + 1) (Z.of_nat n mod 16 - 1)); lia.
  - rewrite <- (Z.div_unique (Z.of_nat n + 16 - 1) 16 (Z.of_nat n / 16) (Z.of_nat n mod 16 + 15)); lia.
Qed.

Lemma json_round n : n mod 7 <= 3 -> json_cost (N.of_nat n) = (25 + 2 * ((Z.of_nat n + 7 - 1) / 7))%Z.
Proof.
  intros H. unfold json_cost. rewrite nat_N_Z.
  assert (H' : (Z.of_nat n mod 7 <= 3)%Z) by (change 7%Z with (Z.of_nat 7); rewrite <- Nat2Z.inj_mod; lia). clear H.
  pose proof (Z.div_mod (Z.of_nat n) 7 ltac:(lia)) as D.
  pose proof (Z.mod_pos_bound (Z.of_nat n) 7 ltac:(lia)) as M.
  rewrite <- (Z.div_unique (2 * Z.of_nat n) 7 (2 * (Z.of_nat n / 7)) (2 * (Z.of_nat n mod 7))) by lia.
  destruct (Z.of_nat n mod 7 >? 0)%Z eqn:G.
  - rewrite <- (Z.div_unique (Z.of_nat n + 7 - 1) 7 (Z.of_nat n / 7 + 1) (Z.of_nat n mod 7 - 1)); lia.
  - rewrite <- (Z.div_unique (Z.of_nat n + 7 - 1) 7 (Z.of_nat n / 7) (Z.of_nat n mod 7 + 6)); lia.
Qed.

Theorem C83_partial o : In o lang_ops -> lo_name o <> "json_ref"%string -> costs_right (lo_name o).
Proof.
  intros I J en av p args e rest l ver v v' k b i G A R B _ E.
  apply reach_wf in R.
  pose proof (proj1 (Forall_forall _ _) constant_ops o I) as H. cbn beta in H. rewrite G in H.
  pose proof (assemble_results _ _ _ _ _ _ _ H A) as K. specialize (K ver b). unfold right_cost.
  destruct (published ver (lo_name o)) as [c|k1 r1|base per size depth] eqn:P.
  - exact (step_charged _ _ _ _ _ _ _ _ _ R B E K).
  - assert (X : (lo_name o = "ecdsa_verify"%string /\ k1 = 1700%Z /\ r1 = 2500%Z) \/
                (lo_name o = "ecdsa_pk_decompress"%string /\ k1 = 650%Z /\ r1 = 2400%Z)).
    { clear - P. unfold published in P; cbv zeta beta in P.
      repeat match type of P with context[String.eqb ?x ?y] => destruct (String.eqb_spec x y) end; try discriminate;
        injection P as <- <-; auto. }
    destruct X as [[X [-> ->]]|[X [-> ->]]]; rewrite X in G; vm_compute in G; injection G as <-; cbn [assemble] in A.
    all: split; intros [Q|Q]; destruct args as [|a r]; try discriminate; injection Q as ->;
      vm_compute in A; try (match type of A with context[if ?c then None else _] => destruct c end; [discriminate A|]);
      injection A as <- <-; apply (step_charged _ _ _ _ _ _ _ _ _ R B E); left; reflexivity.
  - intros b0 x s Hb Hx Hs.
    assert (X : lo_name o = "base64_decode"%string /\ base = 1%Z /\ per = 1%Z /\ size = 16%Z /\ depth = 0).
    { clear - P J. unfold published in P; cbv zeta beta in P.
      repeat match type of P with context[String.eqb ?x ?y] => destruct (String.eqb_spec x y) end; try discriminate; try contradiction;
        injection P as <- <- <- <-; auto. }
    destruct X as [X [-> [-> [-> ->]]]].
    pose proof (before_branch _ _ _ _ _ _ B) as Hb'. rewrite Hb' in Hb. injection Hb as <-.
    apply (step_charged _ _ _ _ _ _ _ _ _ R B E).
    rewrite X in G. vm_compute in G. injection G as <-. cbn [assemble] in A.
    destruct args as [|a r]; [discriminate|]. destruct (operand en av IBase64 a r) as [[y r']|]; [|discriminate].
    cbn in A. injection A as <- <-. left. cbn [cost_of].
    destruct (b_stack b) as [|x0 s0]; [discriminate|]. injection Hx as ->.
    rewrite (holds_length _ _ Hs). cbn [map]. f_equal. f_equal. apply base64_round.
Qed.
Print Assumptions C83_partial.

(* what is right about json_ref: the price by the length of the key, with few bytes over *)
Theorem C83_json_partial :
  costs_right_if (fun s => exists x y a o, nth_error s 0 = Some x /\ nth_error s 1 = Some y /\
    holds_bytes x a /\ holds_bytes y o /\ length a = length o /\ length a mod 7 <= 3) "json_ref".
Proof.
  intros en av p args e rest l ver v v' k b i G A R B [x [y [a [o [Hx [Hy [Ha [Ho [L M]]]]]]]]] E.
  apply reach_wf in R. unfold right_cost. change (published ver "json_ref") with (PerBytes 25 2 7 1). cbn iota.
  intros b0 x0 s Hb Hx0 Hs. pose proof (before_branch _ _ _ _ _ _ B) as Hb'. rewrite Hb' in Hb. injection Hb as <-.
  rewrite Hy in Hx0. injection Hx0 as <-. pose proof (holds_length _ _ Ho) as U1. rewrite (holds_length _ _ Hs) in U1.
  injection U1 as U1. apply Nnat.Nat2N.inj in U1. rewrite U1, <- L.
  apply (step_charged _ _ _ _ _ _ _ _ _ R B E).
  vm_compute in G. injection G as <-. cbn [assemble] in A.
  destruct args as [|a0 r]; [discriminate|]. destruct (operand en av IJsonRef a0 r) as [[y0 r']|]; [|discriminate].
  cbn in A. injection A as <- <-. left. cbn [cost_of].
  destruct (b_stack b) as [|x0 s0]; [discriminate|]. injection Hx as ->.
  rewrite (holds_length _ _ Ha). cbn [map]. f_equal. f_equal. apply json_round. exact M.
Qed.
Print Assumptions C83_json_partial.

(* a decoded constant of 24 bytes, and its hash *)
Definition costly : listing :=
  [ByteExpr (bs "aGVsbG8gd29ybGQgaGVsbG8=") 0; Base64DecodeExpr 1; Op0 Sha256Expr].
Example C83_nonvacuous : exists p1 p2 v1 v2 v3 b1 b2,
  ops_get (bs "base64_decode") = Some p1 /\ assemble en0 8 p1 [bs "StdEncoding"] = Some (Base64DecodeExpr 1, []) /\
  ops_get (bs "sha256") = Some p2 /\ assemble en0 8 p2 [] = Some (Op0 Sha256Expr, []) /\
  reach costly 8 v1 /\ before costly v1 0 b1 1 (Base64DecodeExpr 1) /\ step v1 = Ret v2 /\ charged v1 v2 0 3 /\
  before costly v2 0 b2 2 (Op0 Sha256Expr) /\ step v2 = Ret v3 /\ charged v2 v3 0 35.
Proof.
  exists opBase64Decode, opSHA256, (behind 1 costly), (behind 2 costly), (behind 3 costly). do 2 eexists.
  split; [vm_compute; reflexivity|]. split; [vm_compute; reflexivity|]. split; [vm_compute; reflexivity|].
  split; [vm_compute; reflexivity|]. split; [apply behind_reach; eexists; vm_compute; reflexivity|].
  split; [split; vm_compute; reflexivity|]. split; [vm_compute; reflexivity|].
  split; [eexists; eexists; split; [vm_compute; reflexivity|]; split; [vm_compute; reflexivity|]; left; split; vm_compute; [discriminate|reflexivity]|].
  split; [split; vm_compute; reflexivity|]. split; [vm_compute; reflexivity|].
  eexists; eexists; split; [vm_compute; reflexivity|]; split; [vm_compute; reflexivity|]; left; split; vm_compute; [discriminate|reflexivity].
Qed.

(* The elliptic curve opcodes are not in the reference: what the debugger charges for them.  The
   two groups of a curve cost the same, BLS12-381 costs twice what BN254 does. *)
Definition curve_costs : list (string * Z) :=
  [("ec_add", 10); ("ec_scalar_mul", 100); ("ec_pairing_check", 1000); ("ec_multi_exp", 100);
   ("ec_subgroup_check", 100); ("ec_map_to", 100)]%string%Z.
Theorem C83_curves n c en av p g e rest l ver v v' k b i :
  In (n, c) curve_costs -> ops_get (bs n) = Some p -> assemble en av p [bs g] = Some (e, rest) ->
  reach l ver v -> before l v k b i e -> step v = Ret v' ->
  (In g ["BN254_G1"; "BN254_G2"]%string -> charged v v' k c) /\
  (In g ["BLS12_381_G1"; "BLS12_381_G2"]%string -> charged v v' k (2 * c)).
Proof.
  intros I G A R B E. apply reach_wf in R.
  split; intros J; apply (step_charged _ _ _ _ _ _ _ _ _ R B E); cbn [curve_costs In] in I, J;
    (repeat match type of I with _ \/ _ => destruct I as [I|I] end; [..|contradiction]);
    injection I as <- <-; vm_compute in G; injection G as <-; cbn [assemble] in A;
    (repeat match type of J with _ \/ _ => destruct J as [J|J] end; [..|contradiction]); subst g;
    vm_compute in A; try (match type of A with context[if ?c then None else _] => destruct c end; [discriminate A|]);
    injection A as <- <-; left; reflexivity.
Qed.
Definition curved : listing := [ByteExpr (bs "a") 0; ByteExpr (bs "b") 0; EcAddExpr 2].
Example C83_curves_nonvacuous : exists p b,
  ops_get (bs "ec_add") = Some p /\ assemble en0 10 p [bs "BLS12_381_G1"] = Some (EcAddExpr 2, []) /\
  reach curved 8 (behind 2 curved) /\ before curved (behind 2 curved) 0 b 2 (EcAddExpr 2) /\
  step (behind 2 curved) = Ret (behind 3 curved) /\ charged (behind 2 curved) (behind 3 curved) 0 20.
Proof.
  do 2 eexists. split; [vm_compute; reflexivity|]. split; [vm_compute; reflexivity|].
  split; [apply behind_reach; eexists; vm_compute; reflexivity|].
  split; [split; vm_compute; reflexivity|]. split; [vm_compute; reflexivity|].
  eexists; eexists; split; [vm_compute; reflexivity|]; split; [vm_compute; reflexivity|]; left; split; vm_compute; [discriminate|reflexivity].
Qed.
Print Assumptions C83_curves.

(* Whatever the operand is: what base64_decode and json_ref are charged by the value on top. *)
Lemma taken_lengths x : (forall n, taken_length x n -> lengths x = [N.of_nat n]) /\
  ((forall n, ~ taken_length x n) -> lengths x = []).
Proof.
  split; [induction 1; first [reflexivity|assumption]|].
  revert x. fix IH 1. intros [T [s|]] H; [|reflexivity]. destruct s as [n|s|s|o a|y]; cbn [lengths].
  - destruct (H 0). constructor.
  - destruct (H 4). constructor.
  - destruct (H (length s)). constructor.
  - reflexivity.
  - apply IH. intros n Y. apply (H n). constructor. exact Y.
Qed.
Theorem C83_any_operand e l ver v v' k b i x s :
  reach l ver v -> before l v k b i e -> b_stack b = x :: s -> step v = Ret v' ->
  (forall f, e = Base64DecodeExpr f ->
     (forall n, taken_length x n -> charged v v' k (1 + (Z.of_nat n + 15) / 16)) /\
     ((forall n, ~ taken_length x n) -> charged v v' k 1)) /\
  (forall f, e = JsonRefExpr f ->
     (forall n, taken_length x n -> charged v v' k (25 + 2 * Z.of_nat n / 7 + (if n mod 7 =? 0 then 0 else 2))) /\
     ((forall n, ~ taken_length x n) -> charged v v' k 1)).
Proof.
  intros R B Hs E. apply reach_wf in R. destruct (taken_lengths x) as [T U].
  split; intros f ->; split; intros H.
  - intros L. apply (step_charged _ _ _ _ _ _ _ _ _ R B E). left. cbn [cost_of]. rewrite Hs, (T _ L). cbn [map].
    do 2 f_equal. rewrite base64_round. replace (Z.of_nat H + 16 - 1)%Z with (Z.of_nat H + 15)%Z by lia. lia.
  - apply (step_charged _ _ _ _ _ _ _ _ _ R B E). right. cbn [cost_of]. rewrite Hs, (U H). auto.
  - intros L. apply (step_charged _ _ _ _ _ _ _ _ _ R B E). left. cbn [cost_of]. rewrite Hs, (T _ L). cbn [map].
    do 2 f_equal. unfold json_cost. rewrite nat_N_Z. f_equal.
    change 7%Z with (Z.of_nat 7) at 1. rewrite <- Nat2Z.inj_mod.
    destruct (Nat.eqb_spec (H mod 7) 0) as [->|Q]; [reflexivity|]. destruct (Z.gtb_spec (Z.of_nat (H mod 7)) 0); [reflexivity|lia].
  - apply (step_charged _ _ _ _ _ _ _ _ _ R B E). right. cbn [cost_of]. rewrite Hs, (U H). auto.
Qed.
Print Assumptions C83_any_operand.
(* a number where the text should be, and the selector of a method *)
Definition numbered : listing := [IntExpr 7; Base64DecodeExpr 1].
Definition selected : listing := [MethodExpr (bs "f()void"); ByteExpr (bs "k") 0; Op0 SwapExpr; JsonRefExpr 1].
Example C83_any_operand_ex :
  (exists b, before numbered (behind 1 numbered) 0 b 1 (Base64DecodeExpr 1) /\ exists x, b_stack b = [x] /\ taken_length x 0) /\
  step (behind 1 numbered) = Ret (behind 2 numbered) /\ charged (behind 1 numbered) (behind 2 numbered) 0 1 /\
  (exists b, before selected (behind 3 selected) 0 b 3 (JsonRefExpr 1) /\ exists x y, b_stack b = [x; y] /\ taken_length x 4) /\
  step (behind 3 selected) = Ret (behind 4 selected) /\ charged (behind 3 selected) (behind 4 selected) 0 28.
Proof.
  split. { eexists. split; [split; vm_compute; reflexivity|]. eexists. split; [vm_compute; reflexivity|constructor]. }
  split; [vm_compute; reflexivity|].
  split; [eexists; eexists; split; [vm_compute; reflexivity|]; split; [vm_compute; reflexivity|]; left; split; vm_compute; [discriminate|reflexivity]|].
  split. { eexists. split; [split; vm_compute; reflexivity|]. do 2 eexists. split; [vm_compute; reflexivity|]. repeat constructor. }
  split; [vm_compute; reflexivity|].
  eexists; eexists; split; [vm_compute; reflexivity|]; split; [vm_compute; reflexivity|]; left; split; vm_compute; [discriminate|reflexivity].
Qed.
