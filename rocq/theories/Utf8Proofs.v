(** Facts about [decode_rune]: ASCII bytes are runes by themselves and nothing else
    decodes to an ASCII rune or skips an ASCII byte. *)
From Verif Require Import Base Utf8.
From Coq Require Import ZifyBool ZifyNat ZifyN.
Ltac Zify.zify_post_hook ::= Z.div_mod_to_equations.
Local Open Scope N_scope.

Definition high (c : ascii) : Prop := 128 <= byte c.

Lemma decode_ascii c s : byte c < 128 -> decode_rune (c :: s) = (byte c, 1%nat).
Proof.
  intros H. unfold decode_rune.
  assert (Hl : lead_size (byte c) = 0%nat).
  { unfold lead_size. repeat match goal with |- context [if ?x then _ else _] => destruct x eqn:?; try lia end. }
  rewrite Hl. destruct (byte c <? 128) eqn:E; [reflexivity|lia].
Qed.

Lemma accept2_high p0 c : accept2 p0 c = true -> 128 <= c.
Proof.
  unfold accept2, is_cont.
  repeat match goal with |- context [if ?x then _ else _] => destruct x end; lia.
Qed.

Lemma accept2_hi p0 c : accept2 p0 c = true ->
  (p0 = 224 -> 160 <= c) /\ (p0 = 240 -> 144 <= c).
Proof.
  unfold accept2, is_cont.
  repeat match goal with |- context [if ?x then _ else _] => destruct x eqn:? end; lia.
Qed.

Lemma decode_high c s : high c ->
  exists r n, decode_rune (c :: s) = (r, n) /\ 128 <= r /\ (1 <= n <= length (c :: s))%nat /\
              Forall high (firstn n (c :: s)).
Proof.
  intros H. unfold high in *. unfold decode_rune, rune_error.
  destruct (lead_size (byte c)) as [|[|[|[|[|k]]]]] eqn:Hl.
  - destruct (byte c <? 128) eqn:E; [lia|].
    do 2 eexists; split; [reflexivity|]. cbn. repeat split; try lia. constructor; auto.
  - exfalso. revert Hl; unfold lead_size.
    repeat match goal with |- context [if ?x then _ else _] => destruct x end; discriminate.
  - assert (194 <= byte c <= 223).
    { revert Hl; unfold lead_size. repeat match goal with |- context [if ?x then _ else _] => destruct x eqn:? end; try discriminate; lia. }
    destruct s as [|c1 s].
    { do 2 eexists; split; [reflexivity|]. cbn. repeat split; try lia. constructor; auto. }
    destruct (accept2 (byte c) (byte c1)) eqn:A.
    + pose proof (accept2_high _ _ A).
      do 2 eexists; split; [reflexivity|]. cbn [length firstn]. repeat split; try lia.
      repeat constructor; auto.
    + do 2 eexists; split; [reflexivity|]. cbn. repeat split; try lia. constructor; auto.
  - assert (224 <= byte c <= 239).
    { revert Hl; unfold lead_size. repeat match goal with |- context [if ?x then _ else _] => destruct x eqn:? end; try discriminate; lia. }
    destruct s as [|c1 [|c2 s]].
    1,2: do 2 eexists; split; [reflexivity|]; cbn; repeat split; try lia; constructor; auto.
    destruct (accept2 (byte c) (byte c1)) eqn:A; [destruct (is_cont (byte c2)) eqn:B|]; cbn [andb].
    + pose proof (accept2_high _ _ A). pose proof (accept2_hi _ _ A). unfold is_cont in B.
      do 2 eexists; split; [reflexivity|]. cbn [length firstn]. repeat split; try lia.
      repeat constructor; auto; lia.
    + do 2 eexists; split; [reflexivity|]. cbn. repeat split; try lia. constructor; auto.
    + do 2 eexists; split; [reflexivity|]. cbn. repeat split; try lia. constructor; auto.
  - assert (240 <= byte c <= 244).
    { revert Hl; unfold lead_size. repeat match goal with |- context [if ?x then _ else _] => destruct x eqn:? end; try discriminate; lia. }
    destruct s as [|c1 [|c2 [|c3 s]]].
    1,2,3: do 2 eexists; split; [reflexivity|]; cbn; repeat split; try lia; constructor; auto.
    destruct (accept2 (byte c) (byte c1)) eqn:A; [destruct (is_cont (byte c2)) eqn:B; [destruct (is_cont (byte c3)) eqn:C|]|]; cbn [andb].
    + pose proof (accept2_high _ _ A). pose proof (accept2_hi _ _ A). unfold is_cont in B, C.
      do 2 eexists; split; [reflexivity|]. cbn [length firstn]. repeat split; try lia.
      repeat constructor; auto; lia.
    + do 2 eexists; split; [reflexivity|]. cbn. repeat split; try lia. constructor; auto.
    + do 2 eexists; split; [reflexivity|]. cbn. repeat split; try lia. constructor; auto.
    + do 2 eexists; split; [reflexivity|]. cbn. repeat split; try lia. constructor; auto.
  - exfalso. revert Hl; unfold lead_size.
    repeat match goal with |- context [if ?x then _ else _] => destruct x end; discriminate.
Qed.

Lemma byte_inj c d : byte c = byte d -> c = d.
Proof. intros H. rewrite <- (ascii_N_embedding c), <- (ascii_N_embedding d). unfold byte in H. congruence. Qed.
