(* Proofs for C88: the decoders and their specification in ByteSpec.v. *)
From Verif Require Import Base LexSpec Strconv Codec Base32 Literals LiteralsProofs CodecProofs IntSpec IntProofs ByteSpec.
From Coq Require Import ZifyBool ZifyNat ZifyN.
Ltac Zify.zify_post_hook ::= Z.div_mod_to_equations.

(* ------------------------------------------------------------------------------------------ *)
Lemma Forall2_length {A B} (R : A -> B -> Prop) l m : Forall2 R l m -> length l = length m.
Proof. induction 1; cbn; auto. Qed.

(* positional numbers *)
Lemma positional_app b x y : positional b (x ++ y) = (positional b x * b ^ N.of_nat (length y) + positional b y)%N.
Proof.
  induction x as [|d x IH]; cbn [app positional]; [lia|].
  rewrite IH, app_length, Nat2N.inj_add, N.pow_add_r. lia.
Qed.
Lemma positional_bound b l : (0 < b)%N -> Forall (fun d => d < b)%N l -> (positional b l < b ^ N.of_nat (length l))%N.
Proof.
  intros B. induction 1 as [|d l H F IH]; cbn [positional length]; [cbn; lia|].
  rewrite Nat2N.inj_succ, N.pow_succ_r'. set (e := (b ^ N.of_nat (length l))%N) in *.
  assert ((d + 1) * e <= b * e)%N by (apply N.mul_le_mono_r; lia). lia.
Qed.
Lemma positional_inj b : (0 < b)%N -> forall x y, length x = length y -> Forall (fun d => d < b)%N x -> Forall (fun d => d < b)%N y ->
  positional b x = positional b y -> x = y.
Proof.
  intros B. induction x as [|d x IH]; intros [|e y] L Fx Fy H; try discriminate; [reflexivity|].
  inversion Fx as [|? ? D Fx']; subst. inversion Fy as [|? ? E Fy']; subst. cbn [length] in L. injection L as L.
  cbn [positional] in H. pose proof (positional_bound b x B Fx') as Bx. pose proof (positional_bound b y B Fy') as By.
  rewrite L in *. set (m := (b ^ N.of_nat (length y))%N) in *.
  assert (d = e).
  { assert (M : (0 < m)%N) by (unfold m; apply N.neq_0_lt_0, N.pow_nonzero; lia).
    transitivity ((d * m + positional b x) / m)%N; [|symmetry];
    [apply (N.div_unique _ m d (positional b x))|apply (N.div_unique _ m e (positional b y))]; lia. }
  subst e. f_equal. apply IH; auto. lia.
Qed.

Lemma bytes_below v : Forall (fun d => d < 256)%N (map byte v).
Proof. induction v; cbn; constructor; auto. apply byte_lt. Qed.
Lemma map_byte_inj v w : map byte v = map byte w -> v = w.
Proof.
  revert w. induction v as [|c v IH]; intros [|d w] H; try discriminate; [reflexivity|].
  cbn in H. injection H as H1 H2. f_equal; [apply byte_inj; exact H1|apply IH; exact H2].
Qed.

Lemma decodes_unique w ds v v' : (w <= 8)%N -> decodes w ds v -> decodes w ds v' -> v = v'.
Proof.
  intros W [k [r [L [K [R P]]]]] [k' [r' [L' [K' [R' P']]]]].
  assert (k = k' /\ length v = length v') as [<- LV] by lia.
  apply map_byte_inj. apply (positional_inj 256); try apply bytes_below; [lia|rewrite !map_length; exact LV|].
  rewrite P in P'. set (m := (2 ^ k)%N) in *. assert (M : (0 < m)%N) by (unfold m; apply N.neq_0_lt_0, N.pow_nonzero; lia).
  set (x := positional 256 (map byte v)) in *. set (y := positional 256 (map byte v')) in *.
  transitivity ((x * m + r) / m)%N; [|symmetry];
    [apply (N.div_unique _ m x r)|apply (N.div_unique _ m y r')]; lia.
Qed.

(* a group of digits that are whole bytes, followed by more *)
Lemma decodes_app w g o ds v : (w * N.of_nat (length g) = 8 * N.of_nat (length o))%N ->
  positional (2 ^ w) g = positional 256 (map byte o) -> decodes w ds v -> decodes w (g ++ ds) (o ++ v).
Proof.
  intros LG PG [k [r [L [K [R P]]]]]. exists k, r. rewrite !app_length, !Nat2N.inj_add.
  split; [lia|]. split; [exact K|]. split; [exact R|].
  rewrite map_app, !positional_app, map_length, P, PG.
  replace ((2 ^ w) ^ N.of_nat (length ds))%N with (256 ^ N.of_nat (length v) * 2 ^ k)%N; [lia|].
  change 256%N with (2 ^ 8)%N. rewrite <- !N.pow_mul_r, <- N.pow_add_r. f_equal. lia.
Qed.
Lemma decodes_nil w : (0 < w)%N -> decodes w [] [].
Proof. intros W. exists 0%N, 0%N. cbn. repeat split; lia. Qed.

(* ------------------------------------------------------------------------------------------ *)
(* the alphabets *)
Definition all_chars : list ascii := map ascii_of_nat (seq 0 256).
Lemma in_all_chars c : In c all_chars.
Proof.
  unfold all_chars. apply in_map_iff. exists (nat_of_ascii c). split; [apply ascii_nat_embedding|].
  apply in_seq. pose proof (nat_ascii_bounded c). lia.
Qed.

Lemma b64_val_spec c d : b64_val c = Some d <-> stands_for alphabet64 c d.
Proof.
  unfold stands_for. split.
  - assert (B : forallb (fun c => match b64_val c with
        | Some d => match nth_error alphabet64 (N.to_nat d) with Some x => Ascii.eqb x c | None => false end
        | None => true end) all_chars = true) by (vm_compute; reflexivity).
    rewrite forallb_forall in B. specialize (B c (in_all_chars c)). intros E. rewrite E in B.
    destruct (nth_error _ _) as [x|]; [|discriminate]. apply Ascii.eqb_eq in B. now subst.
  - assert (B : forallb (fun i => match nth_error alphabet64 i with
        | Some c => match b64_val c with Some d => Nat.eqb (N.to_nat d) i | None => false end | None => false end) (seq 0 64) = true)
      by (vm_compute; reflexivity).
    intros E. assert (L : N.to_nat d < 64) by (apply (nth_error_Some alphabet64); congruence).
    rewrite forallb_forall in B. specialize (B (N.to_nat d) ltac:(apply in_seq; lia)). rewrite E in B.
    destruct (b64_val c) as [d'|]; [|discriminate]. apply Nat.eqb_eq in B. f_equal. lia.
Qed.
Lemma b32_val_spec c d : b32_val c = Some d <-> stands_for alphabet32 c d.
Proof.
  unfold stands_for. split.
  - assert (B : forallb (fun c => match b32_val c with
        | Some d => match nth_error alphabet32 (N.to_nat d) with Some x => Ascii.eqb x c | None => false end
        | None => true end) all_chars = true) by (vm_compute; reflexivity).
    rewrite forallb_forall in B. specialize (B c (in_all_chars c)). intros E. rewrite E in B.
    destruct (nth_error _ _) as [x|]; [|discriminate]. apply Ascii.eqb_eq in B. now subst.
  - assert (B : forallb (fun i => match nth_error alphabet32 i with
        | Some c => match b32_val c with Some d => Nat.eqb (N.to_nat d) i | None => false end | None => false end) (seq 0 32) = true)
      by (vm_compute; reflexivity).
    intros E. assert (L : N.to_nat d < 32) by (apply (nth_error_Some alphabet32); congruence).
    rewrite forallb_forall in B. specialize (B (N.to_nat d) ltac:(apply in_seq; lia)). rewrite E in B.
    destruct (b32_val c) as [d'|]; [|discriminate]. apply Nat.eqb_eq in B. f_equal. lia.
Qed.
Lemma b64_val_lt c d : b64_val c = Some d -> (d < 64)%N.
Proof.
  intros H. apply b64_val_spec in H. assert (L : N.to_nat d < 64) by (apply (nth_error_Some alphabet64); unfold stands_for in H; congruence). lia.
Qed.
Lemma b32_val_lt c d : b32_val c = Some d -> (d < 32)%N.
Proof.
  intros H. apply b32_val_spec in H. assert (L : N.to_nat d < 32) by (apply (nth_error_Some alphabet32); unfold stands_for in H; congruence). lia.
Qed.
Lemma hex_val_spec c d : hex_val c = Some d <-> digit_is 16 c d.
Proof.
  unfold hex_val, digit_is.
  destruct (in_chars "0" "9" c) eqn:E1.
  { apply in_chars_spec in E1. change (byte "0") with 48%N in E1. change (byte "9") with 57%N in E1. split.
    - intros H1. injection H1 as <-. lia.
    - intros [H1 [H2|H2]]; [f_equal|]; lia. }
  assert (N1 : ~ (48 <= byte c <= 57)%N).
  { intros H. apply (proj2 (in_chars_spec "0" "9" c)) in H. congruence. }
  destruct (in_chars "a" "f" c) eqn:E2.
  { apply in_chars_spec in E2. change (byte "a") with 97%N in E2. change (byte "f") with 102%N in E2. split.
    - intros H1. injection H1 as <-. lia.
    - intros [H1 [H2|H2]]; [lia|f_equal; lia]. }
  assert (N2 : ~ (97 <= byte c <= 102)%N).
  { intros H. apply (proj2 (in_chars_spec "a" "f" c)) in H. congruence. }
  destruct (in_chars "A" "F" c) eqn:E3.
  { apply in_chars_spec in E3. change (byte "A") with 65%N in E3. change (byte "F") with 70%N in E3. split.
    - intros H1. injection H1 as <-. lia.
    - intros [H1 [H2|H2]]; [lia|f_equal; lia]. }
  assert (N3 : ~ (65 <= byte c <= 70)%N).
  { intros H. apply (proj2 (in_chars_spec "A" "F" c)) in H. congruence. }
  split; [discriminate|]. intros [H1 H2]. lia.
Qed.

Lemma byte_of n : (n < 256)%N -> byte (ascii_of_N n) = n.
Proof. apply byte_ascii. Qed.

(* ------------------------------------------------------------------------------------------ *)
Ltac powers :=
  cbn [map positional length]; rewrite ?byte_of by lia;
  repeat match goal with |- context [N.pow ?a ?b] => let v := eval vm_compute in (N.pow a b) in change (N.pow a b) with v end.

(* hexadecimal *)
Lemma hex_sound : forall n s v, length s <= n -> hex_decode s = Some v -> hex_text s v.
Proof.
  induction n as [|n IH]; intros s v L H.
  - destruct s; [|cbn in L; lia]. injection H as <-. exists []. split; [constructor|apply decodes_nil; lia].
  - destruct s as [|a [|b r]]; [|discriminate|].
    + injection H as <-. exists []. split; [constructor|apply decodes_nil; lia].
    + cbn [hex_decode] in H. destruct (hex_val a) as [x|] eqn:Ea; [|discriminate]. destruct (hex_val b) as [y|] eqn:Eb; [|discriminate].
      destruct (hex_decode r) as [w|] eqn:Er; [|discriminate]. injection H as <-.
      destruct (IH r w ltac:(cbn in L; lia) Er) as [ds [F D]]. apply hex_val_spec in Ea, Eb.
      exists (x :: y :: ds). split; [constructor; [exact Ea|constructor; [exact Eb|exact F]]|].
      apply (decodes_app 4 [x; y] [ascii_of_N (16 * x + y)] ds w); [reflexivity| |exact D].
      destruct Ea as [La _]. destruct Eb as [Lb _]. powers. lia.
Qed.
Lemma hex_total s ds : Forall2 (digit_is 16) s ds -> Nat.even (length s) = true -> exists v, hex_decode s = Some v.
Proof.
  revert ds. assert (K : forall n s ds, length s <= n -> Forall2 (digit_is 16) s ds -> Nat.even (length s) = true -> exists v, hex_decode s = Some v).
  { induction n as [|n IH]; intros s0 ds L F E.
    - destruct s0; [|cbn in L; lia]. eexists; reflexivity.
    - destruct F as [|a x s0 ds Ha F]; [eexists; reflexivity|]. destruct F as [|b y s0 ds Hb F]; [discriminate|].
      cbn [hex_decode]. apply hex_val_spec in Ha, Hb. rewrite Ha, Hb.
      destruct (IH s0 ds ltac:(cbn in L; lia) F E) as [v ->]. eauto. }
  intros ds. apply (K (length s)). lia.
Qed.
Theorem hex_exact s v : hex_decode s = Some v <-> hex_text s v.
Proof.
  split; [apply (hex_sound (length s)); lia|]. intros [ds [F D]].
  assert (E : Nat.even (length s) = true).
  { destruct D as [k [r [L [K _]]]]. apply Nat.even_spec. exists (length v).
    rewrite (Forall2_length _ _ _ F). lia. }
  destruct (hex_total s ds F E) as [v' Hv]. pose proof (hex_sound (length s) s v' ltac:(lia) Hv) as [ds' [F' D']].
  assert (ds' = ds) as ->.
  { clear - F F'. revert ds' F'. induction F as [|a x s ds Ha F IH]; intros ds' F'; inversion F' as [|? y ? ? Hy F'']; subst; [reflexivity|].
    apply hex_val_spec in Ha, Hy. f_equal; [congruence|apply IH; exact F'']. }
  rewrite Hv. f_equal. apply (decodes_unique 4 ds); [lia|exact D'|exact D].
Qed.

(* ------------------------------------------------------------------------------------------ *)
(* base64 *)
Lemma forall2_letters al (val : ascii -> option N) : (forall c d, val c = Some d <-> stands_for al c d) ->
  forall p ds ds', Forall2 (stands_for al) p ds -> Forall2 (stands_for al) p ds' -> ds = ds'.
Proof.
  intros V p ds ds' F. revert ds'. induction F as [|a x s ds Ha F IH]; intros ds' F'; inversion F' as [|? y ? ? Hy F'']; subst; [reflexivity|].
  apply V in Ha, Hy. f_equal; [congruence|apply IH; exact F''].
Qed.

(* the letters before the padding are determined *)
Lemma padding_split al p p' k k' : ~ In "="%char al -> (exists ds, Forall2 (stands_for al) p ds) -> (exists ds, Forall2 (stands_for al) p' ds) ->
  p ++ repeat "="%char k = p' ++ repeat "="%char k' -> p = p' /\ k = k'.
Proof.
  intros NA [ds F] [ds' F'] E.
  assert (NP : forall q l, Forall2 (stands_for al) q l -> ~ In "="%char q).
  { intros q l. induction 1 as [|c d q l H F0 IH]; intros I; [destruct I|]. destruct I as [->|I]; [|auto].
    apply NA. unfold stands_for in H. apply nth_error_In in H. exact H. }
  pose proof (NP _ _ F) as N1. pose proof (NP _ _ F') as N2. clear F F' NP ds ds'.
  revert p' N2 E. induction p as [|c p IH]; intros p' N2 E.
  - destruct p' as [|c' p'].
    + cbn in E. split; [reflexivity|]. apply (f_equal (@length ascii)) in E. rewrite !repeat_length in E. exact E.
    + destruct k; [discriminate|]. cbn in E. injection E as <- _. destruct N2. left. reflexivity.
  - destruct p' as [|c' p'].
    + destruct k'; [discriminate|]. cbn in E. injection E as -> _. destruct N1. left. reflexivity.
    + cbn in E. injection E as <- E. destruct (IH ltac:(intros I; apply N1; right; exact I) p' ltac:(intros I; apply N2; right; exact I) E) as [<- <-]. auto.
Qed.
Lemma no_pad64 : ~ In "="%char alphabet64.
Proof. intros H. vm_compute in H. repeat (destruct H as [H|H]; [discriminate|]). exact H. Qed.
Lemma no_pad32 : ~ In "="%char alphabet32.
Proof. intros H. vm_compute in H. repeat (destruct H as [H|H]; [discriminate|]). exact H. Qed.

Lemma b64_sound : forall n s v, length s <= n -> b64_quanta s = Some v ->
  exists p k ds, s = p ++ repeat "="%char k /\ k < 4 /\ (length p + k) mod 4 = 0 /\
    Forall2 (stands_for alphabet64) p ds /\ decodes 6 ds v.
Proof.
  induction n as [|n IH]; intros s v L H.
  - destruct s; [|cbn in L; lia]. injection H as <-. exists [], 0, []. repeat split; [lia|constructor|apply decodes_nil; lia].
  - destruct s as [|a [|b [|c [|d r]]]]; try discriminate.
    { injection H as <-. exists [], 0, []. repeat split; [lia|constructor|apply decodes_nil; lia]. }
    cbn [b64_quanta] in H. destruct (b64_val a) as [w|] eqn:Ea; [|discriminate]. destruct (b64_val b) as [x|] eqn:Eb; [|discriminate].
    pose proof (b64_val_lt _ _ Ea) as Lw. pose proof (b64_val_lt _ _ Eb) as Lx.
    apply b64_val_spec in Ea, Eb.
    destruct (b64_val c) as [y|] eqn:Ec.
    + pose proof (b64_val_lt _ _ Ec) as Ly. apply b64_val_spec in Ec.
      destruct (b64_val d) as [z|] eqn:Ed.
      * pose proof (b64_val_lt _ _ Ed) as Lz. apply b64_val_spec in Ed.
        destruct (b64_quanta r) as [v'|] eqn:Er; [|discriminate]. injection H as <-.
        destruct (IH r v' ltac:(cbn in L; lia) Er) as [p [k [ds [-> [K [M [F D]]]]]]].
        exists (a :: b :: c :: d :: p), k, (w :: x :: y :: z :: ds). split; [reflexivity|]. split; [exact K|]. split.
        { cbn [length]. replace (S (S (S (S (length p)))) + k) with (length p + k + 1 * 4) by lia. rewrite Nat.mod_add by lia. exact M. }
        split; [repeat (constructor; [assumption|]); exact F|].
        apply (decodes_app 6 [w; x; y; z] [_; _; _] ds v'); [reflexivity| |exact D].
        powers. lia.
      * destruct (Ascii.eqb_spec d "=") as [->|]; [|discriminate]. destruct r; [|discriminate]. injection H as <-.
        exists [a; b; c], 1, [w; x; y]. split; [reflexivity|]. split; [lia|]. split; [reflexivity|].
        split; [repeat (constructor; [assumption|]); constructor|].
        exists 2%N, (y mod 4)%N. split; [reflexivity|]. split; [lia|]. split; [change (2 ^ 2)%N with 4%N; lia|].
        powers. lia.
    + destruct (Ascii.eqb_spec c "=") as [->|]; [|discriminate]. destruct (Ascii.eqb_spec d "=") as [->|]; [|discriminate]. cbn [andb] in H.
      destruct r; [|discriminate]. injection H as <-.
      exists [a; b], 2, [w; x]. split; [reflexivity|]. split; [lia|]. split; [reflexivity|].
      split; [repeat (constructor; [assumption|]); constructor|].
      exists 4%N, (x mod 16)%N. split; [reflexivity|]. split; [lia|]. split; [change (2 ^ 4)%N with 16%N; lia|].
      powers. lia.
Qed.

Lemma b64_total : forall n p ds k, length p <= n -> Forall2 (stands_for alphabet64) p ds -> k < 4 -> (length p + k) mod 4 = 0 ->
  length p mod 4 <> 1 -> exists v, b64_quanta (p ++ repeat "="%char k) = Some v.
Proof.
  induction n as [|n IH]; intros p ds k L F K M N.
  - destruct p; [|cbn in L; lia]. cbn [length] in M. assert (k = 0) as -> by (destruct k as [|[|[|[|k]]]]; try discriminate; lia).
    eexists; reflexivity.
  - destruct F as [|a w p ds Ha F]; [cbn [length] in M; assert (k = 0) as -> by (destruct k as [|[|[|[|k]]]]; try discriminate; lia); eexists; reflexivity|].
    destruct F as [|b x p ds Hb F]; [cbn in N; lia|].
    apply b64_val_spec in Ha, Hb.
    destruct F as [|c y p ds Hc F].
    { assert (k = 2) as -> by (destruct k as [|[|[|[|k]]]]; try discriminate; try lia; reflexivity).
      cbn [app repeat b64_quanta]. rewrite Ha, Hb. cbn. eauto. }
    apply b64_val_spec in Hc.
    destruct F as [|d z p ds Hd F].
    { assert (k = 1) as -> by (destruct k as [|[|[|[|k]]]]; try discriminate; try lia; reflexivity).
      cbn [app repeat b64_quanta]. rewrite Ha, Hb, Hc. cbn. eauto. }
    apply b64_val_spec in Hd. cbn [app b64_quanta]. rewrite Ha, Hb, Hc, Hd.
    destruct (IH p ds k ltac:(cbn in L; lia) F K) as [v ->]; [| |eauto].
    + cbn [length] in M. replace (S (S (S (S (length p)))) + k) with (length p + k + 1 * 4) in M by lia. rewrite Nat.mod_add in M by lia. exact M.
    + cbn [length] in N. replace (S (S (S (S (length p))))) with (length p + 1 * 4) in N by lia. rewrite Nat.mod_add in N by lia. exact N.
Qed.

Theorem base64_exact s v : b64_decode s = Some v <-> base64_text s v.
Proof.
  unfold b64_decode, base64_text. fold (without_line_ends s). set (t := without_line_ends s). clearbody t. split.
  - intros H. apply (b64_sound (length t) t v); [lia|exact H].
  - intros [p [k [ds [-> [K [M [F D]]]]]]].
    assert (NM : length p mod 4 <> 1).
    { destruct D as [j [r [L [J _]]]]. rewrite (Forall2_length _ _ _ F). lia. }
    destruct (b64_total (length p) p ds k ltac:(lia) F K M NM) as [v' Hv].
    destruct (b64_sound _ _ _ (le_n _) Hv) as [p' [k' [ds' [E [_ [_ [F' D']]]]]]].
    destruct (padding_split alphabet64 p p' k k' no_pad64 ltac:(eauto) ltac:(eauto) E) as [<- <-].
    rewrite (forall2_letters alphabet64 b64_val b64_val_spec p ds' ds F' F) in D'.
    rewrite Hv. f_equal. apply (decodes_unique 6 ds); [lia|exact D'|exact D].
Qed.
