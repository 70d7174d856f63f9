(* Proofs for C88: base32. *)
From Verif Require Import Base LexSpec Strconv Codec Base32 Literals LiteralsProofs CodecProofs IntSpec IntProofs ByteSpec ByteProofs.
From Coq Require Import ZifyBool ZifyNat ZifyN.
Ltac Zify.zify_post_hook ::= Z.div_mod_to_equations.

(* the digits of a text, if all its characters are letters *)
Fixpoint values (s : str) : option (list N) :=
  match s with
  | [] => Some []
  | c :: r => match b32_val c, values r with Some d, Some l => Some (d :: l) | _, _ => None end
  end.
Lemma values_spec s ds : values s = Some ds <-> Forall2 (stands_for alphabet32) s ds.
Proof.
  revert ds. induction s as [|c s IH]; intros ds; cbn [values].
  - split; [intros H; injection H as <-; constructor|intros H; inversion H; reflexivity].
  - split.
    + destruct (b32_val c) as [d|] eqn:E; [|discriminate]. destruct (values s) as [l|]; [|discriminate].
      intros H. injection H as <-. constructor; [apply b32_val_spec; exact E|apply IH; reflexivity].
    + intros H. inversion H as [|? d ? l H1 H2]; subst. apply b32_val_spec in H1. apply IH in H2. rewrite H1, H2. reflexivity.
Qed.

(* eight digits at a time *)
Fixpoint packs (buf ds : list N) : str :=
  match ds with
  | [] => match buf with [] => [] | _ => b32_pack buf end
  | d :: r => if length buf =? 7 then b32_pack (buf ++ [d]) ++ packs [] r else packs (buf ++ [d]) r
  end.

(* without padding *)
Lemma go_unpadded s : ~ In pad0 s -> forall buf, b32_go false buf s =
  match values s with Some ds => Some (packs buf ds) | None => None end.
Proof.
  induction s as [|c s IH]; intros NP buf.
  - cbn. destruct buf; reflexivity.
  - cbn [b32_go values packs]. fold pad0. destruct (Ascii.eqb_spec c pad0) as [->|_]; [destruct NP; left; reflexivity|]. cbn [andb].
    destruct (b32_val c) as [d|]; [|reflexivity].
    specialize (IH ltac:(intros I; apply NP; right; exact I)).
    destruct (length buf =? 7) eqn:J.
    + rewrite IH. destruct (values s) as [l|]; [|reflexivity]. cbn [packs]. rewrite J. reflexivity.
    + rewrite IH. destruct (values s) as [l|]; [|reflexivity]. cbn [packs]. rewrite J. reflexivity.
Qed.

(* the digits may be cut anywhere *)
Lemma existsb_pads n m : existsb (fun x => negb (Ascii.eqb x "=")) (firstn n (repeat "="%char m)) = false.
Proof. revert n. induction m as [|m IH]; intros [|n]; try reflexivity. cbn. apply IH. Qed.

Lemma go_padded s : ~ In "="%char s -> forall buf k, length buf < 8 -> 0 < k < 8 -> (length buf + length s + k) mod 8 = 0 ->
  In ((length buf + length s) mod 8) [2; 4; 5; 7] ->
  b32_go true buf (s ++ repeat "="%char k) = match values s with Some ds => Some (packs buf ds) | None => None end.
Proof.
  induction s as [|c s IH]; intros NP buf k LB K M J.
  - cbn [app length values packs]. cbn [length] in M, J. rewrite Nat.add_0_r in M, J.
    assert (LJ : In (length buf) [2; 4; 5; 7]).
    { rewrite Nat.mod_small in J by exact LB. exact J. }
    assert (KJ : k = 8 - length buf).
    { clear J. cbn [In] in LJ. destruct LJ as [E|[E|[E|[E|[]]]]]; rewrite <- E in *;
      do 8 (destruct k as [|k]; [try lia; try (cbn in M; lia)|]); lia. }
    destruct k as [|k]; [lia|]. cbn [repeat b32_go]. change (Ascii.eqb "=" "=") with true. cbn [andb].
    replace (2 <=? length buf) with true by (cbn [In] in LJ; lia). rewrite repeat_length.
    replace (k <? 8) with true by lia. cbn [andb].
    replace (k + length buf <? 7) with false by lia. rewrite existsb_pads.
    replace ((length buf =? 3) || (length buf =? 6)) with false by (cbn [In] in LJ; lia).
    destruct buf; [cbn [length In] in LJ; lia|reflexivity].
  - cbn [app b32_go values packs]. destruct (Ascii.eqb_spec c "=") as [->|_]; [destruct NP; left; reflexivity|]. cbn [andb].
    destruct (b32_val c) as [d|]; [|reflexivity].
    specialize (IH ltac:(intros I; apply NP; right; exact I)).
    cbn [length] in M, J.
    destruct (length buf =? 7) eqn:E.
    + apply Nat.eqb_eq in E. rewrite IH.
      * destruct (values s) as [l|]; [|reflexivity]. cbn [packs]. rewrite E. reflexivity.
      * cbn; lia.
      * exact K.
      * cbn [length]. rewrite E in M. replace (7 + S (length s) + k) with (length s + k + 1 * 8) in M by lia.
        rewrite Nat.mod_add in M by lia. exact M.
      * cbn [length]. rewrite E in J. replace (7 + S (length s)) with (length s + 1 * 8) in J by lia.
        rewrite Nat.mod_add in J by lia. exact J.
    + apply Nat.eqb_neq in E. rewrite IH.
      * destruct (values s) as [l|]; [|reflexivity]. cbn [packs]. rewrite (proj2 (Nat.eqb_neq _ _) E). reflexivity.
      * rewrite app_length. cbn. lia.
      * exact K.
      * rewrite app_length. cbn [length]. replace (length buf + 1 + length s + k) with (length buf + S (length s) + k) by lia. exact M.
      * rewrite app_length. cbn [length]. replace (length buf + 1 + length s) with (length buf + S (length s)) by lia. exact J.
Qed.

(* what is packed is what the digits denote *)
Lemma pack_last buf : Forall (fun d => d < 32)%N buf -> In (length buf) [2; 4; 5; 7] -> decodes 5 buf (b32_pack buf).
Proof.
  intros F J. cbn [In] in J.
  destruct J as [J|[J|[J|[J|[]]]]].
  - destruct buf as [|a [|b [|? ?]]]; try discriminate.
    inversion F as [|? ? A F1]; subst. inversion F1 as [|? ? B _]; subst.
    exists 2%N, (b mod 4)%N. cbn [b32_pack]. split; [reflexivity|]. split; [lia|]. powers. split; lia.
  - destruct buf as [|a [|b [|c [|d [|? ?]]]]]; try discriminate.
    inversion F as [|? ? A F1]; subst. inversion F1 as [|? ? B F2]; subst. inversion F2 as [|? ? C F3]; subst. inversion F3 as [|? ? D _]; subst.
    exists 4%N, (d mod 16)%N. cbn [b32_pack]. split; [reflexivity|]. split; [lia|]. powers. split; lia.
  - destruct buf as [|a [|b [|c [|d [|e [|? ?]]]]]]; try discriminate.
    inversion F as [|? ? A F1]; subst. inversion F1 as [|? ? B F2]; subst. inversion F2 as [|? ? C F3]; subst. inversion F3 as [|? ? D F4]; subst.
    inversion F4 as [|? ? E _]; subst.
    exists 1%N, (e mod 2)%N. cbn [b32_pack]. split; [reflexivity|]. split; [lia|]. powers. split; lia.
  - destruct buf as [|a [|b [|c [|d [|e [|f [|g [|? ?]]]]]]]]; try discriminate.
    inversion F as [|? ? A F1]; subst. inversion F1 as [|? ? B F2]; subst. inversion F2 as [|? ? C F3]; subst. inversion F3 as [|? ? D F4]; subst.
    inversion F4 as [|? ? E F5]; subst. inversion F5 as [|? ? G F6]; subst. inversion F6 as [|? ? H _]; subst.
    exists 3%N, (g mod 8)%N. cbn [b32_pack]. split; [reflexivity|]. split; [lia|]. powers. split; lia.
Qed.

Lemma pack_full g : Forall (fun d => d < 32)%N g -> length g = 8 ->
  length (b32_pack g) = 5 /\ positional (2 ^ 5) g = positional 256 (map byte (b32_pack g)).
Proof.
  intros F J. destruct g as [|a [|b [|c [|d [|e [|f [|g [|h [|? ?]]]]]]]]]; try discriminate.
  inversion F as [|? ? A F1]; subst. inversion F1 as [|? ? B F2]; subst. inversion F2 as [|? ? C F3]; subst. inversion F3 as [|? ? D F4]; subst.
  inversion F4 as [|? ? E F5]; subst. inversion F5 as [|? ? G F6]; subst. inversion F6 as [|? ? H F7]; subst. inversion F7 as [|? ? I _]; subst.
  cbn [b32_pack]. split; [reflexivity|]. powers. lia.
Qed.

Lemma packs_decode ds : forall buf, length buf < 8 -> Forall (fun d => d < 32)%N buf -> Forall (fun d => d < 32)%N ds ->
  In ((length buf + length ds) mod 8) [0; 2; 4; 5; 7] -> decodes 5 (buf ++ ds) (packs buf ds).
Proof.
  induction ds as [|d ds IH]; intros buf LB FB F J.
  - rewrite app_nil_r. cbn [packs]. cbn [length] in J. rewrite Nat.add_0_r, Nat.mod_small in J by exact LB.
    destruct buf as [|x buf]; [apply decodes_nil; lia|]. apply pack_last; [exact FB|].
    cbn [length In] in *. lia.
  - inversion F as [|? ? D F']; subst. cbn [packs].
    assert (FB' : Forall (fun d => d < 32)%N (buf ++ [d])) by (apply Forall_app; split; [exact FB|constructor; [exact D|constructor]]).
    replace (buf ++ d :: ds) with ((buf ++ [d]) ++ ds) by (rewrite <- app_assoc; reflexivity).
    cbn [length] in J.
    destruct (length buf =? 7) eqn:E.
    + apply Nat.eqb_eq in E. destruct (pack_full (buf ++ [d]) FB') as [L5 P5]; [rewrite app_length; cbn; lia|].
      apply decodes_app.
      * rewrite L5, app_length, E. reflexivity.
      * exact P5.
      * apply (IH []); [cbn; lia|constructor|exact F'|]. cbn [length].
        rewrite E in J. replace (7 + S (length ds)) with (length ds + 1 * 8) in J by lia. rewrite Nat.mod_add in J by lia. exact J.
    + apply Nat.eqb_neq in E. apply IH.
      * rewrite app_length. cbn. lia.
      * exact FB'.
      * exact F'.
      * rewrite app_length. cbn [length]. replace (length buf + 1 + length ds) with (length buf + S (length ds)) by lia. exact J.
Qed.

Lemma values_below s ds : values s = Some ds -> length ds = length s /\ Forall (fun d => d < 32)%N ds.
Proof.
  revert ds. induction s as [|c s IH]; intros ds; cbn [values].
  - intros H. injection H as <-. split; [reflexivity|constructor].
  - destruct (b32_val c) as [d|] eqn:E; [|discriminate]. destruct (values s) as [l|]; [|discriminate].
    intros H. injection H as <-. destruct (IH l eq_refl) as [L F]. split; [cbn; congruence|].
    constructor; [exact (b32_val_lt _ _ E)|exact F].
Qed.

Lemma values_no x s ds : b32_val x = None -> values s = Some ds -> ~ In x s.
Proof.
  intros X. revert ds. induction s as [|c s IH]; intros ds; cbn [values]; [intros _ []|].
  destruct (b32_val c) as [d|] eqn:E; [|discriminate]. destruct (values s) as [l|]; [|discriminate].
  intros _ [->|I]; [congruence|exact (IH l eq_refl I)].
Qed.
Lemma values_app a b : values (a ++ b) = match values a, values b with Some x, Some y => Some (x ++ y) | _, _ => None end.
Proof.
  induction a as [|c a IH]; cbn [app values]; [destruct (values b); reflexivity|].
  rewrite IH. destruct (b32_val c); [|reflexivity]. destruct (values a); [|reflexivity]. destruct (values b); reflexivity.
Qed.

Lemma base32_shape s v : base32_text s v -> shape32 (without_line_ends s).
Proof.
  intros [p [k [ds [-> [K [F D]]]]]]. apply values_spec in F.
  split.
  - intros I. apply in_app_or in I. destruct I as [I|I]; [exact (values_no pad0 p ds ltac:(reflexivity) F I)|].
    apply repeat_spec in I. discriminate.
  - exists p, k. split; [reflexivity|]. split; [exact (values_no "="%char p ds ltac:(reflexivity) F)|]. split; [|exact K].
    destruct D as [j [r [L [J _]]]]. destruct (values_below p ds F) as [<- _]. clear - L J. cbn [In]. lia.
Qed.

Theorem base32_exact s v : shape32 (without_line_ends s) -> b32_any s = Some v <-> base32_text s v.
Proof.
  intros [NP [p [k [E [NE [J K]]]]]].
  assert (R : b32_any s = match values p with Some ds => Some (packs [] ds) | None => None end).
  { unfold b32_any. fold (without_line_ends s). rewrite E in *. rewrite go_unpadded by exact NP. rewrite values_app.
    destruct k as [|k].
    - cbn [repeat values]. rewrite app_nil_r in *. destruct (values p) as [ds|] eqn:V; [rewrite app_nil_r; reflexivity|].
      (* the second attempt fails on the same letter *)
      assert (X : forall q buf, ~ In "="%char q -> values q = None -> b32_go true buf q = None).
      { induction q as [|c q IH]; intros buf N W; [discriminate|]. cbn [b32_go values] in *.
        destruct (Ascii.eqb_spec c "=") as [->|_]; [destruct N; left; reflexivity|]. cbn [andb].
        destruct (b32_val c) as [d|]; [|reflexivity]. destruct (values q); [discriminate|].
        destruct (length buf =? 7); rewrite IH; auto; intros I; apply N; right; exact I. }
      apply X; assumption.
    - assert (W : values (repeat "="%char (S k)) = None) by reflexivity. rewrite W.
      assert (V0 : match values p with Some x => @None str | None => None end = None) by (destruct (values p); reflexivity).
      destruct K as [K|[K M]]; [discriminate|].
      assert (J' : In ((length (@nil N) + length p) mod 8) [2; 4; 5; 7]).
      { cbn [length]. cbn [In] in J |- *. destruct J as [J|J]; [|exact J]. exfalso.
        clear - J M K. lia. }
      pose proof (go_padded p NE [] (S k) ltac:(cbn; lia) ltac:(lia) M J') as G.
      destruct (values p); exact G. }
  rewrite R. split.
  - destruct (values p) as [ds|] eqn:V; [|discriminate]. intros H. injection H as <-.
    destruct (values_below p ds V) as [L F]. apply values_spec in V. exists p, k, ds. split; [exact E|]. split; [exact K|]. split; [exact V|].
    apply (packs_decode ds []); [cbn; lia|constructor|exact F|]. cbn [length]. rewrite L. exact J.
  - intros [p' [k' [ds [E' [_ [F D]]]]]]. pose proof F as V. apply values_spec in V.
    assert (p' = p) as ->.
    { assert (NE' : ~ In "="%char p') by (exact (values_no "="%char p' ds ltac:(reflexivity) V)).
      rewrite E in E'. clear - NE NE' E'. revert p' NE' E'. induction p as [|c p IH]; intros [|c' p'] N' E'.
      - reflexivity.
      - destruct k; [discriminate|]. cbn in E'. injection E' as <- _. destruct N'. left. reflexivity.
      - destruct k'; [discriminate|]. cbn in E'. injection E' as -> _. destruct NE. left. reflexivity.
      - cbn in E'. injection E' as <- E'. f_equal. apply IH; auto; intros I; [apply NE|apply N']; right; exact I. }
    rewrite V. f_equal. destruct (values_below p ds V) as [L B].
    apply (decodes_unique 5 ds); [lia| |exact D].
    apply (packs_decode ds []); [cbn; lia|constructor|exact B|]. cbn [length]. rewrite L. exact J.
Qed.
