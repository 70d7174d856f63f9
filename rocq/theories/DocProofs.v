From Verif Require Import Base LexSpec DocLines.

Lemma slice_mid (a b c : str) : slice (a ++ b ++ c) (length a) (length a + length b) = Ret b.
Proof.
  unfold slice. rewrite !app_length.
  destruct (Nat.leb_spec (length a) (length a + length b)); [|lia].
  destruct (Nat.leb_spec (length a + length b) (length a + (length b + length c))); [|lia]. cbn.
  replace (length a + length b - length a) with (length b) by lia.
  rewrite skipn_app, skipn_all, Nat.sub_diag. cbn.
  rewrite firstn_app, firstn_all, Nat.sub_diag. cbn. rewrite app_nil_r. reflexivity.
Qed.

(* done: what is already cut, line: the current line so far *)
Lemma split_loop_spec n : forall rest done line acc s, length rest <= n ->
  s = done ++ line ++ rest -> one_line line ->
  exists ls, lines_of (line ++ rest) ls /\
    (letr (p, acc) := split_loop s rest (length done) (length done + length line) acc in
     if p <? length s then letr x := slice s p (length s) in Ret (acc ++ [x]) else Ret acc)
    = Ret (acc ++ ls).
Proof.
  induction n as [|n IH]; intros rest done line acc s Hn Es Hl.
  - destruct rest; [|cbn in Hn; lia]. exists [line]. rewrite app_nil_r. split; [constructor; exact Hl|].
    rewrite app_nil_r in Es. subst s. cbn [split_loop bindr]. rewrite app_length.
    destruct (Nat.eqb_spec (length done) (length done + length line)) as [E|E].
    + destruct line; [|cbn in E; lia]. cbn [length]. rewrite Nat.add_0_r, Nat.ltb_irrefl. reflexivity.
    + destruct (Nat.ltb_spec (length done) (length done + length line)); [|lia].
      pose proof (slice_mid done line []) as Q. rewrite app_nil_r in Q. rewrite Q. reflexivity.
  - destruct rest as [|c rest].
    { apply IH; auto. cbn; lia. }
    cbn [length] in Hn. cbn [split_loop].
    assert (Hs : slice s (length done) (length done + length line) = Ret line)
      by (subst s; apply slice_mid).
    destruct (Ascii.eqb_spec c c_cr) as [->|N1].
    + rewrite Hs. cbn [bindr].
      assert (K1 : forall c2 rest2, rest = c2 :: rest2 -> c2 = c_lf ->
        exists ls, lines_of (line ++ c_cr :: rest) ls /\
        (letr (p, acc) := split_loop s rest2 (S (S (length done + length line)))
                   (S (S (length done + length line))) (acc ++ [line]) in
         if p <? length s then letr x := slice s p (length s) in Ret (acc ++ [x]) else Ret acc)
        = Ret (acc ++ ls)).
      { intros c2 rest2 -> ->. cbn in Hn.
        destruct (IH rest2 (done ++ line ++ [c_cr; c_lf]) [] (acc ++ [line]) s) as [ls [H1 H2]];
          [lia|subst s; rewrite <- !app_assoc; reflexivity|split; cbn; tauto|].
        exists (line :: ls). split; [apply lines_crlf; assumption|].
        rewrite !app_length in H2. cbn [length app] in H2.
        replace (length done + (length line + 2)) with (S (S (length done + length line))) in H2 by lia.
        rewrite Nat.add_0_r in H2. rewrite H2, <- app_assoc. reflexivity. }
      assert (K2 : (forall r', rest <> c_lf :: r') ->
        exists ls, lines_of (line ++ c_cr :: rest) ls /\
        (letr (p, acc) := split_loop s rest (S (length done + length line))
                   (S (length done + length line)) (acc ++ [line]) in
         if p <? length s then letr x := slice s p (length s) in Ret (acc ++ [x]) else Ret acc)
        = Ret (acc ++ ls)).
      { intros Hr.
        destruct (IH rest (done ++ line ++ [c_cr]) [] (acc ++ [line]) s) as [ls [H1 H2]];
          [lia|subst s; rewrite <- !app_assoc; reflexivity|split; cbn; tauto|].
        exists (line :: ls). split; [apply lines_cr; assumption|].
        rewrite !app_length in H2. cbn [length app] in H2.
        replace (length done + (length line + 1)) with (S (length done + length line)) in H2 by lia.
        rewrite Nat.add_0_r in H2. rewrite H2, <- app_assoc. reflexivity. }
      destruct rest as [|c2 rest2]; [apply K2; discriminate|].
      destruct (Ascii.eqb_spec c2 c_lf) as [->|N2]; [eapply K1; reflexivity|].
      apply K2. congruence.
    + destruct (Ascii.eqb_spec c c_lf) as [->|N2].
      * rewrite Hs. cbn [bindr].
        destruct (IH rest (done ++ line ++ [c_lf]) [] (acc ++ [line]) s) as [ls [H1 H2]];
          [lia|subst s; rewrite <- !app_assoc; reflexivity|split; cbn; tauto|].
        exists (line :: ls). split; [apply lines_lf; assumption|].
        rewrite !app_length in H2. cbn [length app] in H2.
        replace (length done + (length line + 1)) with (S (length done + length line)) in H2 by lia.
        rewrite Nat.add_0_r in H2. rewrite H2, <- app_assoc. reflexivity.
      * destruct (IH rest done (line ++ [c]) acc s) as [ls [H1 H2]];
          [lia|subst s; rewrite <- !app_assoc; reflexivity| |].
        { destruct Hl as [A B]. split; rewrite in_app_iff; cbn; intuition congruence. }
        exists ls. rewrite <- app_assoc in H1. split; [exact H1|].
        rewrite app_length in H2. cbn [length] in H2.
        replace (length done + (length line + 1)) with (S (length done + length line)) in H2 by lia.
        exact H2.
Qed.

Theorem split_lines_spec s : exists ls, split_lines s = Ret ls /\ lines_of s ls.
Proof.
  destruct (split_loop_spec (length s) s [] [] [] s) as [ls [H1 H2]]; auto.
  { split; cbn; tauto. }
  exists ls. split; [|exact H1]. exact H2.
Qed.

(* the specification determines the lines *)
Lemma one_line_cut l1 l2 r1 r2 c1 c2 :
  one_line l1 -> one_line l2 -> (c1 = c_lf \/ c1 = c_cr) -> (c2 = c_lf \/ c2 = c_cr) ->
  l1 ++ c1 :: r1 = l2 ++ c2 :: r2 -> l1 = l2 /\ c1 = c2 /\ r1 = r2.
Proof.
  revert l2. induction l1 as [|a l1 IH]; intros [|b l2] [A1 A2] [B1 B2] C1 C2 E; cbn in E.
  - injection E as -> ->. auto.
  - injection E as <- _. cbn in B1, B2. exfalso. destruct C1 as [-> | ->]; tauto.
  - injection E as -> _. cbn in A1, A2. exfalso. destruct C2 as [-> | ->]; tauto.
  - injection E as -> E. cbn in *.
    destruct (IH l2) as [-> [-> ->]]; try (split; tauto); auto.
Qed.

Lemma one_line_no_cut l1 l2 r c :
  one_line l1 -> (c = c_lf \/ c = c_cr) -> l1 <> l2 ++ c :: r.
Proof.
  intros [A B] C ->. destruct C as [->| ->]; [apply A|apply B]; apply in_app_iff; right; left; reflexivity.
Qed.

Theorem lines_of_unique s ls : lines_of s ls -> forall ls', lines_of s ls' -> ls = ls'.
Proof.
  assert (D : c_lf <> c_cr) by discriminate.
  induction 1 as [l H|l r ls H F IH|l r ls H F IH|l r ls H Hr F IH]; intros ls' G;
    inversion G as [l' H' E|l' r' ls2 H' F' E|l' r' ls2 H' F' E|l' r' ls2 H' Hr' F' E]; subst; try reflexivity;
    try (exfalso; eapply one_line_no_cut; [| |eassumption]; [assumption|auto]; fail);
    try (exfalso; eapply one_line_no_cut; [| |symmetry; eassumption]; [assumption|auto]; fail);
    try (exfalso; eapply one_line_no_cut; [| |reflexivity]; [eassumption|auto]; fail).
  all: apply one_line_cut in E; auto; destruct E as [-> [E1 E2]]; subst; try congruence.
  all: try (f_equal; apply IH; congruence).
  all: exfalso; eapply Hr || eapply Hr'; eauto.
Qed.

(* counting terminators *)
Theorem lines_of_text s ls : lines_of s ls ->
  Forall one_line ls /\ ls <> [].
Proof. induction 1; split; try discriminate; constructor; tauto || constructor. Qed.

(* ------------------------------------------------------------------------------------------ *)
(* the lexer counts the same lines unless a quoted string runs over several lines *)
Definition strings_on_one_line (ps : list piece) : Prop :=
  forall w, In (PString w) ps \/ In (POpen w) ps -> one_line w.

Definition is_peol (p : piece) : bool := match p with PEol _ => true | _ => false end.

Lemma lines_of_nonempty s ls : lines_of s ls -> exists l ls', ls = l :: ls'.
Proof. destruct 1; eauto. Qed.

Lemma lines_prefix w r l ls : one_line w -> lines_of r (l :: ls) -> lines_of (w ++ r) ((w ++ l) :: ls).
Proof.
  assert (J : forall l, one_line w -> one_line l -> one_line (w ++ l)).
  { intros l' [A B] [C D]. split; rewrite in_app_iff; tauto. }
  intros Hw F. inversion F as [l' H' E|l' r' ls2 H' F' E|l' r' ls2 H' F' E|l' r' ls2 H' Hr' F' E]; subst.
  - apply lines_last; auto.
  - rewrite app_assoc. apply lines_lf; auto.
  - rewrite app_assoc. apply lines_crlf; auto.
  - rewrite app_assoc. apply lines_cr; auto.
Qed.

Lemma one_line_not_eolc w : Forall (fun c => ~ is_eolc c) w -> one_line w.
Proof.
  intros H. rewrite Forall_forall in H.
  split; intros I; apply H in I; apply I; [left|right]; reflexivity.
Qed.

Lemma lexes_lines s ps : Lexes s ps -> strings_on_one_line ps ->
  exists l ls, lines_of s (l :: ls) /\ length ls = length (filter is_peol ps).
Proof.
  induction 1 as [|c r ps Hc L IH|r ps L IH|r ps L IH|r ps Hr L IH|w r ps Hw Hr L IH
                 |w r ps Hq Hl L IH|w Hq|c w r ps Hq Hs Hw Hr L IH]; intros P.
  - exists [], []. split; [constructor; split; cbn; tauto|reflexivity].
  - destruct IH as [l [ls [H1 H2]]]; [intros w Hw; apply P; destruct Hw; [left|right]; right; assumption|].
    exists (c :: l), ls. split; [|exact H2]. apply (lines_prefix [c]); [|exact H1].
    destruct Hc as [-> | ->]; split; cbn; intros [Q|[]]; discriminate.
  - destruct IH as [l [ls [H1 H2]]]; [intros w Hw; apply P; destruct Hw; [left|right]; right; assumption|].
    exists [], (l :: ls). split; [apply (lines_lf []); [split; cbn; tauto|exact H1]|cbn; congruence].
  - destruct IH as [l [ls [H1 H2]]]; [intros w Hw; apply P; destruct Hw; [left|right]; right; assumption|].
    exists [], (l :: ls). split; [apply (lines_crlf []); [split; cbn; tauto|exact H1]|cbn; congruence].
  - destruct IH as [l [ls [H1 H2]]]; [intros w Hw; apply P; destruct Hw; [left|right]; right; assumption|].
    exists [], (l :: ls). split; [|cbn; congruence].
    apply (lines_cr []); [split; cbn; tauto| |exact H1]. intros r' ->. cbn in Hr. congruence.
  - destruct IH as [l [ls [H1 H2]]]; [intros w' Hw'; apply P; destruct Hw'; [left|right]; right; assumption|].
    exists ((c_slash :: c_slash :: w) ++ l), ls. split; [|exact H2].
    apply (lines_prefix (c_slash :: c_slash :: w)); [|exact H1].
    apply one_line_not_eolc. repeat constructor; auto; intros [Q|Q]; discriminate.
  - destruct IH as [l [ls [H1 H2]]]; [intros w' Hw'; apply P; destruct Hw'; [left|right]; right; assumption|].
    exists ((c_quote :: w ++ [c_quote]) ++ l), ls. split; [|exact H2].
    replace (c_quote :: w ++ c_quote :: r) with ((c_quote :: w ++ [c_quote]) ++ r)
      by (cbn; rewrite <- app_assoc; reflexivity).
    apply lines_prefix; [|exact H1].
    destruct (P w) as [A B]; [left; left; reflexivity|].
    split; cbn; rewrite in_app_iff; cbn; intros Q; intuition discriminate.
  - destruct (P w) as [A B]; [right; left; reflexivity|].
    exists (c_quote :: w), []. split; [|reflexivity]. constructor.
    split; cbn; intros Q; intuition discriminate.
  - destruct IH as [l [ls [H1 H2]]]; [intros w' Hw'; apply P; destruct Hw'; [left|right]; right; assumption|].
    exists ((c :: w) ++ l), ls. split; [|exact H2]. apply (lines_prefix (c :: w)); [|exact H1].
    apply one_line_not_eolc. eapply Forall_impl; [|exact Hw]. intros a Ha Q. apply Ha. right. exact Q.
Qed.

Theorem split_lines_iff s ls : split_lines s = Ret ls <-> lines_of s ls.
Proof.
  destruct (split_lines_spec s) as [ls' [E L]]. split.
  - intros E'. rewrite E in E'. injection E' as <-. exact L.
  - intros L'. rewrite (lines_of_unique _ _ L' _ L). exact E.
Qed.

Theorem split_lines_total s : exists ls, split_lines s = Ret ls /\ ls <> [].
Proof.
  destruct (split_lines_spec s) as [ls [E L]]. exists ls. split; [exact E|].
  exact (proj2 (lines_of_text _ _ L)).
Qed.
