From Verif Require Import Base Frame FrameProofs Notes LangOps NotesSpec.

Lemma skip_app b s : blanks b -> no_blank_first s -> skip_blanks (b ++ s) = s.
Proof.
  induction 1 as [|c b -> B IH]; intros N; cbn [app].
  - destruct s as [|c s]; [reflexivity|]. cbn [skip_blanks]. cbn in N. destruct (Ascii.eqb_spec c " "); [congruence|reflexivity].
  - cbn [skip_blanks]. change (Ascii.eqb " " " ") with true. cbv iota. apply IH. exact N.
Qed.
Lemma skip_split s : exists b, s = b ++ skip_blanks s /\ blanks b /\ no_blank_first (skip_blanks s).
Proof.
  induction s as [|c s [b [E [B N]]]]; [exists []; repeat split; constructor|]. cbn [skip_blanks].
  destruct (Ascii.eqb_spec c " ") as [->|D].
  - exists (" "%char :: b). split; [cbn [app]; f_equal; exact E|]. split; [constructor; [reflexivity|exact B]|exact N].
  - exists []. repeat split; [constructor|exact D].
Qed.
Lemma skip_shorter s : length (skip_blanks s) <= length s.
Proof. destruct (skip_split s) as [b [E _]]. apply (f_equal (@length ascii)) in E. rewrite app_length in E. lia. Qed.

Lemma field_of_named v t n : named v t n -> field_of v = NField t n None (braced v).
Proof.
  intros [t' n' N|t' N]; unfold field_of.
  - change (bs " " ++ n') with (" "%char :: n'). rewrite (cut_app _ _ _ N). reflexivity.
  - rewrite (cut_none _ _ N). reflexivity.
Qed.
Lemma named_field_of v : exists t n, named v t n /\ field_of v = NField t n None (braced v).
Proof.
  unfold field_of. destruct (cut " " v) as [[t n]|] eqn:E.
  - apply cut_some in E as [-> N]. exists t, n. split; [apply (named_two t n N)|reflexivity].
  - exists v, v. split; [|reflexivity]. apply named_one. intros I. clear -E I. induction v as [|c v IH]; [destruct I|].
    cbn [cut] in E. destruct (Ascii.eqb_spec c " ") as [->|D]; [discriminate|].
    destruct (cut " " v) as [[a b]|]; [discriminate|]. destruct I as [->|I]; [congruence|]. apply IH; [reflexivity|exact I].
Qed.

Lemma blanks_paren b x : blanks b -> x <> " "%char -> ~ In x b.
Proof. intros B D I. unfold blanks in B. rewrite Forall_forall in B. apply D. apply B. exact I. Qed.

Lemma parse_field_complete x a : item x a -> forall fuel rest, length x <= fuel ->
  parse_field fuel (x ++ rest) = Some (a, rest).
Proof.
  induction 1 as [v t n N D|x f b n I IH B F N|]; intros fuel rest L; (destruct fuel as [|fuel]; [cbn in L; lia|]).
  - rewrite <- !app_assoc. change (bs "{" ++ v ++ bs "}" ++ rest) with ("{"%char :: (v ++ "}"%char :: rest)).
    cbn [parse_field]. change (Ascii.eqb "{" "(") with false. change (Ascii.eqb "{" "{") with true. cbv iota.
    rewrite (cut_app _ _ _ N), (field_of_named v t n D). reflexivity.
  - rewrite <- (app_assoc (bs "(")), <- (app_assoc (x ++ b ++ n)).
    change (bs "(" ++ (x ++ b ++ n) ++ bs ")" ++ rest) with ("("%char :: ((x ++ b ++ n) ++ ")"%char :: rest)).
    cbn [parse_field]. change (Ascii.eqb "(" "(") with true. cbv iota.
    rewrite cut_app.
    + rewrite IH.
      * rewrite (skip_app b n B F). reflexivity.
      * rewrite !app_length in L. cbn in L. lia.
    + rewrite !in_app_iff. rewrite in_app_iff in N. intros [J|[J|J]]; [apply N; left; exact J| |apply N; right; exact J].
      apply (blanks_paren b ")"%char B); [discriminate|exact J].
  - reflexivity.
Qed.

Lemma parse_field_sound fuel : forall s a rest, parse_field fuel s = Some (a, rest) ->
  exists x, s = x ++ rest /\ item x a.
Proof.
  induction fuel as [|fuel IH]; intros [|c s] a rest E; try discriminate E. cbn [parse_field] in E.
  destruct (Ascii.eqb_spec c "(") as [->|_].
  { destruct (cut ")" s) as [[v r]|] eqn:C; [|discriminate]. apply cut_some in C as [-> N].
    destruct (parse_field fuel v) as [[f w]|] eqn:P; [|discriminate]. injection E as <- <-.
    apply IH in P as [x [-> I]]. destruct (skip_split w) as [b [W [B F]]]. rewrite W in N. rewrite !in_app_iff in N.
    exists (bs "(" ++ (x ++ b ++ skip_blanks w) ++ bs ")"). split.
    - rewrite <- W. cbn [bs list_ascii_of_string app]. rewrite <- !app_assoc. reflexivity.
    - apply item_pair; [exact I|exact B|exact F|]. rewrite in_app_iff. tauto. }
  destruct (Ascii.eqb_spec c "{") as [->|_].
  { destruct (cut "}" s) as [[v r]|] eqn:C; [|discriminate]. apply cut_some in C as [-> N]. injection E as <- <-.
    exists (bs "{" ++ v ++ bs "}"). split; [cbn [bs list_ascii_of_string app]; rewrite <- !app_assoc; reflexivity|].
    destruct (named_field_of v) as [t [n [D ->]]]. apply item_field; assumption. }
  destruct (Ascii.eqb_spec c ".") as [->|_]; [|discriminate].
  destruct s as [|c1 [|c2 s]]; try discriminate E.
  destruct (Ascii.eqb_spec c1 ".") as [->|_]; [|discriminate E]. destruct (Ascii.eqb_spec c2 ".") as [->|_]; [|discriminate E].
  injection E as <- <-. exists (bs "..."). split; [reflexivity|constructor].
Qed.

Lemma item_first x a : item x a -> no_blank_first x /\ x <> [].
Proof. intros [| |]; cbn; split; discriminate. Qed.
Lemma items_first s l : items s l -> no_blank_first s.
Proof.
  intros [|x a b I _|x a b b' s' l' I _ _ _]; [exact I| |]; apply item_first in I as [N E]; destruct x; try congruence; exact N.
Qed.

Lemma parse_items_complete v l : items v l -> forall fuel, length v <= fuel -> parse_items fuel v = Some l.
Proof.
  induction 1 as [|x a b I B|x a b b' s l I B B' S IH]; intros fuel L.
  - destruct fuel; reflexivity.
  - destruct (item_first x a I) as [_ N]. destruct x as [|c x]; [congruence|]. destruct fuel as [|fuel]; [cbn in L; lia|].
    remember (c :: x) as y eqn:Y. destruct (y ++ b) as [|d w] eqn:W; [subst; discriminate|]. cbn [parse_items]. rewrite <- W.
    rewrite (parse_field_complete y a I) by (rewrite app_length; lia).
    replace (skip_blanks b) with (@nil ascii) by (symmetry; rewrite <- (app_nil_r b); apply skip_app; [exact B|exact Logic.I]). reflexivity.
  - destruct (item_first x a I) as [_ N]. destruct x as [|c x]; [congruence|]. destruct fuel as [|fuel]; [cbn in L; lia|].
    remember (c :: x) as y eqn:Y.
    destruct (y ++ b ++ bs "," ++ b' ++ s) as [|d w] eqn:W; [subst; discriminate|]. cbn [parse_items]. rewrite <- W in *.
    rewrite (parse_field_complete y a I) by (rewrite app_length; lia).
    change (bs "," ++ b' ++ s) with (","%char :: b' ++ s). rewrite (skip_app b (","%char :: b' ++ s) B) by discriminate.
    change (Ascii.eqb "," ",") with true. cbv iota. rewrite (skip_app b' s B' (items_first s l S)).
    rewrite IH; [reflexivity|]. rewrite !app_length in L. subst y. cbn [length] in L. cbn in L. lia.
Qed.
Lemma parse_items_sound fuel : forall v l, parse_items fuel v = Some l -> items v l.
Proof.
  induction fuel as [|fuel IH]; intros [|c v] l E; try discriminate E; try (injection E as <-; constructor).
  remember (c :: v) as w eqn:W. assert (E' : match parse_field (length w) w with
      | None => None
      | Some (a, r) =>
          match skip_blanks r with
          | [] => Some [a]
          | c :: r =>
              if Ascii.eqb c "," then
                match parse_items fuel (skip_blanks r) with Some l => Some (a :: l) | None => None end
              else None
          end
      end = Some l) by (subst w; exact E). clear E. rename E' into E.
  destruct (parse_field (length w) w) as [[a r]|] eqn:P; [|discriminate]. apply parse_field_sound in P as [x [-> I]].
  destruct (skip_split r) as [b [R [B F]]]. destruct (skip_blanks r) as [|d r'] eqn:K.
  - injection E as <-. rewrite app_nil_r in R. subst b. apply items_last; assumption.
  - destruct (Ascii.eqb_spec d ",") as [->|_]; [|discriminate]. destruct (parse_items fuel (skip_blanks r')) as [l'|] eqn:P; [|discriminate].
    injection E as <-. apply IH in P. destruct (skip_split r') as [b' [R' [B' F']]].
    rewrite R, R'. apply (items_more x a b b' (skip_blanks r') l' I B B' P).
Qed.

Lemma field_item v t n : ~ In "}"%char v -> named v t n -> item (bs "{" ++ v ++ bs "}") (NField t n None (bs "{" ++ v ++ bs "}")).
Proof. apply item_field. Qed.

Lemma tokenize_step fuel c s : tokenize (S fuel) (c :: s) =
  match skip_blanks (c :: s) with
      | [] => None
      | c :: r =>
          if Ascii.eqb c "{" then
            match parse_field 1 (c :: r) with
            | None => None
            | Some (a, r) => match tokenize fuel r with Some l => Some (a :: l) | None => None end
            end
          else if Ascii.eqb c "[" then
            match cut "]" r with
            | None => None
            | Some (v, r) =>
                match parse_items (length v) v with
                | None => None
                | Some items =>
                    match tokenize fuel r with Some l => Some (NArray items (braced v) :: l) | None => None end
                end
            end
          else None
      end.
Proof. reflexivity. Qed.

Lemma tokenize_complete s l : note s l -> forall fuel, length s <= fuel -> tokenize fuel s = Some l.
Proof.
  induction 1 as [|b v t n s l B N D _ IH|b v r s l B N I _ IH]; intros fuel L.
  - destruct fuel; reflexivity.
  - rewrite !app_length in L. change (length (bs "{")) with 1 in L. change (length (bs "}")) with 1 in L.
    destruct fuel as [|fuel]; [lia|].
    destruct (b ++ (bs "{" ++ v ++ bs "}") ++ s) as [|d w] eqn:W; [destruct b; discriminate|]. rewrite tokenize_step, <- W.
    rewrite (skip_app b _ B) by discriminate. rewrite <- !app_assoc.
    change (bs "{" ++ v ++ bs "}" ++ s) with ("{"%char :: v ++ "}"%char :: s). change (Ascii.eqb "{" "{") with true. cbv iota.
    cbn [parse_field]. change (Ascii.eqb "{" "(") with false. change (Ascii.eqb "{" "{") with true. cbv iota.
    rewrite (cut_app _ _ _ N), (field_of_named v t n D), IH by lia. reflexivity.
  - rewrite !app_length in L. change (length (bs "[")) with 1 in L. change (length (bs "]")) with 1 in L.
    destruct fuel as [|fuel]; [lia|].
    destruct (b ++ (bs "[" ++ v ++ bs "]") ++ s) as [|d w] eqn:W; [destruct b; discriminate|]. rewrite tokenize_step, <- W.
    rewrite (skip_app b _ B) by discriminate. rewrite <- !app_assoc.
    change (bs "[" ++ v ++ bs "]" ++ s) with ("["%char :: v ++ "]"%char :: s).
    change (Ascii.eqb "[" "{") with false. change (Ascii.eqb "[" "[") with true. cbv iota.
    rewrite (cut_app _ _ _ N), (parse_items_complete v r I) by lia. rewrite IH by lia. reflexivity.
Qed.
Lemma tokenize_sound fuel : forall s l, tokenize fuel s = Some l -> note s l.
Proof.
  induction fuel as [|fuel IH]; intros [|c s] l E; try discriminate E; try (injection E as <-; constructor).
  rewrite tokenize_step in E. destruct (skip_split (c :: s)) as [b [W [B _]]].
  destruct (skip_blanks (c :: s)) as [|d r]; [discriminate|]. rewrite W. clear W c s.
  destruct (Ascii.eqb_spec d "{") as [->|_].
  { cbn [parse_field] in E. change (Ascii.eqb "{" "(") with false in E. change (Ascii.eqb "{" "{") with true in E. cbv iota in E.
    destruct (cut "}" r) as [[v r']|] eqn:C; [|discriminate]. apply cut_some in C as [-> N].
    destruct (tokenize fuel r') as [l'|] eqn:T; [|discriminate]. injection E as <-. apply IH in T.
    destruct (named_field_of v) as [t [n [D ->]]].
    replace (b ++ "{"%char :: v ++ "}"%char :: r') with (b ++ (bs "{" ++ v ++ bs "}") ++ r') by (rewrite <- !app_assoc; reflexivity).
    apply note_field; assumption. }
  destruct (Ascii.eqb_spec d "[") as [->|_]; [|discriminate].
  destruct (cut "]" r) as [[v r']|] eqn:C; [|discriminate]. apply cut_some in C as [-> N].
  destruct (parse_items (length v) v) as [is|] eqn:P; [|discriminate]. apply parse_items_sound in P.
  destruct (tokenize fuel r') as [l'|] eqn:T; [|discriminate]. injection E as <-. apply IH in T.
  replace (b ++ "["%char :: v ++ "]"%char :: r') with (b ++ (bs "[" ++ v ++ bs "]") ++ r') by (rewrite <- !app_assoc; reflexivity).
  apply note_array; assumption.
Qed.

Lemma tokenize_exact s l : tokenize (length s) s = Some l <-> note s l.
Proof. split; [apply tokenize_sound|intros N; apply (tokenize_complete s l N); lia]. Qed.

(* ------------------------------------------------------------------------------------------ *)
(* the arguments *)

Lemma shows_note a e t : shows a e t -> note_of a false = NoteArg t false /\ note_of a true = NoteArg (bs "[" ++ t ++ bs ", ...]") true.
Proof.
  intros [v|e' n v N B]; unfold note_of; cbn [na_n na_v]; [split; reflexivity|].
  destruct (seqb_spec n (bs "branch offset, big-endian")) as [E|_]; [exfalso; apply N; exact E|split; reflexivity].
Qed.

Lemma merge_two a t n s v l : n <> bs "bytes" -> merge (a :: NField t n s v :: l) = note_of a false :: merge (NField t n s v :: l).
Proof. intros N. cbn [merge]. destruct (seqb_spec n (bs "bytes")); [congruence|reflexivity]. Qed.
Lemma merge_shows a b l e t : shows b e t -> merge (a :: b :: l) = note_of a false :: merge (b :: l).
Proof. intros [v|e' n v _ N]; apply merge_two; [discriminate|exact N]. Qed.

Lemma merge_encoded l m : encoded l m -> merge l = map (fun x => NoteArg (snd x) (snd (fst x))) m.
Proof.
  induction 1 as [|a e t l m S _ IH N|a t v l m S _ IH|c e' a e t t' v l m _ S _ IH|c e' t' a t v w l m _ S _ IH].
  - reflexivity.
  - cbn [map fst snd]. rewrite <- IH. destruct (shows_note _ _ _ S) as [A _]. rewrite <- A.
    destruct l as [|b l]; [reflexivity|]. destruct N as [e' [t' N]]. apply (merge_shows a b l e' t' N).
  - cbn [map fst snd]. rewrite <- IH. reflexivity.
  - cbn [map fst snd]. rewrite <- IH. destruct (shows_note _ _ _ S) as [_ A]. rewrite <- A. reflexivity.
  - cbn [map fst snd]. rewrite <- IH. reflexivity.
Qed.

(* a function for the encodings *)
Definition word_enc (t : str) : option encoding :=
  find (fun e => seqb (type_word e) t) [EUint8; EInt8; EInt16; EVaruint; EBytes].
Definition show_of (a : imm_arg) : option (encoding * str) :=
  match a with
  | NField t n None v =>
      match word_enc t with
      | Some e =>
          if seqb n (bs "bytes") then None
          else if seqb n label_name then match e with EInt16 => Some (e, bs "{label}") | _ => None end
          else Some (e, v)
      | None => None
      end
  | _ => None
  end.
Definition bytes_of (a : imm_arg) : option str :=
  match a with
  | NField t n None v => if seqb t (bs "bytes") && seqb n (bs "bytes") then Some v else None
  | NField t n (Some f) v =>
      if seqb t [] && seqb n (bs "bytes") then match show_of f with Some (EVaruint, _) => Some v | _ => None end else None
  | _ => None
  end.
Fixpoint encode (l : list imm_arg) : option (list (encoding * bool * str)) :=
  match l with
  | [] => Some []
  | a :: r =>
      match show_of a, r with
      | Some (e, t), [] => Some [(e, false, t)]
      | Some (e, t), NArray [x; NVar] v :: r' =>
          match show_of x, bytes_of x, x, encode r' with
          | Some (e', t'), _, _, Some m => Some ((e', true, bs "[" ++ t' ++ bs ", ...]") :: m)
          | None, Some w, NField _ _ (Some _) _, Some m => Some ((EBytes, true, bs "[" ++ w ++ bs ", ...]") :: m)
          | _, _, _, _ => None
          end
      | Some (e, t), b :: r' =>
          match show_of b, bytes_of b, b with
          | Some _, _, _ => match encode r with Some m => Some ((e, false, t) :: m) | None => None end
          | None, Some v, NField _ _ None _ =>
              match e, encode r' with EVaruint, Some m => Some ((EBytes, false, v) :: m) | _, _ => None end
          | _, _, _ => None
          end
      | None, _ => None
      end
  end.

Lemma word_enc_spec t e : word_enc t = Some e -> t = type_word e.
Proof. intros E. apply find_some in E as [_ E]. apply seqb_eq in E. symmetry. exact E. Qed.
Lemma show_of_spec a e t : show_of a = Some (e, t) -> shows a e t.
Proof.
  destruct a as [w n [|] v| |]; try discriminate. cbn [show_of]. destruct (word_enc w) as [x|] eqn:W; [|discriminate].
  apply word_enc_spec in W as ->. destruct (seqb_spec n (bs "bytes")) as [|N]; [discriminate|].
  destruct (seqb_spec n label_name) as [->|M].
  - destruct x; try discriminate. intros E. injection E as <- <-. constructor.
  - intros E. injection E as <- <-. constructor; assumption.
Qed.
Lemma encode_encoded k : forall l m, length l <= k -> encode l = Some m -> encoded l m.
Proof.
  induction k as [|k IH]; intros l m L E.
  - destruct l; [|cbn in L; lia]. injection E as <-. constructor.
  - destruct l as [|a r]; [injection E as <-; constructor|]. cbn [length] in L. cbn [encode] in E.
    destruct (show_of a) as [[e t]|] eqn:S; [|discriminate]. apply show_of_spec in S.
    destruct r as [|b r']; [injection E as <-; apply enc_one; [exact S|constructor|exact Logic.I]|]. cbn [length] in L.
    assert (ONE : match show_of b, bytes_of b, b with
          | Some _, _, _ => match encode (b :: r') with Some m => Some ((e, false, t) :: m) | None => None end
          | None, Some v, NField _ _ None _ =>
              match e, encode r' with EVaruint, Some m => Some ((EBytes, false, v) :: m) | _, _ => None end
          | _, _, _ => None
          end = Some m -> encoded (a :: b :: r') m).
    { destruct (show_of b) as [[e' t']|] eqn:SB.
      - intros F. destruct (encode (b :: r')) as [m'|] eqn:R; [|discriminate]. injection F as <-.
        apply enc_one; [exact S|apply IH; [cbn [length]; lia|exact R]|]. exists e', t'. apply show_of_spec. exact SB.
      - destruct (bytes_of b) as [v|] eqn:B; [|discriminate]. destruct b as [t0 n0 [|] v0| |]; try discriminate.
        destruct e; try discriminate. destruct (encode r') as [m'|] eqn:R; [|discriminate]. intros F. injection F as <-.
        cbn [bytes_of] in B. destruct (seqb_spec t0 (bs "bytes")) as [->|]; [|discriminate B].
        destruct (seqb_spec n0 (bs "bytes")) as [->|]; [|discriminate B]. injection B as <-.
        apply (enc_bytes a t v0 r' m' S). apply IH; [lia|exact R]. }
    destruct b as [t0 n0 s0 v0|is v0|]; [apply ONE; exact E| |apply ONE; exact E]. clear ONE.
    destruct is as [|x [|y [|z is]]]; try discriminate E; destruct y; try discriminate E.
    destruct (show_of x) as [[e' t']|] eqn:SX.
    + destruct (encode r') as [m'|] eqn:R; [|discriminate]. injection E as <-.
      apply (enc_array a e x e' t' t v0 r' m' S); [apply show_of_spec; exact SX|apply IH; [lia|exact R]].
    + destruct (bytes_of x) as [w|] eqn:B; [|discriminate]. destruct x as [t1 n1 [f|] v1| |]; try discriminate.
      destruct (encode r') as [m'|] eqn:R; [|discriminate]. injection E as <-. cbn [bytes_of] in B.
      destruct (seqb_spec t1 []) as [->|]; [|discriminate B]. destruct (seqb_spec n1 (bs "bytes")) as [->|]; [|discriminate B].
      cbn [andb] in B. destruct (show_of f) as [[[| | | |] tf]|] eqn:SF; try discriminate B. injection B as <-.
      apply (enc_bytess a e t f tf v1 v0 r' m' S); [apply show_of_spec; exact SF|apply IH; [lia|exact R]].
Qed.

Lemma type_word_eq e e' : type_word e = type_word e' -> e = e'.
Proof. destruct e, e'; intros H; try reflexivity; vm_compute in H; discriminate H. Qed.
Lemma shows_unique a e t e' t' : shows a e t -> shows a e' t' -> e = e' /\ t = t'.
Proof.
  intros A B. destruct A as [v|e1 n v N1 B1].
  - inversion B; [split; reflexivity|congruence].
  - inversion B; [congruence|]. subst. split; [apply type_word_eq; congruence|reflexivity].
Qed.
Lemma shows_bytes w s v e t : ~ shows (NField w (bs "bytes") s v) e t.
Proof. intros H. remember (NField w (bs "bytes") s v) as a eqn:A. destruct H as [|e n x N B]; [discriminate A|]. injection A as _ A _ _. exact (B A). Qed.
Lemma encoded_unique l m : encoded l m -> forall m', encoded l m' -> m = m'.
Proof.
  induction 1 as [|a e t l m S _ IH N|a t v l m S _ IH|c e' a e t t' v l m C S _ IH|c e' t' a t v w l m C S _ IH]; intros m' H.
  - inversion H. reflexivity.
  - inversion H as [|a1 e1 t1 l1 m1 S1 E1 N1|a1 t1 v1 l1 m1 S1 E1|c1 e1 a1 e2 t1 t2 v1 l1 m1 C1 S1 E1|c1 e1 t1 a1 t2 v1 w1 l1 m1 C1 S1 E1]; subst.
    + destruct (shows_unique _ _ _ _ _ S S1) as [-> ->]. rewrite (IH _ E1). reflexivity.
    + destruct N as [e2 [t2 N]]. destruct (shows_bytes _ _ _ _ _ N).
    + destruct N as [e3 [t3 N]]. inversion N.
    + destruct N as [e3 [t3 N]]. inversion N.
  - inversion H as [|a1 e1 t1 l1 m1 S1 E1 N1|a1 t1 v1 l1 m1 S1 E1|c1 e1 a1 e2 t1 t2 v1 l1 m1 C1 S1 E1|c1 e1 t1 a1 t2 v1 w1 l1 m1 C1 S1 E1]; subst.
    + destruct N1 as [e2 [t2 N]]. destruct (shows_bytes _ _ _ _ _ N).
    + rewrite (IH _ E1). reflexivity.
  - inversion H as [|a1 e1 t1 l1 m1 S1 E1 N1|a1 t1 v1 l1 m1 S1 E1|c1 e1 a1 e2 t1 t2 v1 l1 m1 C1 S1 E1|c1 e1 t1 a1 t2 v1 w1 l1 m1 C1 S1 E1]; subst.
    + destruct N1 as [e3 [t3 N]]. inversion N.
    + destruct (shows_unique _ _ _ _ _ S S1) as [-> ->]. rewrite (IH _ E1). reflexivity.
    + inversion S.
  - inversion H as [|a1 e1 t1 l1 m1 S1 E1 N1|a1 t1 v1 l1 m1 S1 E1|c1 e1 a1 e2 t1 t2 v1 l1 m1 C1 S1 E1|c1 e1 t1 a1 t2 v1 w1 l1 m1 C1 S1 E1]; subst.
    + destruct N1 as [e3 [t3 N]]. inversion N.
    + inversion S1.
    + rewrite (IH _ E1). reflexivity.
Qed.
Lemma note_unique s l l' : note s l -> note s l' -> l = l'.
Proof. intros A B. apply tokenize_exact in A. apply tokenize_exact in B. congruence. Qed.
Lemma immediates_unique o e e' : immediates o e -> immediates o e' -> e = e'.
Proof.
  intros [l [m [A [B ->]]]] [l' [m' [A' [B' ->]]]]. rewrite <- (note_unique _ _ _ A A') in B'. rewrite (encoded_unique _ _ B _ B'). reflexivity.
Qed.
