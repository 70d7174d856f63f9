(* Different values have different texts. *)
From Verif Require Import Base Lexer Expr Codec LexSpec Literals CodecProofs LspProofs OpTable Process ProcessSpec ProcessDoc ProcessThms HintProofs VmOps Vm Dbg ValueSpec.
From Coq Require Import Lia ZifyN.

Lemma b64_injective x y : b64_encode x = b64_encode y -> x = y.
Proof. intros H. apply (f_equal b64_decode) in H. rewrite !b64_round_trip in H. congruence. Qed.

(* the values whose text can be read *)
Inductive readable : value -> Prop :=
| read_plain T : readable (Val T None)
| read_int T n : readable (Val T (Some (SUint64 n)))
| read_bytes T x : readable (Val T (Some (SBytes x)))
| read_method T w : readable (Val T (Some (SSignature (c_quote :: w))))
| read_value T x : readable x -> readable (Val T (Some (SValue x)))
| read_hash T x : readable x -> readable (Val T (Some (SOp (bs "sha256") [x]))).

Lemma hash_text x : source_text (SOp (bs "sha256") [x]) = bs "sha256(" ++ value_text x ++ [")"%char].
Proof. reflexivity. Qed.

Lemma type_split T T' r r' : type_text T ++ r = type_text T' ++ r' -> T = T' /\ r = r'.
Proof. destruct T, T'; cbn; intros E; try discriminate; split; congruence. Qed.

Lemma dec_first n : exists c r', dec n = c :: r' /\ is_digit c.
Proof.
  destruct (dec_spec n) as [N [F _]]. destruct (dec n) as [|c w]; [congruence|]. inversion F; subst. cbn. eauto.
Qed.

Lemma digit_of c : is_digit c -> c <> c_quote /\ c <> "b"%char /\ c <> "a"%char /\ c <> "u"%char /\ c <> "("%char /\ c <> "s"%char /\ c <> "e"%char.
Proof. intros [d [H E]]. repeat split; intros ->; vm_compute byte in E; lia. Qed.

(* the kind of a source can be told from the first two characters *)
Definition kind (s : source) : nat :=
  match s with SUint64 _ => 0 | SSignature _ => 1 | SBytes _ => 2 | SOp _ _ => 3 | SValue _ => 4 end.
Definition kind_of (t : str) : nat :=
  match t with
  | a :: b :: _ =>
      if Ascii.eqb a c_quote then 1
      else if Ascii.eqb a "s" || Ascii.eqb a "e" then 3
      else if Ascii.eqb a "b" then (if Ascii.eqb b "6" then 2 else 4)
      else if Ascii.eqb a "a" || Ascii.eqb a "u" || Ascii.eqb a "(" then 4
      else 0
  | _ => 0
  end.

Lemma kind_text T s : readable (Val T (Some s)) -> kind_of (source_text s ++ [c_lf]) = kind s.
Proof.
  intros R. inversion R as [|? n|? x|? w|? x Rx|? x Rx]; subst; cbn [kind].
  - cbn [source_text]. destruct (dec_first n) as [c [w [-> D]]].
    destruct (digit_of c D) as [N1 [N2 [N3 [N4 [N5 [N6 N7]]]]]]. destruct w as [|d w]; cbn [app kind_of];
    repeat match goal with |- context [Ascii.eqb c ?d] => destruct (Ascii.eqb_spec c d); [contradiction|] end;
    reflexivity.
  - reflexivity.
  - cbn [source_text]. destruct w; reflexivity.
  - cbn [source_text]. destruct x as [[] [t|]]; reflexivity.
  - reflexivity.
Qed.

Lemma source_split (s s' : source) r : bs ": " ++ source_text s = r -> r <> [].
Proof. intros <-. discriminate. Qed.

Theorem text_injective v : readable v -> forall v', readable v' -> value_text v = value_text v' -> v = v'.
Proof.
  intros R. induction R as [T|T n|T x|T w|T x R IH|T x R IH]; intros [T' [s'|]] R' E; cbn [value_text] in E.
  all: try (rewrite <- (app_nil_r (type_text T)) in E; apply type_split in E; destruct E as [_ E]; discriminate).
  all: try (rewrite <- (app_nil_r (type_text T')) in E; apply type_split in E; destruct E as [_ E]; discriminate).
  { rewrite <- (app_nil_r (type_text T)), <- (app_nil_r (type_text T')) in E. apply type_split in E.
    destruct E as [-> _]. reflexivity. }
  all: apply type_split in E; destruct E as [-> E]; apply app_inv_head in E.
  all: pose proof (kind_text T' s' R') as K'; rewrite <- E in K'.
  all: rewrite kind_text with (T := T') in K' by (constructor; assumption); cbn [kind] in K'.
  all: inversion R' as [|? n'|? x'|? w'|? x' Rx'|? x' Rx']; subst; try discriminate K'; clear K'.
  - cbn [source_text] in E. apply dec_injective in E. subst; reflexivity.
  - cbn [source_text] in E. apply app_inv_head, b64_injective in E. subst; reflexivity.
  - cbn [source_text] in E. congruence.
  - cbn [source_text] in E. rewrite (IH x' Rx' E). reflexivity.
  - rewrite !hash_text in E. apply app_inv_head, app_inv_tail in E. rewrite (IH x' Rx' E). reflexivity.
Qed.

Lemma made_readable (S : expr -> Prop) v :
  (forall s, S (MethodExpr s) -> exists w, s = c_quote :: w) -> made S v -> readable v.
Proof.
  intros H M. induction M as [| | |s Hs|i x Hi Hx IH|x Hi Hx IH]; try (constructor; assumption).
  destruct (H s Hs) as [w ->]. constructor.
Qed.

(* ------------------------------------------------------------------------------------------ *)
(* the signatures of a document are quoted *)
Fixpoint never (p : prog) : Prop :=
  match p with
  | Emit e => match e with MethodExpr _ => False | _ => True end
  | MinVersion _ p | ModeMinVersion _ _ p => never p
  | Read _ _ f => forall x, never (f x)
  | ReadMaybe _ f => forall x, never (f x)
  | ReadInts _ f => forall x, never (f x)
  | ReadBytess _ f | ReadLabels _ f => forall x, never (f x)
  end.

Lemma never_assembles en v p : never p -> forall args s r, assemble en v p args <> Some (MethodExpr s, r).
Proof.
  induction p as [e|n p IH|m n p IH|k n f IH|n f IH|n f IH|n f IH|n f IH]; cbn [never assemble]; intros N args s r E.
  - injection E as -> _. exact N.
  - eapply IH; eauto.
  - eapply IH; eauto.
  - destruct args as [|a args]; [discriminate|].
    destruct (operand en v k a args) as [[x y]|]; [|discriminate]. cbn [obind fst snd] in E. eapply IH; eauto.
  - destruct args as [|a args]; [eapply IH; eauto|].
    destruct (read_uint8 a) as [x|]; [|discriminate]. cbn [obind] in E. eapply IH; eauto.
  - destruct (all_ints args) as [x|]; [|discriminate]. cbn [obind] in E. eapply IH; eauto.
  - destruct (all_bytes en _ args) as [x|]; [|discriminate]. cbn [obind] in E. eapply IH; eauto.
  - eapply IH; eauto.
Qed.

Lemma table_never : Forall (fun np => snd np = opMethod \/ never (snd np)) ops_list.
Proof.
  unfold ops_list.
  repeat (apply Forall_cons;
    [ first [left; reflexivity
            | right; cbn; repeat first [exact I | intro | progress cbn
                                       | match goal with |- never (match ?x with _ => _ end) => destruct x end]] |]).
  apply Forall_nil.
Qed.

Lemma assembles_quoted en v n p args s r :
  ops_get n = Some p -> assemble en v p args = Some (MethodExpr s, r) -> exists w, s = c_quote :: w.
Proof.
  intros G A. destruct (get_in n p G) as [name [H _]].
  pose proof (proj1 (Forall_forall _ _) table_never _ H) as [E|E]; cbn [snd] in E.
  - subst p. unfold opMethod in A. cbn [assemble] in A. destruct args as [|a args]; [discriminate|].
    cbn [operand operand_value] in A. destruct (quoted a) eqn:Q; [|discriminate]. cbn in A. injection A as <- _.
    unfold quoted in Q. destruct a as [|c a]; [discriminate|]. apply andb_true_iff in Q. destruct Q as [Q _].
    apply Ascii.eqb_eq in Q. subst c. eauto.
  - destruct (never_assembles en v p E args s r A).
Qed.

Lemma entries_quoted en v l s : In (MethodExpr s) (entries en v l) -> exists w, s = c_quote :: w.
Proof.
  unfold entries. destruct (ProcessSpec.kind_of l) as [| | | |p args|] eqn:K.
  - intros [H|[]]; discriminate.
  - intros [H|[]]; discriminate.
  - destruct name; intros [H|[]]; discriminate.
  - destruct (pragma_version args); intros [H|[]]; discriminate.
  - assert (G : exists n, ops_get n = Some p).
    { unfold ProcessSpec.kind_of in K. destruct l as [|t l]; [discriminate|]. destruct (tok_t t); try discriminate;
      (destruct (label_name (tok_v t)); [discriminate|]; destruct (seqb _ _); [discriminate|];
       destruct (ops_get (tok_v t)) eqn:G; [|discriminate]; injection K as <- _; eauto). }
    destruct G as [n G]. destruct (assemble en v p args) as [[e r]|] eqn:A.
    + intros H. assert (e = MethodExpr s).
      { destruct r; cbn in H; destruct H as [H|H]; try (destruct H as [H|H]); try contradiction; try discriminate; exact H. }
      subst e. eapply assembles_quoted; eauto.
    + intros [H|[]]; discriminate.
  - intros [H|[]]; discriminate.
Qed.

Lemma document_quoted en src r s :
  process en src = Ret r -> In (MethodExpr s) (r_listing r) -> exists w, s = c_quote :: w.
Proof.
  intros E H. destruct (process_result en src r E) as [ts [errs [raw [lds [_ [_ [_ R]]]]]]].
  rewrite (ro_listing _ _ _ _ _ _ _ R) in H. revert H. generalize (r_lines r), 1%N.
  intros ls. induction ls as [|l ls IH]; intros v H; [contradiction|]. cbn [all_entries] in H.
  apply in_app_or in H. destruct H as [H|H]; [eapply entries_quoted; eauto|eauto].
Qed.
