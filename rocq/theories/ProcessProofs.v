From Verif Require Import Base LexSpec Lexer Expr Linter Fields Strconv Literals LiteralsProofs Codec OpTable Process ProcessSpec.
From Coq Require Import ZifyBool ZifyNat ZifyN.

(* ------------------------------------------------------------------------------------------ *)
(* the argument cursor *)
Definition in_args (c : pctx) : Prop := 1 <= p_i c <= S (length (p_ts c)) /\ 1 <= length (p_ts c).
Definition at_tok (c : pctx) : Prop := 1 <= p_i c <= length (p_ts c).
Definition left (c : pctx) : list str := texts (skipn (p_i c) (p_ts c)).
Definition now (c : pctx) : token :=
  match nth_error (p_ts c) (p_i c - 1) with Some t => t | None => zero_tok end.

(* tokens after the first are never empty *)
Definition full (c : pctx) : Prop := Forall (fun t => tok_v t <> []) (tl (p_ts c)).

(* what reading operands may change *)
Record reads (rs : list token) (c c' : pctx) : Prop := {
  rd_mode : p_mode c' = p_mode c; rd_version : p_version c' = p_version c; rd_ops : p_ops c' = p_ops c;
  rd_ts : p_ts c' = p_ts c; rd_i : p_i c <= p_i c' <= S (length (p_ts c));
  rd_diag : p_diag c' = p_diag c; rd_refs : p_refs c' = p_refs c ++ rs;
  rd_nums : exists x, p_nums c' = p_nums c ++ x /\ incl x (p_ts c);
  rd_strs : exists x, p_strs c' = p_strs c ++ x /\ incl x (p_ts c);
  rd_keys : exists x, p_keys c' = p_keys c ++ x /\ incl x (p_ts c);
  rd_mcrs : p_mcrs c' = p_mcrs c; rd_vtok : p_vtok c' = p_vtok c;
  rd_protos : p_protos c' = p_protos c; rd_refc : p_refc c' = p_refc c; rd_label : p_label c' = p_label c;
  rd_comments : p_comments c' = p_comments c; rd_optoks : p_optoks c' = p_optoks c;
  rd_syms : p_syms c' = p_syms c; rd_vers : p_vers c' = p_vers c; rd_lts : p_lts c' = p_lts c
}.

Lemma same_ext {A} (l : list A) (T : list A) : exists x, l = l ++ x /\ incl x T.
Proof. exists []. rewrite app_nil_r. split; [reflexivity|intros y []]. Qed.

Lemma reads_refl c : p_i c <= S (length (p_ts c)) -> reads [] c c.
Proof. intros H. constructor; try reflexivity; try apply same_ext; [lia|rewrite app_nil_r; reflexivity]. Qed.

Lemma ext_trans {A} (a b c T : list A) :
  (exists x, b = a ++ x /\ incl x T) -> (exists x, c = b ++ x /\ incl x T) -> exists x, c = a ++ x /\ incl x T.
Proof.
  intros [x [-> Hx]] [y [-> Hy]]. exists (x ++ y). split; [rewrite app_assoc; reflexivity|apply incl_app; assumption].
Qed.

Lemma reads_trans r1 r2 a b c : reads r1 a b -> reads r2 b c -> reads (r1 ++ r2) a c.
Proof.
  intros [] []. constructor; try congruence.
  - rewrite rd_ts0 in *. lia.
  - rewrite rd_refs1, rd_refs0, app_assoc. reflexivity.
  - rewrite rd_ts0 in *. eapply ext_trans; eassumption.
  - rewrite rd_ts0 in *. eapply ext_trans; eassumption.
  - rewrite rd_ts0 in *. eapply ext_trans; eassumption.
Qed.

Lemma reads_trans0 a b c : reads [] a b -> reads [] b c -> reads [] a c.
Proof. exact (reads_trans [] [] a b c). Qed.

Lemma reads_full rs a b : reads rs a b -> full a -> full b.
Proof. intros R. unfold full. rewrite (rd_ts _ _ _ R). auto. Qed.

Lemma now_in c : at_tok c -> nth_error (p_ts c) (p_i c - 1) = Some (now c) /\ In (now c) (p_ts c).
Proof.
  unfold at_tok, now. intros H. destruct (nth_error (p_ts c) (p_i c - 1)) as [t|] eqn:E.
  - split; [reflexivity|eapply nth_error_In; eauto].
  - apply nth_error_None in E. lia.
Qed.

Lemma curr_spec c : at_tok c -> curr c = OK (now c) c.
Proof.
  intros H. unfold curr, arg_curr. destruct (now_in c H) as [E _]. unfold at_tok in H.
  replace ((0 <? p_i c) && (p_i c <=? length (p_ts c))) with true by lia.
  unfold index. rewrite E. reflexivity.
Qed.

Lemma text_spec c : at_tok c -> text c = OK (tok_v (now c)) c.
Proof. intros H. unfold text, pbind. rewrite curr_spec by exact H. reflexivity. Qed.

Lemma left_cons c : in_args c -> p_i c < length (p_ts c) ->
  exists t, nth_error (p_ts c) (p_i c) = Some t /\ left c = tok_v t :: texts (skipn (S (p_i c)) (p_ts c)).
Proof.
  intros H L. destruct (nth_error (p_ts c) (p_i c)) as [t|] eqn:E; [|apply nth_error_None in E; lia].
  exists t. split; [reflexivity|]. unfold left. clear H L. revert E. generalize (p_i c) (p_ts c).
  intros i. induction i as [|i IH]; intros [|x l] E; try discriminate.
  - injection E as ->. reflexivity.
  - cbn [skipn]. apply IH. exact E.
Qed.

Lemma left_nil c : length (p_ts c) <= p_i c -> left c = [].
Proof. intros H. unfold left. rewrite skipn_all2 by exact H. reflexivity. Qed.

Lemma left_length c : length (left c) = length (p_ts c) - p_i c.
Proof. unfold left, texts. rewrite map_length, skipn_length. reflexivity. Qed.

Lemma reads_set_i c n : p_i c <= n <= S (length (p_ts c)) -> reads [] c (set_i n c).
Proof. intros H. constructor; try reflexivity; try apply same_ext; [cbn; lia|cbn; rewrite app_nil_r; reflexivity]. Qed.

Lemma scan_spec c : in_args c ->
  match left c with
  | [] => exists c1, arg_scan c = OK false c1 /\ reads [] c c1 /\ in_args c1 /\ left c1 = []
                     /\ 2 <= p_i c1 /\ p_i c1 = S (length (p_ts c))
  | a :: r => exists c1, arg_scan c = OK true c1 /\ reads [] c c1 /\ at_tok c1 /\ tok_v (now c1) = a /\
                left c1 = r /\ p_i c1 = S (p_i c)
  end.
Proof.
  intros H. destruct (Nat.lt_ge_cases (p_i c) (length (p_ts c))) as [L|L].
  - destruct (left_cons c H L) as [t [E ->]]. exists (set_i (S (p_i c)) c). unfold in_args in H. unfold arg_scan.
    replace (p_i c <=? length (p_ts c)) with true by lia.
    replace (S (p_i c) <=? length (p_ts c)) with true by lia.
    split; [reflexivity|]. split; [apply reads_set_i; lia|].
    split; [unfold at_tok; cbn; lia|]. split; [|split; reflexivity].
    unfold now. cbn [p_i p_ts set_i]. replace (S (p_i c) - 1) with (p_i c) by lia. rewrite E. reflexivity.
  - rewrite left_nil by exact L. unfold in_args in H. unfold arg_scan.
    destruct (Nat.leb_spec (p_i c) (length (p_ts c))).
    + assert (p_i c = length (p_ts c)) by lia.
      exists (set_i (S (p_i c)) c). replace (S (p_i c) <=? length (p_ts c)) with false by lia.
      split; [reflexivity|]. split; [apply reads_set_i; lia|]. split; [unfold in_args; cbn; lia|].
      split; [apply left_nil; cbn; lia|]. cbn. lia.
    + exists c. split; [reflexivity|]. split; [apply reads_refl; lia|]. split; [exact H|].
      split; [apply left_nil; lia|]. lia.
Qed.

Lemma at_in c : at_tok c -> in_args c.
Proof. unfold at_tok, in_args. lia. Qed.

Lemma now_full c : at_tok c -> full c -> 2 <= p_i c -> tok_v (now c) <> [].
Proof.
  intros H F L. destruct (now_in c H) as [E _]. unfold full in F.
  destruct (p_ts c) as [|t0 ts]; [destruct (p_i c - 1); discriminate|].
  replace (p_i c - 1) with (S (p_i c - 2)) in E by lia. cbn in E, F.
  rewrite Forall_forall in F. apply F. eapply nth_error_In; eauto.
Qed.

(* ------------------------------------------------------------------------------------------ *)
(* readers of operands *)

Definition at_diag (t : token) (r : reason) : diagnostic := Diag (tok_l t) (tok_b t) (tok_e t) (KParse r).

Definition fails {A} (f : fault) (c : pctx) (o : out A) : Prop :=
  exists c1 t, o = Recover (add_diag (at_diag t (snd f)) c1) /\ reads [] c c1 /\
               nth_error (p_ts c) (length (p_ts c) - S (fst f)) = Some t.

Lemma fails_later {A} f c c1 (o : out A) : reads [] c c1 -> fails f c1 o -> fails f c o.
Proof.
  intros R [c2 [t [E [R2 I]]]]. exists c2, t. split; [exact E|].
  split; [eapply reads_trans0; eassumption|]. rewrite <- (rd_ts _ _ _ R). exact I.
Qed.

Lemma fails_bind {A B} x c (m : P A) (f : A -> P B) : fails x c (m c) -> fails x c (pbind m f c).
Proof.
  intros [c1 [t [E H]]]. exists c1, t. unfold pbind. rewrite E. auto.
Qed.

Lemma fail_curr_fails {A} c r : at_tok c -> fails (length (left c), r) c (@fail_curr A r c).
Proof.
  intros H. exists c, (now c). unfold fail_curr, pbind. rewrite curr_spec by exact H.
  split; [reflexivity|]. split; [apply reads_refl; unfold at_tok in H; lia|].
  cbn [fst]. rewrite left_length. unfold at_tok in H.
  replace (length (p_ts c) - S (length (p_ts c) - p_i c)) with (p_i c - 1) by lia. apply now_in; exact H.
Qed.

Definition parses {A} (m : P A) (f : str -> list str -> option (A * list str)) (x : str -> list str -> fault) : Prop :=
  forall c, at_tok c -> full c -> 2 <= p_i c ->
    match f (tok_v (now c)) (left c) with
    | Some (a, r) => exists c1, m c = OK a c1 /\ reads [] c c1 /\ in_args c1 /\ left c1 = r
    | None => fails (x (tok_v (now c)) (left c)) c (m c)
    end.

Lemma reads_add_num t c : at_tok c -> In t (p_ts c) -> reads [] c (add_num t c).
Proof.
  unfold at_tok. intros H I. constructor; try reflexivity; try apply same_ext; cbn; try lia.
  - rewrite app_nil_r. reflexivity.
  - exists [t]. split; [reflexivity|intros y [<-|[]]; exact I].
Qed.
Lemma reads_add_str t c : at_tok c -> In t (p_ts c) -> reads [] c (add_str t c).
Proof.
  unfold at_tok. intros H I. constructor; try reflexivity; try apply same_ext; cbn; try lia.
  - rewrite app_nil_r. reflexivity.
  - exists [t]. split; [reflexivity|intros y [<-|[]]; exact I].
Qed.
Lemma reads_add_key t c : at_tok c -> In t (p_ts c) -> reads [] c (add_key t c).
Proof.
  unfold at_tok. intros H I. constructor; try reflexivity; try apply same_ext; cbn; try lia.
  - rewrite app_nil_r. reflexivity.
  - exists [t]. split; [reflexivity|intros y [<-|[]]; exact I].
Qed.
Lemma reads_add_ref t c : at_tok c -> reads [t] c (add_ref t c).
Proof. unfold at_tok. intros H. constructor; try reflexivity; try apply same_ext; cbn; lia. Qed.

(* a step that only files the current token *)
Lemma num_step {A} c (k : P A) : at_tok c ->
  exists c1, (num_curr ;~ k) c = k c1 /\ reads [] c c1 /\ at_tok c1 /\ now c1 = now c /\ left c1 = left c.
Proof.
  intros H. exists (add_num (now c) c). unfold num_curr, pbind. rewrite curr_spec by exact H. cbn [pmod].
  split; [reflexivity|]. split; [apply reads_add_num; [exact H|apply now_in; exact H]|]. split; [exact H|split; reflexivity].
Qed.
Lemma str_step {A} c (k : P A) : at_tok c ->
  exists c1, (str_curr ;~ k) c = k c1 /\ reads [] c c1 /\ at_tok c1 /\ now c1 = now c /\ left c1 = left c.
Proof.
  intros H. exists (add_str (now c) c). unfold str_curr, pbind. rewrite curr_spec by exact H. cbn [pmod].
  split; [reflexivity|]. split; [apply reads_add_str; [exact H|apply now_in; exact H]|]. split; [exact H|split; reflexivity].
Qed.
Lemma key_step {A} c (k : P A) : at_tok c ->
  exists c1, (key_curr ;~ k) c = k c1 /\ reads [] c c1 /\ at_tok c1 /\ now c1 = now c /\ left c1 = left c.
Proof.
  intros H. exists (add_key (now c) c). unfold key_curr, pbind. rewrite curr_spec by exact H. cbn [pmod].
  split; [reflexivity|]. split; [apply reads_add_key; [exact H|apply now_in; exact H]|]. split; [exact H|split; reflexivity].
Qed.

Lemma bind_text {A} c (f : str -> P A) : at_tok c -> pbind text f c = f (tok_v (now c)) c.
Proof. intros H. unfold pbind. rewrite text_spec by exact H. reflexivity. Qed.

Lemma bind_ret {A B} (a : A) (f : A -> P B) c : pbind (of_res (Ret a)) f c = f a c.
Proof. reflexivity. Qed.

Lemma bind_ok {A B} (m : P A) (f : A -> P B) a c c' : m c = OK a c' -> pbind m f c = f a c'.
Proof. unfold pbind. intros ->. reflexivity. Qed.

Lemma bind_or_fail {A B} (o : option A) (f : A -> P B) c :
  at_tok c -> match o with Some a => pbind (or_fail o) f c = f a c | None => fails (length (left c), RValue) c (pbind (or_fail o) f c) end.
Proof.
  intros H. destruct o as [a|]; [reflexivity|]. apply fails_bind, fail_curr_fails. exact H.
Qed.

Lemma parse_num_parses {A} (read : str -> option A) :
  parses (parse_num read) (fun a r => obind (read a) (fun x => Some (x, r))) (fun _ r => (length r, RValue)).
Proof.
  intros c H F L. unfold parse_num. rewrite bind_text by exact H.
  pose proof (bind_or_fail (read (tok_v (now c))) (fun v => num_curr ;~ pret v) c H) as E.
  destruct (read (tok_v (now c))) as [x|]; cbn [obind]; [|exact E].
  rewrite E. destruct (num_step c (pret x) H) as [c1 [E1 [R [T [_ L1]]]]]. rewrite E1.
  exists c1. split; [reflexivity|]. split; [exact R|]. split; [apply at_in; exact T|exact L1].
Qed.

Lemma classified_parses (read : str -> option (N * bool)) c : at_tok c ->
  match fst_of (read (tok_v (now c))) with
  | Some x => exists c1, classified (read (tok_v (now c))) c = OK x c1 /\ reads [] c c1 /\ in_args c1 /\ left c1 = left c
  | None => fails (length (left c), RValue) c (classified (read (tok_v (now c))) c)
  end.
Proof.
  intros H. unfold classified.
  pose proof (bind_or_fail (read (tok_v (now c))) (fun x => (if snd x then str_curr else num_curr) ;~ pret (fst x)) c H) as E.
  destruct (read (tok_v (now c))) as [[x b]|]; cbn [fst_of obind]; [|exact E].
  rewrite E. cbn [fst snd]. destruct b.
  - destruct (str_step c (pret x) H) as [c1 [E1 [R [T [_ L1]]]]]. rewrite E1.
    exists c1. split; [reflexivity|]. split; [exact R|]. split; [apply at_in; exact T|exact L1].
  - destruct (num_step c (pret x) H) as [c1 [E1 [R [T [_ L1]]]]]. rewrite E1.
    exists c1. split; [reflexivity|]. split; [exact R|]. split; [apply at_in; exact T|exact L1].
Qed.

Lemma must_read_spec n c : in_args c ->
  match left c with
  | [] => fails (0, RMissing n) c (must_read_arg n c)
  | a :: r => exists c1, must_read_arg n c = OK tt c1 /\ reads [] c c1 /\ at_tok c1 /\ tok_v (now c1) = a /\
                left c1 = r /\ p_i c1 = S (p_i c)
  end.
Proof.
  intros H. pose proof (scan_spec c H) as S1. unfold must_read_arg, pbind. destruct (left c) as [|a r].
  - destruct S1 as [c1 [-> [R [H1 [L1 [I1 I2]]]]]]. unfold fail_prev, pbind, prev, arg_prev.
    assert (In1 : p_i c1 - 2 < length (p_ts c1)).
    { rewrite I2, (rd_ts _ _ _ R). unfold in_args in H. lia. }
    replace (1 <? p_i c1) with true by lia. unfold index.
    destruct (nth_error (p_ts c1) (p_i c1 - 2)) as [t|] eqn:E; [|apply nth_error_None in E; lia].
    exists c1, t. split; [reflexivity|]. split; [exact R|]. cbn [fst]. rewrite <- (rd_ts _ _ _ R), <- E. f_equal.
    rewrite I2, (rd_ts _ _ _ R). lia.
  - destruct S1 as [c1 [-> H1]]. exists c1. split; [reflexivity|exact H1].
Qed.

(* ------------------------------------------------------------------------------------------ *)
(* byte constants *)
Lemma index_of_lt x s n : index_of x s = Some n -> n < length s.
Proof.
  revert n. induction s as [|c s IH]; intros n E; [discriminate|]. cbn in *.
  destruct (Ascii.eqb c x); [injection E as <-; lia|].
  destruct (index_of x s); [|discriminate]. injection E as <-. specialize (IH n0 eq_refl). lia.
Qed.

Lemma index_of_app_notin x p s : ~ In x p -> index_of x (p ++ s) = option_map (fun n => length p + n) (index_of x s).
Proof.
  intros H. induction p as [|c p IH]; cbn.
  - destruct (index_of x s); reflexivity.
  - destruct (Ascii.eqb_spec c x) as [->|_]; [destruct H; left; reflexivity|].
    rewrite IH by (intros I; apply H; right; exact I). destruct (index_of x s); reflexivity.
Qed.

Lemma has_prefix_split p s : has_prefix p s = true -> exists r, s = bs p ++ r.
Proof.
  unfold has_prefix. intros H. apply seqb_eq in H. exists (skipn (length (bs p)) s).
  rewrite <- H at 1. symmetry. apply firstn_skipn.
Qed.

Lemma in_parens_parses decode c p q :
  at_tok c -> bs p = q ++ ["("%char] -> ~ In "("%char q -> ~ In ")"%char (bs p) ->
  has_prefix p (tok_v (now c)) = true ->
  match obind (between_parens (tok_v (now c))) (fun x => obind (decode x) (fun v => Some (v, left c))) with
  | Some (a, r) => exists c1, in_parens (tok_v (now c)) decode c = OK a c1 /\ reads [] c c1 /\ in_args c1 /\ left c1 = r
  | None => fails (length (left c), RValue) c (in_parens (tok_v (now c)) decode c)
  end.
Proof.
  intros H Ep Nq Np Hp. destruct (has_prefix_split _ _ Hp) as [r Er].
  set (a := tok_v (now c)) in *.
  assert (Eo : index_of "(" a = Some (length q)).
  { rewrite Er, Ep, <- app_assoc, index_of_app_notin by exact Nq. cbn. f_equal. lia. }
  assert (Ec : index_of ")" a = option_map (fun n => length (bs p) + n) (index_of ")" r)).
  { rewrite Er. apply index_of_app_notin. exact Np. }
  assert (Lp : length (bs p) = S (length q)) by (rewrite Ep, app_length; cbn; lia).
  unfold between_parens, in_parens. rewrite Eo, Ec.
  destruct (index_of ")" r) as [n|] eqn:En; cbn [option_map obind].
  - pose proof (index_of_lt _ _ _ En) as Hn.
    assert (La : length a = length (bs p) + length r) by (rewrite Er, app_length; reflexivity).
    replace (length q <? length (bs p) + n) with true by lia. cbn [obind].
    unfold slice. replace ((length q + 1 <=? length (bs p) + n) && (length (bs p) + n <=? length a)) with true by lia.
    rewrite !bind_ret.
    set (x := firstn _ _). 
    pose proof (bind_or_fail (decode x) (fun v => str_curr ;~ pret v) c H) as E.
    destruct (decode x) as [v|]; cbn [obind]; [|exact E]. rewrite E.
    destruct (str_step c (pret v) H) as [c1 [E1 [R [T [_ L1]]]]]. rewrite E1.
    exists c1. split; [reflexivity|]. split; [exact R|]. split; [apply at_in; exact T|exact L1].
  - apply fail_curr_fails; exact H.
Qed.

Lemma or_true a b : (a || b)%bool = true -> a = true \/ b = true.
Proof. destruct a; auto. Qed.

(* a keyword followed by the encoded text *)
Lemma keyword_parses (decode : str -> option str) c :
  at_tok c ->
  match (match left c with l :: r' => obind (decode l) (fun v => Some (v, r')) | [] => None end) with
  | Some (a, r) =>
      exists c1, (key_curr ;~ must_read_arg "literal" ;~ l <~ text ; v <~ or_fail (decode l) ; str_curr ;~ pret v) c
                 = OK a c1 /\ reads [] c c1 /\ in_args c1 /\ left c1 = r
  | None => fails (match left c with [] => (0, RMissing "literal") | _ :: r' => (length r', RValue) end) c ((key_curr ;~ must_read_arg "literal" ;~ l <~ text ; v <~ or_fail (decode l) ; str_curr ;~ pret v) c)
  end.
Proof.
  intros H.
  destruct (key_step c (must_read_arg "literal" ;~ l <~ text ; v <~ or_fail (decode l) ; str_curr ;~ pret v) H)
    as [c1 [E1 [R1 [T1 [_ L1]]]]].
  rewrite E1. pose proof (must_read_spec "literal" c1 (at_in _ T1)) as M. rewrite L1 in M.
  destruct (left c) as [|l r'].
  - eapply fails_later; [exact R1|]. apply fails_bind. exact M.
  - destruct M as [c2 [E2 [R2 [T2 [N2 [L2 _]]]]]].
    assert (E3 : (must_read_arg "literal" ;~ l <~ text ; v <~ or_fail (decode l) ; str_curr ;~ pret v) c1 =
                 (v <~ or_fail (decode l) ; str_curr ;~ pret v) c2).
    { unfold pbind at 1. rewrite E2. rewrite bind_text by exact T2. rewrite N2. reflexivity. }
    rewrite E3. pose proof (bind_or_fail (decode l) (fun v => str_curr ;~ pret v) c2 T2) as E.
    pose proof (reads_trans0 _ _ _ R1 R2) as R12.
    destruct (decode l) as [v|]; cbn [obind]; [|rewrite L2 in E; eapply fails_later; [exact R12|exact E]].
    rewrite E. destruct (str_step c2 (pret v) T2) as [c3 [E4 [R3 [T3 [_ L3]]]]]. rewrite E4.
    exists c3. split; [reflexivity|]. split; [eapply reads_trans0; eassumption|].
    split; [apply at_in; exact T3|congruence].
Qed.

Lemma prefix_encoding p a : In p ["base32("; "b32("; "base64("; "b64("; "0x"] -> has_prefix p a = true -> encoding a = false.
Proof.
  intros Ip Hp. destruct (has_prefix_split _ _ Hp) as [r ->].
  destruct Ip as [<-|[<-|[<-|[<-|[<-|[]]]]]]; reflexivity.
Qed.

Lemma byte_fault_plain a r : encoding a = false -> byte_fault a r = (length r, RValue).
Proof. unfold byte_fault. intros ->. reflexivity. Qed.

Lemma parse_bytes_parses en : parses (parse_bytes en) (byte_operand en) byte_fault.
Proof.
  intros c H F L. unfold parse_bytes. rewrite bind_text by exact H. unfold byte_operand.
  destruct (has_prefix "base32(" (tok_v (now c)) || has_prefix "b32(" (tok_v (now c))) eqn:P1.
  { apply or_true in P1.
    rewrite (byte_fault_plain (tok_v (now c))) by (destruct P1 as [P1|P1]; refine (prefix_encoding _ _ _ P1); cbn; tauto).
    destruct P1 as [P1|P1].
    - apply (in_parens_parses _ c "base32(" (bs "base32") H eq_refl); [cbn; intuition discriminate|cbn; intuition discriminate|exact P1].
    - apply (in_parens_parses _ c "b32(" (bs "b32") H eq_refl); [cbn; intuition discriminate|cbn; intuition discriminate|exact P1]. }
  destruct (has_prefix "base64(" (tok_v (now c)) || has_prefix "b64(" (tok_v (now c))) eqn:P2.
  { apply or_true in P2.
    rewrite (byte_fault_plain (tok_v (now c))) by (destruct P2 as [P2|P2]; refine (prefix_encoding _ _ _ P2); cbn; tauto).
    destruct P2 as [P2|P2].
    - apply (in_parens_parses _ c "base64(" (bs "base64") H eq_refl); [cbn; intuition discriminate|cbn; intuition discriminate|exact P2].
    - apply (in_parens_parses _ c "b64(" (bs "b64") H eq_refl); [cbn; intuition discriminate|cbn; intuition discriminate|exact P2]. }
  destruct (has_prefix "0x" (tok_v (now c))) eqn:P3.
  { rewrite (byte_fault_plain (tok_v (now c))) by (refine (prefix_encoding _ _ _ P3); cbn; tauto).
    pose proof (bind_or_fail (hex_decode (skipn 2 (tok_v (now c)))) (fun v => str_curr ;~ pret v) c H) as E.
    destruct (hex_decode (skipn 2 (tok_v (now c)))) as [v|]; cbn [obind]; [|exact E]. rewrite E.
    destruct (str_step c (pret v) H) as [c1 [E1 [R [T [_ L1]]]]]. rewrite E1.
    exists c1. split; [reflexivity|]. split; [exact R|]. split; [apply at_in; exact T|exact L1]. }
  destruct (seqb (tok_v (now c)) (bs "base32") || seqb (tok_v (now c)) (bs "b32")) eqn:P4.
  { unfold byte_fault, encoding. rewrite P4. apply (keyword_parses (b32_decode en) c H). }
  destruct (seqb (tok_v (now c)) (bs "base64") || seqb (tok_v (now c)) (bs "b64")) eqn:P5.
  { unfold byte_fault, encoding. rewrite P4, P5. apply (keyword_parses b64_decode c H). }
  rewrite (byte_fault_plain (tok_v (now c))) by (unfold encoding; rewrite P4, P5; reflexivity).
  pose proof (now_full c H F L) as NE. set (a := tok_v (now c)) in *.
  assert (Len : 1 <= length a) by (destruct a; [congruence|cbn; lia]).
  destruct (nth_error a 0) as [x|] eqn:E0; [|apply nth_error_None in E0; lia].
  destruct (nth_error a (length a - 1)) as [y|] eqn:E1; [|apply nth_error_None in E1; lia].
  destruct (Nat.ltb_spec 1 (length a)) as [G|G]; cbn [andb].
  - destruct (Ascii.eqb x c_quote && Ascii.eqb y c_quote) eqn:Q.
    + pose proof (literal_no_panic a) as NP. 
      destruct (parse_string_literal a) as [o| |] eqn:Ep; [|destruct (NP NE) as [o' Eo]; discriminate Eo|destruct (NP NE) as [o' Eo]; discriminate Eo].
      rewrite !bind_ret.
      pose proof (bind_or_fail o (fun v => str_curr ;~ pret v) c H) as E.
      destruct o as [v|]; [|exact E]. rewrite E.
      destruct (str_step c (pret v) H) as [c1 [E2 [R [T [_ L1]]]]]. rewrite E2.
      exists c1. split; [reflexivity|]. split; [exact R|]. split; [apply at_in; exact T|exact L1].
    + assert (Ep : parse_string_literal a = Ret None).
      { unfold parse_string_literal, index. rewrite E0, E1. cbn [bindr].
        destruct (Ascii.eqb x c_quote), (Ascii.eqb y c_quote); try discriminate; reflexivity. }
      rewrite Ep. apply fail_curr_fails; exact H.
  - destruct (parse_string_literal a) as [[v|]| |]; apply fail_curr_fails; exact H.
Qed.

(* ------------------------------------------------------------------------------------------ *)
(* the other operands *)
Lemma str_ret {A} (a : A) c : at_tok c ->
  exists c1, (str_curr ;~ pret a) c = OK a c1 /\ reads [] c c1 /\ in_args c1 /\ left c1 = left c.
Proof.
  intros H. destruct (str_step c (pret a) H) as [c1 [E1 [R [T [_ L1]]]]]. rewrite E1.
  exists c1. split; [reflexivity|]. split; [exact R|]. split; [apply at_in; exact T|exact L1].
Qed.

Lemma nth_last {A} (a : list A) : forall x d, nth_error (x :: a) (length (x :: a) - 1) = Some (last (x :: a) d).
Proof.
  induction a as [|y a IH]; intros x d; [reflexivity|].
  replace (length (x :: y :: a) - 1) with (S (length (y :: a) - 1)) by (cbn; lia).
  cbn [nth_error]. rewrite IH with (d := d). reflexivity.
Qed.

Lemma quoted_spec a : a <> [] ->
  exists x y, index a 0 = Ret x /\ index a (length a - 1) = Ret y /\ quoted a = (Ascii.eqb x c_quote && Ascii.eqb y c_quote)%bool.
Proof.
  intros H. destruct a as [|x a]; [congruence|]. exists x, (last (x :: a) x).
  split; [reflexivity|]. split; [|reflexivity].
  unfold index. rewrite nth_last with (d := x). reflexivity.
Qed.

Lemma imm_parses en k c : k <> ILabel -> at_tok c -> full c -> 2 <= p_i c ->
  match operand en (p_version c) k (tok_v (now c)) (left c) with
  | Some (a, r) => exists c1, parse_imm en k c = OK a c1 /\ reads [] c c1 /\ in_args c1 /\ left c1 = r
  | None => fails (operand_fault k (tok_v (now c)) (left c)) c (parse_imm en k c)
  end.
Proof.
  intros K H F L.
  assert (C : forall (read : str -> option (N * bool)),
    match obind (fst_of (read (tok_v (now c)))) (fun x => Some (x, left c)) with
    | Some (a, r) => exists c1, classified (read (tok_v (now c))) c = OK a c1 /\ reads [] c c1 /\ in_args c1 /\ left c1 = r
    | None => fails (length (left c), RValue) c (classified (read (tok_v (now c))) c)
    end).
  { intros read. pose proof (classified_parses read c H) as Q.
    destruct (fst_of (read (tok_v (now c)))); exact Q. }
  assert (C' : forall (read : N -> str -> option (N * bool)),
    match obind (fst_of (read (p_version c) (tok_v (now c)))) (fun x => Some (x, left c)) with
    | Some (a, r) => exists c1, (s <~ text ; c0 <~ get ; classified (read (p_version c0) s)) c = OK a c1 /\ reads [] c c1 /\ in_args c1 /\ left c1 = r
    | None => fails (length (left c), RValue) c ((s <~ text ; c0 <~ get ; classified (read (p_version c0) s)) c)
    end).
  { intros read. rewrite bind_text by exact H. exact (C (read (p_version c))). }
  destruct k; try congruence; unfold operand, operand_value, parse_imm;
    match goal with
    | |- context[read_txn_field ?k] => exact (C' (fun v => read_txn_field k v))
    | |- context[read_field ?sp] => exact (C' (fun v => read_field sp v))
    | |- context[parse_num ?r] => exact (parse_num_parses r c H F L)
    | _ => idtac
    end.
  - exact (parse_bytes_parses en c H F L).
  - rewrite bind_text by exact H. destruct (addr_ok en (tok_v (now c))); cbn [obind].
    + apply str_ret. exact H.
    + apply fail_curr_fails; exact H.
  - unfold parse_signature. rewrite bind_text by exact H.
    destruct (quoted_spec _ (now_full c H F L)) as [x [y [E0 [E1 ->]]]]. rewrite E0, !bind_ret, E1.
    destruct (Ascii.eqb x c_quote); cbn [negb orb andb]; rewrite !bind_ret.
    + destruct (Ascii.eqb y c_quote); cbn [negb orb andb obind].
      * destruct (str_step c text H) as [c1 [E2 [R [T [N1 L1]]]]]. rewrite E2, text_spec, N1 by exact T.
        exists c1. split; [reflexivity|]. split; [exact R|]. split; [apply at_in; exact T|exact L1].
      * apply fail_curr_fails; exact H.
    + apply fail_curr_fails; exact H.
Qed.

(* ------------------------------------------------------------------------------------------ *)
(* arrays *)
Lemma byte_operand_shrinks en a r x r' : byte_operand en a r = Some (x, r') -> length r' <= length r.
Proof.
  unfold byte_operand.
  repeat match goal with |- context[if ?b then _ else _] => destruct b end;
    try (destruct (between_parens a) as [s|]; cbn [obind]; [|discriminate]);
    try (destruct (b32_decode en s); cbn [obind]; [|discriminate]; intros E; injection E as _ <-; lia);
    try (destruct (b64_decode s); cbn [obind]; [|discriminate]; intros E; injection E as _ <-; lia);
    try (destruct r as [|l r0]; [discriminate|]);
    try (destruct (b32_decode en l); cbn [obind]; [|discriminate]; intros E; injection E as _ <-; cbn; lia);
    try (destruct (b64_decode l); cbn [obind]; [|discriminate]; intros E; injection E as _ <-; cbn; lia);
    try (destruct (hex_decode (skipn 2 a)); cbn [obind]; [|discriminate]; intros E; injection E as _ <-; cbn; lia);
    destruct (parse_string_literal a) as [[v|]| |]; try discriminate; intros E; injection E as _ <-; cbn; lia.
Qed.

Lemma bytes_loop en n : forall m c, in_args c -> full c -> length (left c) < n -> length (left c) <= m ->
  match all_bytes en m (left c) with
  | Some xs => exists c1, read_loop n (parse_bytes en) c = OK xs c1 /\ reads [] c c1 /\ in_args c1 /\ left c1 = []
  | None => fails (bytes_fault en m (left c)) c (read_loop n (parse_bytes en) c)
  end.
Proof.
  induction n as [|n IH]; intros m c H F Ln Lm; [lia|]. cbn [read_loop].
  pose proof (scan_spec c H) as Q. destruct (left c) as [|a r] eqn:El.
  - destruct Q as [c1 [E [R [H1 [L1 _]]]]]. replace (all_bytes en m []) with (Some (@nil str)) by (destruct m; reflexivity).
    exists c1. unfold pbind. rewrite E. split; [reflexivity|]. auto.
  - destruct Q as [c1 [E [R [T [N1 [L1 I1]]]]]]. destruct m as [|m]; [cbn in Lm; lia|]. cbn [all_bytes bytes_fault].
    rewrite !(bind_ok _ _ _ _ _ E). pose proof (reads_full _ _ _ R F) as F1.
    assert (I2 : 2 <= p_i c1) by (unfold in_args in H; lia).
    pose proof (parse_bytes_parses en c1 T F1 I2) as B. rewrite N1, L1 in B.
    destruct (byte_operand en a r) as [[x r']|] eqn:Eb; cbn [obind fst snd].
    + destruct B as [c2 [E2 [R2 [H2 L2]]]].
      pose proof (byte_operand_shrinks _ _ _ _ _ Eb). cbn in Ln, Lm.
      pose proof (IH m c2 H2 (reads_full _ _ _ R2 F1)) as IH2. rewrite L2 in IH2.
      specialize (IH2 ltac:(lia) ltac:(lia)). pose proof (reads_trans0 _ _ _ R R2) as R12.
      rewrite !(bind_ok _ _ _ _ _ E2). destruct (all_bytes en m r') as [xs|]; cbn [obind].
      * destruct IH2 as [c3 [E3 [R3 [H3 L3]]]]. exists c3. unfold pbind. rewrite E3. split; [reflexivity|].
        split; [eapply reads_trans0; eassumption|]. auto.
      * eapply fails_later; [exact R12|]. apply fails_bind. exact IH2.
    + eapply fails_later; [exact R|]. apply fails_bind. exact B.
Qed.

Lemma int_item : parses (x <~ parse_num (fun s => parse_uint s 0 64) ; num_curr ;~ pret x)
                        (fun a r => obind (parse_uint a 0 64) (fun x => Some (x, r))) (fun _ r => (length r, RValue)).
Proof.
  intros c H F L. unfold parse_num.
  assert (Eq : (x <~ (s <~ text ; v <~ or_fail (parse_uint s 0 64) ; num_curr ;~ pret v) ; num_curr ;~ pret x) c =
               (v <~ or_fail (parse_uint (tok_v (now c)) 0 64) ; num_curr ;~ num_curr ;~ pret v) c).
  { unfold pbind at 1. rewrite bind_text by exact H. unfold pbind.
    destruct (or_fail _ _); try reflexivity. destruct (num_curr c0); reflexivity. }
  rewrite Eq. clear Eq.
  pose proof (bind_or_fail (parse_uint (tok_v (now c)) 0 64) (fun v => num_curr ;~ num_curr ;~ pret v) c H) as E.
  destruct (parse_uint (tok_v (now c)) 0 64) as [x|]; cbn [obind]; [|exact E]. rewrite E.
  destruct (num_step c (num_curr ;~ pret x) H) as [c1 [E1 [R [T [_ L1]]]]]. rewrite E1.
  destruct (num_step c1 (pret x) T) as [c2 [E2 [R2 [T2 [_ L2]]]]]. rewrite E2.
  exists c2. split; [reflexivity|]. split; [eapply reads_trans0; eassumption|]. split; [apply at_in; exact T2|congruence].
Qed.

Lemma ints_loop n : forall c, in_args c -> full c -> length (left c) < n ->
  match all_ints (left c) with
  | Some xs => exists c1, read_loop n (x <~ parse_num (fun s => parse_uint s 0 64) ; num_curr ;~ pret x) c = OK xs c1
                          /\ reads [] c c1 /\ in_args c1 /\ left c1 = []
  | None => fails (ints_fault (left c)) c (read_loop n (x <~ parse_num (fun s => parse_uint s 0 64) ; num_curr ;~ pret x) c)
  end.
Proof.
  pose proof int_item as It. set (item := x <~ parse_num (fun s => parse_uint s 0 64) ; num_curr ;~ pret x) in *. clearbody item.
  induction n as [|n IH]; intros c H F Ln; [lia|]. cbn [read_loop].
  pose proof (scan_spec c H) as Q. destruct (left c) as [|a r] eqn:El.
  - destruct Q as [c1 [E [R [H1 [L1 _]]]]]. cbn [all_ints].
    exists c1. unfold pbind. rewrite E. split; [reflexivity|]. auto.
  - destruct Q as [c1 [E [R [T [N1 [L1 I1]]]]]]. cbn [all_ints ints_fault].
    rewrite !(bind_ok _ _ _ _ _ E). pose proof (reads_full _ _ _ R F) as F1.
    assert (I2 : 2 <= p_i c1) by (unfold in_args in H; lia).
    pose proof (It c1 T F1 I2) as B. rewrite N1, L1 in B.
    destruct (parse_uint a 0 64) as [x|]; cbn [obind].
    + cbn [obind] in B. destruct B as [c2 [E2 [R2 [H2 L2]]]]. cbn in Ln.
      pose proof (IH c2 H2 (reads_full _ _ _ R2 F1)) as IH2. rewrite L2 in IH2.
      specialize (IH2 ltac:(lia)). pose proof (reads_trans0 _ _ _ R R2) as R12.
      rewrite !(bind_ok _ _ _ _ _ E2). destruct (all_ints r) as [xs|]; cbn [obind].
      * destruct IH2 as [c3 [E3 [R3 [H3 L3]]]]. exists c3. unfold pbind. rewrite E3. split; [reflexivity|].
        split; [eapply reads_trans0; eassumption|]. auto.
      * eapply fails_later; [exact R12|]. apply fails_bind. exact IH2.
    + eapply fails_later; [exact R|]. apply fails_bind. exact B.
Qed.

Definition rest (c : pctx) : list token := skipn (p_i c) (p_ts c).

Lemma rest_cons c : p_i c < length (p_ts c) -> 
  rest c = now (set_i (S (p_i c)) c) :: rest (set_i (S (p_i c)) c).
Proof.
  unfold rest, now. cbn [p_i p_ts set_i]. replace (S (p_i c) - 1) with (p_i c) by lia.
  generalize (p_i c) (p_ts c). intros i. induction i as [|i IH]; intros [|t l] L; cbn in L; try lia; [reflexivity|].
  cbn [skipn nth_error]. rewrite IH by lia. reflexivity.
Qed.

Lemma labels_loop n : forall c, in_args c -> length (left c) < n ->
  exists c1, read_loop n (s <~ text ; ref_curr ;~ pret s) c = OK (texts (rest c)) c1
             /\ reads (rest c) c c1 /\ in_args c1 /\ left c1 = [].
Proof.
  induction n as [|n IH]; intros c H Ln; [lia|]. cbn [read_loop].
  pose proof (scan_spec c H) as Q. pose proof (left_length c) as LL. destruct (left c) as [|a r] eqn:El.
  - destruct Q as [c1 [E [R [H1 [L1 _]]]]]. cbn in LL.
    assert (Rn : rest c = []) by (unfold rest; apply skipn_all2; unfold in_args in H; lia).
    rewrite Rn. exists c1. unfold pbind. rewrite E. split; [reflexivity|]. auto.
  - cbn in LL, Ln. pose proof (rest_cons c ltac:(lia)) as Rc.
    set (c1 := set_i (S (p_i c)) c) in *.
    assert (E : arg_scan c = OK true c1).
    { unfold arg_scan, c1. replace (p_i c <=? length (p_ts c)) with true by lia.
      replace (S (p_i c) <=? length (p_ts c)) with true by lia. reflexivity. }
    assert (T : at_tok c1) by (unfold at_tok, c1; cbn; lia).
    set (c2 := add_ref (now c1) c1).
    assert (H2 : in_args c2) by exact (at_in _ T).
    assert (Ei : left c2 = texts (rest c1)) by reflexivity.
    assert (L2 : length (left c2) < n).
    { pose proof (left_length c2) as Q2. change (p_ts c2) with (p_ts c) in Q2. change (p_i c2) with (S (p_i c)) in Q2. lia. }
    destruct (IH c2 H2 L2) as [c3 [E3 [R3 [H3 L3]]]].
    assert (E2 : (s <~ text ; ref_curr ;~ pret s) c1 = OK (tok_v (now c1)) c2).
    { rewrite bind_text by exact T. unfold ref_curr, pbind. rewrite curr_spec by exact T. reflexivity. }
    exists c3. rewrite (bind_ok _ _ _ _ _ E), (bind_ok _ _ _ _ _ E2), (bind_ok _ _ _ _ _ E3), Rc.
    split; [reflexivity|].
    split; [|auto].
    change (now c1 :: rest c1) with ([] ++ [now c1] ++ rest c2).
    eapply reads_trans; [|eapply reads_trans; [apply reads_add_ref; exact T|exact R3]].
    unfold c1. apply reads_set_i. unfold at_tok in T. cbn in T. lia.
Qed.

(* ------------------------------------------------------------------------------------------ *)
(* programs without labels, and programs that end in their labels *)
Fixpoint plain (p : prog) : Prop :=
  match p with
  | Emit e => uses e = [] /\ label_def e = None
  | MinVersion _ p | ModeMinVersion _ _ p => plain p
  | Read k _ f => k <> ILabel /\ forall x, plain (f x)
  | ReadMaybe _ f => forall x, plain (f x)
  | ReadInts _ f => forall x, plain (f x)
  | ReadBytess _ f => forall x, plain (f x)
  | ReadLabels _ _ => False
  end.

Fixpoint labelled (all : bool) (p : prog) : Prop :=
  match p with
  | MinVersion _ p | ModeMinVersion _ _ p => labelled all p
  | Read k _ f =>
      all = false /\
      match k return (imm_val k -> prog) -> Prop with
      | ILabel => fun f => forall x, exists e, f x = Emit e /\ uses e = [x] /\ label_def e = None
      | _ => fun _ => False
      end f
  | ReadLabels _ f => all = true /\ forall xs, exists e, f xs = Emit e /\ uses e = xs /\ label_def e = None
  | _ => False
  end.

Lemma plain_run en p : plain p -> forall c, in_args c -> full c ->
  match assemble en (p_version c) p (left c) with
  | Some (e, r) =>
      uses e = [] /\ label_def e = None /\
      exists c1, run_prog en p c = OK tt (emit_op e c1) /\ reads [] c c1 /\ in_args c1 /\ left c1 = r
  | None => fails (prog_fault en (p_version c) p (left c)) c (run_prog en p c)
  end.
Proof.
  induction p as [e|v p IH|m v p IH|k n f IH|n f IH|n f IH|n f IH|n f IH]; cbn [plain assemble prog_fault run_prog]; intros Pl c H F.
  - destruct Pl as [U D]. split; [exact U|]. split; [exact D|]. exists c. split; [reflexivity|].
    split; [apply reads_refl; unfold in_args in H; lia|]. auto.
  - apply IH; assumption.
  - apply IH; assumption.
  - destruct Pl as [K Pl]. pose proof (must_read_spec n c H) as Q. destruct (left c) as [|a r].
    + apply fails_bind. exact Q.
    + destruct Q as [c1 [E [R [T [N1 [L1 I1]]]]]]. rewrite (bind_ok _ _ _ _ _ E).
      pose proof (reads_full _ _ _ R F) as F1.
      assert (I2 : 2 <= p_i c1) by (unfold in_args in H; lia).
      pose proof (imm_parses en k c1 K T F1 I2) as B. rewrite N1, L1, (rd_version _ _ _ R) in B.
      destruct (operand en (p_version c) k a r) as [[x r']|]; cbn [obind fst snd].
      * destruct B as [c2 [E2 [R2 [H2 L2]]]]. rewrite (bind_ok _ _ _ _ _ E2).
        pose proof (reads_trans0 _ _ _ R R2) as R12.
        pose proof (IH x (Pl x) c2 H2 (reads_full _ _ _ R2 F1)) as Q.
        rewrite L2, (rd_version _ _ _ R12) in Q.
        destruct (assemble en (p_version c) (f x) r') as [[e r'']|].
        -- destruct Q as [U [D [c3 [E3 [R3 [H3 L3]]]]]]. split; [exact U|]. split; [exact D|]. exists c3.
           split; [exact E3|]. split; [eapply reads_trans0; eassumption|]. auto.
        -- eapply fails_later; eassumption.
      * eapply fails_later; [exact R|]. apply fails_bind. exact B.
  - pose proof (scan_spec c H) as Q. destruct (left c) as [|a r].
    + destruct Q as [c1 [E [R [H1 [L1 _]]]]]. rewrite (bind_ok _ _ _ _ _ E).
      pose proof (IH None (Pl None) c1 H1 (reads_full _ _ _ R F)) as Q.
      rewrite L1, (rd_version _ _ _ R) in Q.
      destruct (assemble en (p_version c) (f None) []) as [[e r'']|].
      * destruct Q as [U [D [c3 [E3 [R3 [H3 L3]]]]]]. split; [exact U|]. split; [exact D|]. exists c3.
        split; [exact E3|]. split; [eapply reads_trans0; eassumption|]. auto.
      * eapply fails_later; eassumption.
    + destruct Q as [c1 [E [R [T [N1 [L1 I1]]]]]]. rewrite (bind_ok _ _ _ _ _ E).
      pose proof (reads_full _ _ _ R F) as F1.
      assert (I2 : 2 <= p_i c1) by (unfold in_args in H; lia).
      pose proof (parse_num_parses read_uint8 c1 T F1 I2) as B. rewrite N1, L1 in B.
      destruct (read_uint8 a) as [x|]; cbn [obind] in *.
      * destruct B as [c2 [E2 [R2 [H2 L2]]]]. rewrite (bind_ok _ _ _ _ _ E2).
        pose proof (reads_trans0 _ _ _ R R2) as R12.
        pose proof (IH (Some x) (Pl (Some x)) c2 H2 (reads_full _ _ _ R2 F1)) as Q.
        rewrite L2, (rd_version _ _ _ R12) in Q.
        destruct (assemble en (p_version c) (f (Some x)) r) as [[e r'']|].
        -- destruct Q as [U [D [c3 [E3 [R3 [H3 L3]]]]]]. split; [exact U|]. split; [exact D|]. exists c3.
           split; [exact E3|]. split; [eapply reads_trans0; eassumption|]. auto.
        -- eapply fails_later; eassumption.
      * eapply fails_later; [exact R|]. apply fails_bind. exact B.
  - assert (LL : length (left c) < S (length (p_ts c))) by (rewrite left_length; lia).
    pose proof (ints_loop (S (length (p_ts c))) c H F LL) as B.
    destruct (all_ints (left c)) as [xs|]; cbn [obind].
    + destruct B as [c2 [E2 [R2 [H2 L2]]]].
      match goal with |- context[pbind ?m ?g c] => rewrite (bind_ok m g _ _ _ E2) end.
      pose proof (IH xs (Pl xs) c2 H2 (reads_full _ _ _ R2 F)) as Q.
      rewrite L2, (rd_version _ _ _ R2) in Q.
      destruct (assemble en (p_version c) (f xs) []) as [[e r'']|].
      * destruct Q as [U [D [c3 [E3 [R3 [H3 L3]]]]]]. split; [exact U|]. split; [exact D|]. exists c3.
        split; [exact E3|]. split; [eapply reads_trans0; eassumption|]. auto.
      * eapply fails_later; eassumption.
    + apply fails_bind. exact B.
  - assert (LL : length (left c) < S (length (p_ts c))) by (rewrite left_length; lia).
    pose proof (bytes_loop en (S (length (p_ts c))) (length (left c)) c H F LL (le_n _)) as B.
    destruct (all_bytes en (length (left c)) (left c)) as [xs|]; cbn [obind].
    + destruct B as [c2 [E2 [R2 [H2 L2]]]].
      match goal with |- context[pbind ?m ?g c] => rewrite (bind_ok m g _ _ _ E2) end.
      pose proof (IH xs (Pl xs) c2 H2 (reads_full _ _ _ R2 F)) as Q.
      rewrite L2, (rd_version _ _ _ R2) in Q.
      destruct (assemble en (p_version c) (f xs) []) as [[e r'']|].
      * destruct Q as [U [D [c3 [E3 [R3 [H3 L3]]]]]]. split; [exact U|]. split; [exact D|]. exists c3.
        split; [exact E3|]. split; [eapply reads_trans0; eassumption|]. auto.
      * eapply fails_later; eassumption.
    + apply fails_bind. exact B.
  - destruct Pl.
Qed.

Lemma labelled_run en all p : labelled all p -> forall c rs, in_args c ->
  rs = (if all then rest c else firstn 1 (rest c)) ->
  match assemble en (p_version c) p (left c) with
  | Some (e, r) =>
      uses e = texts rs /\ label_def e = None /\
      exists c1, run_prog en p c = OK tt (emit_op e c1) /\ reads rs c c1 /\ in_args c1 /\ left c1 = r
  | None => rs = [] /\ fails (prog_fault en (p_version c) p (left c)) c (run_prog en p c)
  end.
Proof.
  induction p as [e|v p IH|m v p IH|k n f IH|n f IH|n f IH|n f IH|n f IH]; cbn [labelled assemble prog_fault run_prog]; intros Pl c rs H Hrs; try tauto.
  - apply IH; assumption.
  - apply IH; assumption.
  - destruct Pl as [-> Pl]. destruct k; try (exfalso; exact Pl). cbn [operand operand_value obind fst snd].
    pose proof (must_read_spec n c H) as Q. pose proof (left_length c) as LL. destruct (left c) as [|a r] eqn:El.
    + split; [|apply fails_bind; exact Q]. rewrite Hrs; unfold rest. rewrite skipn_all2 by (cbn in LL; lia). reflexivity.
    + destruct Q as [c1 [E [R [T [N1 [L1 I1]]]]]]. destruct (Pl a) as [e [Ee [U D]]]. cbn in LL.
      assert (En : now c1 = now (set_i (S (p_i c)) c)).
      { unfold now. rewrite I1, (rd_ts _ _ _ R). reflexivity. }
      assert (Rs : rs = [now c1]).
      { rewrite Hrs, rest_cons by lia. rewrite En. reflexivity. }
      rewrite Ee. cbn [assemble]. split; [rewrite Rs; cbn; rewrite U, N1; reflexivity|]. split; [exact D|].
      exists (add_ref (now c1) c1). rewrite (bind_ok _ _ _ _ _ E).
      assert (E2 : parse_imm en ILabel c1 = OK a (add_ref (now c1) c1)).
      { unfold parse_imm, ref_curr, pbind. rewrite curr_spec by exact T. cbn [pmod]. rewrite text_spec by exact T.
        change (now (add_ref (now c1) c1)) with (now c1). rewrite N1. reflexivity. }
      rewrite (bind_ok _ _ _ _ _ E2), Ee. split; [reflexivity|]. rewrite Rs.
      split; [change [now c1] with ([] ++ [now c1]); eapply reads_trans; [exact R|apply reads_add_ref; exact T]|].
      split; [exact (at_in _ T)|exact L1].
  - destruct Pl as [-> Pl]. subst rs.
    assert (LL : length (left c) < S (length (p_ts c))) by (rewrite left_length; lia).
    destruct (labels_loop (S (length (p_ts c))) c H LL) as [c1 [E [R [H1 L1]]]].
    change (left c) with (texts (rest c)). destruct (Pl (texts (rest c))) as [e [Ee [U D]]].
    rewrite Ee. cbn [assemble]. split; [exact U|]. split; [exact D|].
    exists c1. unfold read_array. 
    match goal with |- pbind ?m ?f c = _ /\ _ => rewrite (bind_ok m f _ _ _ E) end.
    rewrite Ee. split; [reflexivity|]. auto.
Qed.

