From Verif Require Import Base LexSpec Lexer Expr Linter Fields Strconv Literals LiteralsProofs Codec OpTable Process ProcessSpec ProcessProofs ProcessRun ProcessLine ProcessDoc Semantics Query HintSpec PaintSpec.
From Coq Require Import ZifyBool ZifyNat ZifyN.

Definition pick (k : role) (ms : list (role * token)) : list token := map snd (filter (fun x => role_eqb (fst x) k) ms).
Lemma pick_app k a b : pick k (a ++ b) = pick k a ++ pick k b.
Proof. unfold pick. rewrite filter_app, map_app. reflexivity. Qed.

(* what is filed by reading operands *)
Record adds (ms : list (role * token)) (c c' : pctx) : Prop := {
  ad_nums : p_nums c' = p_nums c ++ pick Number ms; ad_strs : p_strs c' = p_strs c ++ pick Literal ms;
  ad_keys : p_keys c' = p_keys c ++ pick Encoding ms; ad_mcrs : p_mcrs c' = p_mcrs c ++ pick Macro ms;
  ad_refs : p_refs c' = p_refs c ++ pick LabelRef ms
}.
Lemma adds_trans m1 m2 a b c : adds m1 a b -> adds m2 b c -> adds (m1 ++ m2) a c.
Proof. intros [] []. constructor; rewrite pick_app; [rewrite ad_nums1, ad_nums0|rewrite ad_strs1, ad_strs0|rewrite ad_keys1, ad_keys0|rewrite ad_mcrs1, ad_mcrs0|rewrite ad_refs1, ad_refs0]; rewrite app_assoc; reflexivity. Qed.
Ltac adds0 := constructor; cbn; rewrite ?app_nil_r, <- ?app_assoc; reflexivity.

Definition marks {A} (c : pctx) (ok ko : list (role * token)) (o : out A) : Prop :=
  match o with OK _ c1 => adds ok c c1 | Recover c1 => adds ko c c1 | _ => True end.


Lemma marks_pre {A} c c1 m0 ok ko (o : out A) : adds m0 c c1 -> marks c1 ok ko o -> marks c (m0 ++ ok) (m0 ++ ko) o.
Proof. intros H. destruct o; cbn; try trivial; intros H1; eapply adds_trans; eassumption. Qed.

Lemma curr_marks {A} c (f : token -> P A) ok ko : marks c ok ko (f (now c) c) -> (at_tok c) -> marks c ok ko (pbind curr f c).
Proof. intros H T. unfold pbind. rewrite curr_spec by exact T. exact H. Qed.

Lemma fail_marks {A} c r ok : at_tok c -> marks c ok [] (@fail_curr A r c).
Proof. intros T. unfold fail_curr. apply curr_marks; [|exact T]. cbn. adds0. Qed.
Lemma prev_marks {A} c r ok : marks c ok [] (@fail_prev A r c).
Proof. unfold fail_prev, pbind, prev. destruct (arg_prev c); cbn; try exact I. adds0. Qed.

Lemma num_marks {A} c (x : A) ko : at_tok c -> marks c [(Number, now c)] ko ((num_curr ;~ pret x) c).
Proof. intros T. unfold num_curr, pbind. rewrite curr_spec by exact T. cbn. adds0. Qed.
Lemma str_marks {A} c (x : A) ko : at_tok c -> marks c [(Literal, now c)] ko ((str_curr ;~ pret x) c).
Proof. intros T. unfold str_curr, pbind. rewrite curr_spec by exact T. cbn. adds0. Qed.

Lemma or_fail_marks {A B} c (o : option A) (f : A -> P B) ok : at_tok c ->
  (forall a, o = Some a -> marks c ok [] (f a c)) -> marks c ok [] (pbind (or_fail o) f c).
Proof.
  intros T H. destruct o as [a|]; cbn [or_fail]; [exact (H a eq_refl)|].
  pose proof (@fail_marks A c RValue ok T) as Q. unfold pbind. destruct (fail_curr RValue c) as [a c1|c1| |] eqn:E; try exact I; [|exact Q].
  unfold fail_curr, pbind in E. rewrite curr_spec in E by exact T. discriminate E.
Qed.

Lemma parse_num_marks {A} (read : str -> option A) c : at_tok c -> marks c [(Number, now c)] [] (parse_num read c).
Proof. intros T. unfold parse_num. rewrite bind_text by exact T. apply or_fail_marks; [exact T|]. intros a _. apply num_marks. exact T. Qed.

Lemma classified_marks c o : at_tok c ->
  marks c [((match o with Some (_, true) => Literal | _ => Number end), now c)] [] (classified o c).
Proof.
  intros T. unfold classified. apply or_fail_marks; [exact T|]. intros [x b] ->. cbn [snd fst].
  destruct b; [apply str_marks|apply num_marks]; exact T.
Qed.

Lemma in_parens_marks c a d : at_tok c -> marks c [(Literal, now c)] [] (in_parens a d c).
Proof.
  intros T. unfold in_parens. destruct (index_of ")" a); [|apply fail_marks; exact T].
  cbv zeta. unfold pbind at 1. destruct (slice _ _ _); cbn [of_res]; try exact I.
  apply or_fail_marks; [exact T|]. intros v _. apply str_marks. exact T.
Qed.

Lemma scan_true c : p_i c < length (p_ts c) -> arg_scan c = OK true (set_i (S (p_i c)) c).
Proof.
  intros L. unfold arg_scan. replace (p_i c <=? length (p_ts c)) with true by lia.
  replace (S (p_i c) <=? length (p_ts c)) with true by lia. reflexivity.
Qed.
Lemma scan_adds c b c1 : arg_scan c = OK b c1 -> adds [] c c1.
Proof. unfold arg_scan. destruct (p_i c <=? length (p_ts c)); intros E; injection E as _ <-; adds0. Qed.

Lemma scan_false c : length (p_ts c) <= p_i c -> exists c1, arg_scan c = OK false c1 /\ adds [] c c1 /\ p_ts c1 = p_ts c /\ p_version c1 = p_version c /\ length (p_ts c1) <= p_i c1.
Proof.
  intros L. unfold arg_scan. destruct (Nat.leb_spec (p_i c) (length (p_ts c))).
  - exists (set_i (S (p_i c)) c). replace (S (p_i c) <=? length (p_ts c)) with false by lia. split; [reflexivity|]. split; [adds0|].
    split; [reflexivity|]. split; [reflexivity|]. cbn. lia.
  - exists c. split; [reflexivity|]. split; [adds0|]. split; [reflexivity|]. split; [reflexivity|]. exact L.
Qed.
Lemma keyword_marks (decode : str -> option str) c : at_tok c ->
  marks c ((Encoding, now c) :: map (pair Literal) (firstn 1 (rest c))) [(Encoding, now c)]
    ((key_curr ;~ must_read_arg "literal" ;~ l <~ text ; v <~ or_fail (decode l) ; str_curr ;~ pret v) c).
Proof.
  intros T. unfold key_curr at 1. unfold pbind at 1. unfold pbind at 1. rewrite curr_spec by exact T. cbn [pmod].
  set (c1 := add_key (now c) c). change (rest c) with (rest c1).
  apply (marks_pre c c1 [(Encoding, now c)] (map (pair Literal) (firstn 1 (rest c1))) []); [adds0|].
  unfold must_read_arg. unfold pbind at 1.
  destruct (Nat.lt_ge_cases (p_i c1) (length (p_ts c1))) as [L|L].
  - unfold pbind at 1. rewrite (scan_true c1 L). cbn [pret]. rewrite (rest_cons c1 L). set (c2 := set_i (S (p_i c1)) c1).
    assert (T2 : at_tok c2) by (unfold at_tok, c2; cbn; cbn in L; lia).
    rewrite bind_text by exact T2. cbn [firstn map].
    assert (Q : marks c2 [(Literal, now c2)] [] ((v <~ or_fail (decode (tok_v (now c2))) ; str_curr ;~ pret v) c2)).
    { apply or_fail_marks; [exact T2|]. intros v _. apply str_marks. exact T2. }
    apply (marks_pre c1 c2 [] _ _ _ ltac:(adds0) Q).
  - assert (Rn : rest c1 = []) by (unfold rest; apply skipn_all2; exact L). rewrite Rn. cbn [firstn map].
    destruct (scan_false c1 L) as [c2 [E [A2 _]]]. unfold pbind at 1. rewrite E.
    pose proof (@prev_marks unit c2 (RMissing "literal") []) as Q.
    destruct (fail_prev (RMissing "literal") c2) as [u c3|c3| |] eqn:E3; try exact I.
    + unfold fail_prev, pbind, prev in E3. destruct (arg_prev c2); discriminate E3.
    + exact (adds_trans [] [] _ _ _ A2 Q).
Qed.

Lemma bytes_marks en c : at_tok c ->
  marks c (if encoding (tok_v (now c)) then (Encoding, now c) :: map (pair Literal) (firstn 1 (rest c)) else [(Literal, now c)])
          (if encoding (tok_v (now c)) then [(Encoding, now c)] else []) (parse_bytes en c).
Proof.
  intros T. unfold parse_bytes. rewrite bind_text by exact T. set (a := tok_v (now c)).
  destruct (encoding a) eqn:Ea.
  - assert (K : a = bs "base32" \/ a = bs "b32" \/ a = bs "base64" \/ a = bs "b64").
    { unfold encoding in Ea. cbn [mem existsb] in Ea. repeat (apply or_true in Ea; destruct Ea as [Ea|Ea]); try discriminate Ea; apply seqb_eq in Ea; rewrite Ea; tauto. }
    destruct K as [-> | [-> | [-> | ->]]].
    + exact (keyword_marks (b32_decode en) c T).
    + exact (keyword_marks (b32_decode en) c T).
    + exact (keyword_marks b64_decode c T).
    + exact (keyword_marks b64_decode c T).
  - assert (K : seqb a (bs "base32") = false /\ seqb a (bs "b32") = false /\ seqb a (bs "base64") = false /\ seqb a (bs "b64") = false).
    { unfold encoding in Ea. cbn [mem existsb] in Ea. repeat (apply Bool.orb_false_elim in Ea; destruct Ea as [? Ea]). auto. }
    destruct K as [K1 [K2 [K3 K4]]]. rewrite K1, K2, K3, K4. cbn [orb].
    repeat match goal with |- context[if ?b then _ else _] => destruct b end; try apply in_parens_marks; try (apply fail_marks); try exact T.
    + apply or_fail_marks; [exact T|]. intros v _. apply str_marks. exact T.
    + unfold pbind at 1. destruct (parse_string_literal a); cbn [of_res]; try exact I.
      apply or_fail_marks; [exact T|]. intros v _. apply str_marks. exact T.
Qed.

Lemma sig_marks c : at_tok c -> marks c [(Literal, now c)] [] (parse_signature c).
Proof.
  intros T. unfold parse_signature. rewrite bind_text by exact T.
  unfold pbind at 1. destruct (index (tok_v (now c)) 0) as [x| |]; cbn [of_res]; try exact I.
  unfold pbind at 1. destruct (if Ascii.eqb x c_quote then index (tok_v (now c)) (length (tok_v (now c)) - 1) else Ret x) as [y| |]; cbn [of_res]; try exact I.
  destruct (negb (Ascii.eqb x c_quote) || negb (Ascii.eqb y c_quote)); [apply fail_marks; exact T|].
  unfold str_curr, pbind. rewrite curr_spec by exact T. cbn [pmod]. rewrite text_spec by exact T. cbn. adds0.
Qed.

(* by name or by number *)
Lemma spec_by_name_exists sp a : existsb (fun s => seqb (f_name s) a) sp = match spec_by_name sp a with Some _ => true | None => false end.
Proof.
  unfold spec_by_name. assert (G : forall sp i acc, (match spec_by_name_from i sp a acc with Some _ => true | None => false end)
     = (existsb (fun s => seqb (f_name s) a) sp || match acc with Some _ => true | None => false end)%bool).
  { clear. induction sp as [|s sp IH]; intros i acc; cbn [spec_by_name_from existsb]; [reflexivity|].
    rewrite IH. destruct (seqb (f_name s) a); cbn [orb]; [apply Bool.orb_true_r|reflexivity]. }
  rewrite G, Bool.orb_false_r. reflexivity.
Qed.
Lemma read_field_role sp v a x b : read_field sp v a = Some (x, b) -> b = existsb (fun s => seqb (f_name s) a) sp.
Proof.
  rewrite spec_by_name_exists. unfold read_field. destruct (spec_by_name sp a) as [[f s]|].
  - destruct (v <? f_version s)%N; [discriminate|]. intros E. injection E as _ <-. reflexivity.
  - destruct (read_uint8 a); [|discriminate]. intros E. injection E as _ <-. reflexivity.
Qed.
Lemma read_txn_field_role k v a x b : read_txn_field k v a = Some (x, b) -> b = existsb (fun s => seqb (f_name s) a) txnFieldSpecs.
Proof.
  rewrite spec_by_name_exists. unfold read_txn_field. destruct (spec_by_name txnFieldSpecs a) as [[f s]|].
  - destruct k; repeat match goal with |- context[if ?b then _ else _] => destruct b end; intros E; try discriminate E; injection E as _ <-; reflexivity.
  - destruct (read_uint8 a); [|discriminate]. intros E. injection E as _ <-. reflexivity.
Qed.

Definition ok_roles (k : imm) (a : token) (r : list token) : list (role * token) :=
  match k with
  | IBytes => if encoding (tok_v a) then (Encoding, a) :: map (pair Literal) (firstn 1 r) else [(Literal, a)]
  | _ => [(kind_role k (tok_v a), a)]
  end.
Definition ko_roles (k : imm) (a : token) : list (role * token) :=
  match k with IBytes => if encoding (tok_v a) then [(Encoding, a)] else [] | _ => [] end.

Lemma marks_ok_eq {A} c ok ok' ko (o : out A) : (forall a c1, o = OK a c1 -> ok = ok') -> marks c ok ko o -> marks c ok' ko o.
Proof. intros H M. destruct o; try exact M. cbn in *. rewrite <- (H _ _ eq_refl). exact M. Qed.

Lemma classified_roles c (o : option (N * bool)) (l : bool) : at_tok c -> (forall x b, o = Some (x, b) -> b = l) ->
  marks c [((if l then Literal else Number), now c)] [] (classified o c).
Proof.
  intros T H. eapply marks_ok_eq; [|apply classified_marks; exact T].
  intros z c1 E. destruct o as [[y b]|].
  - rewrite <- (H y b eq_refl). destruct b; reflexivity.
  - exfalso. unfold classified in E. pose proof (bind_or_fail (@None (N * bool)) (fun x => (if snd x then str_curr else num_curr) ;~ pret (fst x)) c T) as [c2 [t [Q _]]].
    rewrite Q in E. discriminate E.
Qed.

Lemma imm_marks en k c : at_tok c -> marks c (ok_roles k (now c) (rest c)) (ko_roles k (now c)) (parse_imm en k c).
Proof.
  intros T.
  assert (C : forall sp, marks c [((if existsb (fun s => seqb (f_name s) (tok_v (now c))) sp then Literal else Number), now c)] []
      ((s <~ text ; c0 <~ get ; classified (read_field sp (p_version c0) s)) c)).
  { intros sp. rewrite bind_text by exact T. unfold pbind, get. apply classified_roles; [exact T|]. intros x b. apply read_field_role. }
  assert (C' : forall k, marks c [((if existsb (fun s => seqb (f_name s) (tok_v (now c))) txnFieldSpecs then Literal else Number), now c)] []
      ((s <~ text ; c0 <~ get ; classified (read_txn_field k (p_version c0) s)) c)).
  { intros k'. rewrite bind_text by exact T. unfold pbind, get. apply classified_roles; [exact T|]. intros x b. apply read_txn_field_role. }
  destruct k; cbn [ok_roles ko_roles kind_role field_table parse_imm];
    match goal with
    | |- context[read_txn_field ?k] => exact (C' k)
    | |- context[read_field ?sp] => exact (C sp)
    | |- context[parse_num ?r] => apply parse_num_marks; exact T
    | _ => idtac
    end.
  - apply bytes_marks. exact T.
  - unfold ref_curr, pbind. rewrite curr_spec by exact T. cbn [pmod]. rewrite text_spec by exact T. cbn. adds0.
  - rewrite bind_text by exact T. destruct (addr_ok en (tok_v (now c))); [apply str_marks; exact T|apply fail_marks; exact T].
  - apply sig_marks. exact T.
Qed.

Lemma operand_roles_ok en v k a r x r' : operand en v k (tok_v a) (texts r) = Some (x, r') -> operand_roles en v k a r = ok_roles k a r.
Proof. intros E. unfold operand_roles. destruct k; rewrite E; reflexivity. Qed.
Lemma operand_roles_ko en v k a r : operand en v k (tok_v a) (texts r) = None -> operand_roles en v k a r = ko_roles k a.
Proof. intros E. unfold operand_roles. destruct k; rewrite E; reflexivity. Qed.

(* reading an operand of any kind *)
Lemma imm_goes en k c : at_tok c -> full c -> 2 <= p_i c ->
  match operand en (p_version c) k (tok_v (now c)) (texts (rest c)) with
  | Some (a, r) => exists c1, parse_imm en k c = OK a c1 /\ p_version c1 = p_version c /\ p_ts c1 = p_ts c /\ p_i c <= p_i c1 /\ in_args c1 /\ left c1 = r
  | None => exists c1, parse_imm en k c = Recover c1
  end.
Proof.
  intros T F L. assert (K : k = ILabel \/ k <> ILabel) by (destruct k; (left; reflexivity) || (right; discriminate)).
  destruct K as [->|K].
  - cbn [operand operand_value obind parse_imm]. exists (add_ref (now c) c). unfold ref_curr, pbind. rewrite curr_spec by exact T. cbn [pmod].
    rewrite text_spec by exact T. split; [reflexivity|]. split; [reflexivity|]. split; [reflexivity|]. split; [cbn; lia|]. split; [exact (at_in _ T)|reflexivity].
  - pose proof (imm_parses en k c K T F L) as Q. change (left c) with (texts (rest c)) in Q.
    destruct (operand en (p_version c) k (tok_v (now c)) (texts (rest c))) as [[a r]|].
    + destruct Q as [c1 [E [R [H L1]]]]. exists c1. split; [exact E|]. split; [exact (rd_version _ _ _ R)|]. split; [exact (rd_ts _ _ _ R)|].
      split; [pose proof (rd_i _ _ _ R); lia|]. split; assumption.
    + destruct Q as [c1 [t [E _]]]. eexists. exact E.
Qed.

Lemma skip_twice {A} (l : list A) : forall i j, skipn i (skipn j l) = skipn (j + i) l.
Proof. induction l as [|x l IH]; intros i [|j]; try reflexivity; [destruct i; reflexivity|]. cbn [skipn plus]. apply IH. Qed.
Lemma rest_last c c1 : p_ts c1 = p_ts c -> p_i c <= p_i c1 -> rest c1 = lastn (length (left c1)) (rest c).
Proof.
  intros E L. rewrite left_length. unfold lastn, rest. rewrite E, skipn_length.
  destruct (Nat.le_gt_cases (length (p_ts c)) (p_i c1)) as [G|G].
  - rewrite (skipn_all2 _ G). symmetry. apply skipn_all2. rewrite skipn_length. lia.
  - rewrite skip_twice. f_equal. lia.
Qed.

(* the fate of a computation: what it files, whatever its outcome *)
Definition files {A} (c : pctx) (ms : list (role * token)) (o : out A) : Prop := marks c ms ms o.
Lemma files_pre {A} c c1 m0 ms (o : out A) : adds m0 c c1 -> files c1 ms o -> files c (m0 ++ ms) o.
Proof. apply marks_pre. Qed.
Lemma files_pre0 {A} c c1 ms (o : out A) : adds [] c c1 -> files c1 ms o -> files c ms o.
Proof. apply (marks_pre c c1 []). Qed.

Lemma prog_roles_nil en n v p : prog_roles en n v p [] = [].
Proof. induction p; cbn [prog_roles]; try assumption; try reflexivity. Qed.

(* in front of the next operand *)
Lemma next_operand c : in_args c -> p_i c < length (p_ts c) ->
  let c1 := set_i (S (p_i c)) c in at_tok c1 /\ rest c = now c1 :: rest c1 /\ adds [] c c1 /\ 2 <= p_i c1.
Proof.
  intros H L c1. unfold in_args in H. split; [unfold at_tok, c1; cbn; lia|]. split; [apply rest_cons; exact L|]. split; [adds0|cbn; lia].
Qed.
Lemma no_operand c : length (p_ts c) <= p_i c -> rest c = [].
Proof. intros L. unfold rest. apply skipn_all2. exact L. Qed.
Lemma must_false n c : length (p_ts c) <= p_i c -> files c [] (must_read_arg n c) /\ forall u c1, must_read_arg n c <> OK u c1.
Proof.
  intros L. destruct (scan_false c L) as [c1 [E [A _]]]. unfold must_read_arg, pbind. rewrite E.
  split; [eapply files_pre0; [exact A|apply prev_marks]|].
  intros u c2. unfold fail_prev, pbind, prev. destruct (arg_prev c1); discriminate.
Qed.
Lemma must_true n c : p_i c < length (p_ts c) -> must_read_arg n c = OK tt (set_i (S (p_i c)) c).
Proof. intros L. unfold must_read_arg, pbind. rewrite (scan_true c L). reflexivity. Qed.

Lemma files_stop {A B} c ms (m : P A) (f : A -> P B) : files c ms (m c) -> (forall a c1, m c <> OK a c1) -> files c ms (pbind m f c).
Proof. intros H N. unfold pbind. destruct (m c) as [a c1|c1| |] eqn:E; try exact I; [destruct (N a c1 eq_refl)|exact H]. Qed.

(* nothing is left: nothing more is filed *)
Lemma read_loop_done {A} (item : P A) n c : length (p_ts c) <= p_i c ->
  exists c1, read_loop (S n) item c = OK [] c1 /\ adds [] c c1 /\ p_ts c1 = p_ts c /\ p_version c1 = p_version c /\ length (p_ts c1) <= p_i c1.
Proof.
  intros L. destruct (scan_false c L) as [c1 [E H]]. exists c1. cbn [read_loop]. rewrite (bind_ok _ _ _ _ _ E). split; [reflexivity|exact H].
Qed.
Lemma run_done en p : forall c, length (p_ts c) <= p_i c -> files c [] (run_prog en p c).
Proof.
  assert (A : forall {A} (item : P A) (f : list A -> prog), (forall xs c, length (p_ts c) <= p_i c -> files c [] (run_prog en (f xs) c)) ->
    forall c, length (p_ts c) <= p_i c -> files c [] ((xs <~ read_array item ; run_prog en (f xs)) c)).
  { intros A item f IH c L. unfold read_array. destruct (read_loop_done item (length (p_ts c)) c L) as [c1 [E [H [_ [_ L1]]]]].
    match goal with |- files c [] (pbind ?m ?g c) => rewrite (bind_ok m g [] c c1 E) end. eapply files_pre0; [exact H|apply IH; exact L1]. }
  induction p as [e|v p IH|m v p IH|k n f IH|n f IH|n f IH|n f IH|n f IH]; cbn [run_prog]; intros c L; try (apply IH; exact L); try (apply A; [exact IH|exact L]).
  - cbn. adds0.
  - destruct (must_false n c L) as [M N]. apply files_stop; assumption.
  - destruct (scan_false c L) as [c1 [E [H [_ [_ L1]]]]]. rewrite (bind_ok _ _ _ _ _ E). eapply files_pre0; [exact H|apply IH; exact L1].
Qed.

Lemma int_item_marks c : at_tok c -> 
  marks c [(Number, now c); (Number, now c)] [] ((x <~ parse_num (fun s => parse_uint s 0 64) ; num_curr ;~ pret x) c) /\
  match parse_uint (tok_v (now c)) 0 64 with
  | Some x => (x <~ parse_num (fun s => parse_uint s 0 64) ; num_curr ;~ pret x) c = OK x (add_num (now c) (add_num (now c) c))
  | None => exists c1, (x <~ parse_num (fun s => parse_uint s 0 64) ; num_curr ;~ pret x) c = Recover c1
  end.
Proof.
  intros T. assert (E : parse_num (fun s => parse_uint s 0 64) c = match parse_uint (tok_v (now c)) 0 64 with
     | Some x => OK x (add_num (now c) c) | None => Recover (add_diag (error_at (now c) RValue) c) end).
  { unfold parse_num. rewrite bind_text by exact T. destruct (parse_uint (tok_v (now c)) 0 64) as [x|]; cbn [or_fail].
    - unfold pbind, pret, num_curr, pbind. rewrite curr_spec by exact T. reflexivity.
    - unfold fail_curr, pbind. rewrite curr_spec by exact T. reflexivity. }
  unfold pbind at 1 3 4. rewrite E. destruct (parse_uint (tok_v (now c)) 0 64) as [x|].
  - unfold num_curr, pbind. rewrite !(curr_spec (add_num (now c) c)) by exact T. change (now (add_num (now c) c)) with (now c).
    split; [cbn; adds0|reflexivity].
  - split; [cbn; adds0|unfold pbind; rewrite ?E; eexists; reflexivity].
Qed.

Lemma ints_files n : forall c, in_args c -> length (rest c) < n ->
  files c (int_roles 2 (rest c)) (read_loop n (x <~ parse_num (fun s => parse_uint s 0 64) ; num_curr ;~ pret x) c) /\
  (forall xs c1, read_loop n (x <~ parse_num (fun s => parse_uint s 0 64) ; num_curr ;~ pret x) c = OK xs c1 -> length (p_ts c1) <= p_i c1).
Proof.
  induction n as [|n IH]; intros c H Ln; [lia|].
  destruct (Nat.lt_ge_cases (p_i c) (length (p_ts c))) as [L|L].
  - destruct (next_operand c H L) as [T [Rc [A I2]]]. set (c1 := set_i (S (p_i c)) c) in *.
    rewrite Rc in *. cbn [length] in Ln. cbn [int_roles read_loop]. rewrite (bind_ok _ _ _ _ _ (scan_true c L)). fold c1.
    destruct (int_item_marks c1 T) as [M E]. destruct (parse_uint (tok_v (now c1)) 0 64) as [x|].
    + set (c2 := add_num (now c1) (add_num (now c1) c1)) in *. rewrite (bind_ok _ _ _ _ _ E). rewrite E in M. cbn [marks] in M.
      destruct (IH c2 (at_in _ T) ltac:(change (rest c2) with (rest c1); lia)) as [Q1 Q2]. change (rest c2) with (rest c1) in Q1.
      split.
      * change (repeat (Number, now c1) 2 ++ int_roles 2 (rest c1)) with ([(Number, now c1); (Number, now c1)] ++ int_roles 2 (rest c1)).
        eapply files_pre0; [exact A|]. eapply files_pre; [exact M|].
        unfold pbind. destruct (read_loop n _ c2); exact Q1.
      * intros xs c3. unfold pbind. destruct (read_loop n _ c2) as [ys c4|c4| |] eqn:E2; try discriminate. intros Eq. injection Eq as _ <-. exact (Q2 _ _ eq_refl).
    + destruct E as [c2 E]. rewrite E in M. cbn [marks] in M. split.
      * eapply files_pre0; [exact A|]. unfold pbind at 1. rewrite E. exact M.
      * intros xs c3. unfold pbind at 1. rewrite E. discriminate.
  - rewrite (no_operand c L). destruct (read_loop_done (x <~ parse_num (fun s => parse_uint s 0 64) ; num_curr ;~ pret x) n c L) as [c1 [E [A [_ [_ L1]]]]].
    rewrite E. split; [exact A|]. intros xs c2 Eq. injection Eq as _ <-. exact L1.
Qed.

Lemma bytes_files en n : forall m c, in_args c -> full c -> length (rest c) < n -> length (rest c) <= m ->
  files c (byte_roles en m (rest c)) (read_loop n (parse_bytes en) c) /\
  (forall xs c1, read_loop n (parse_bytes en) c = OK xs c1 -> length (p_ts c1) <= p_i c1).
Proof.
  induction n as [|n IH]; intros m c H F Ln Lm; [lia|].
  destruct (Nat.lt_ge_cases (p_i c) (length (p_ts c))) as [L|L].
  - destruct (next_operand c H L) as [T [Rc [A I2]]]. set (c1 := set_i (S (p_i c)) c) in *.
    rewrite Rc in *. cbn [length] in Ln, Lm. destruct m as [|m]; [lia|]. cbn [byte_roles read_loop]. rewrite (bind_ok _ _ _ _ _ (scan_true c L)). fold c1.
    assert (F1 : full c1) by exact F.
    pose proof (imm_marks en IBytes c1 T) as M. pose proof (imm_goes en IBytes c1 T F1 I2) as G. cbn [parse_imm] in M, G. cbn [operand] in G.
    destruct (byte_operand en (tok_v (now c1)) (texts (rest c1))) as [[x r']|] eqn:Eb.
    + rewrite (operand_roles_ok en 0 IBytes (now c1) (rest c1) x r' Eb). destruct G as [c2 [E [_ [Ts [Li [H2 L2]]]]]].
      rewrite E in M. cbn [marks] in M. rewrite (bind_ok _ _ _ _ _ E).
      pose proof (rest_last c1 c2 Ts Li) as Rl. rewrite L2 in Rl.
      assert (Ll : length (rest c2) <= length (rest c1)) by (rewrite Rl; unfold lastn; rewrite skipn_length; lia).
      destruct (IH m c2 H2 ltac:(unfold full in *; rewrite Ts; exact F1) ltac:(lia) ltac:(lia)) as [Q1 Q2]. rewrite Rl in Q1.
      split.
      * eapply files_pre0; [exact A|]. eapply files_pre; [exact M|]. unfold pbind. destruct (read_loop n _ c2); exact Q1.
      * intros xs c3. unfold pbind. destruct (read_loop n _ c2) as [ys c4|c4| |] eqn:E2; try discriminate. intros Eq. injection Eq as _ <-. exact (Q2 _ _ eq_refl).
    + rewrite (operand_roles_ko en 0 IBytes (now c1) (rest c1) Eb), app_nil_r. destruct G as [c2 E]. rewrite E in M. cbn [marks] in M.
      split.
      * eapply files_pre0; [exact A|]. unfold pbind. rewrite E. exact M.
      * intros xs c3. unfold pbind. rewrite E. discriminate.
  - rewrite (no_operand c L). destruct (read_loop_done (parse_bytes en) n c L) as [c1 [E [A [_ [_ L1]]]]].
    rewrite E. split; [destruct m; exact A|]. intros xs c2 Eq. injection Eq as _ <-. exact L1.
Qed.

Lemma labels_files n : forall c, in_args c -> length (rest c) < n ->
  files c (map (pair LabelRef) (rest c)) (read_loop n (s <~ text ; ref_curr ;~ pret s) c) /\
  (forall xs c1, read_loop n (s <~ text ; ref_curr ;~ pret s) c = OK xs c1 -> length (p_ts c1) <= p_i c1).
Proof.
  induction n as [|n IH]; intros c H Ln; [lia|].
  destruct (Nat.lt_ge_cases (p_i c) (length (p_ts c))) as [L|L].
  - destruct (next_operand c H L) as [T [Rc [A I2]]]. set (c1 := set_i (S (p_i c)) c) in *.
    rewrite Rc in *. cbn [length] in Ln. cbn [map read_loop]. rewrite (bind_ok _ _ _ _ _ (scan_true c L)). fold c1.
    set (c2 := add_ref (now c1) c1).
    assert (E : (s <~ text ; ref_curr ;~ pret s) c1 = OK (tok_v (now c1)) c2).
    { rewrite bind_text by exact T. unfold ref_curr, pbind. rewrite curr_spec by exact T. reflexivity. }
    rewrite (bind_ok _ _ _ _ _ E).
    destruct (IH c2 (at_in _ T) ltac:(change (rest c2) with (rest c1); lia)) as [Q1 Q2]. change (rest c2) with (rest c1) in Q1.
    assert (M : adds [(LabelRef, now c1)] c1 c2) by adds0.
    split.
    + change ((LabelRef, now c1) :: map (pair LabelRef) (rest c1)) with ([(LabelRef, now c1)] ++ map (pair LabelRef) (rest c1)).
      eapply files_pre0; [exact A|]. eapply files_pre; [exact M|]. unfold pbind. destruct (read_loop n _ c2); exact Q1.
    + intros xs c3. unfold pbind. destruct (read_loop n _ c2) as [ys c4|c4| |] eqn:E2; try discriminate. intros Eq. injection Eq as _ <-. exact (Q2 _ _ eq_refl).
  - rewrite (no_operand c L). destruct (read_loop_done (s <~ text ; ref_curr ;~ pret s) n c L) as [c1 [E [A [_ [_ L1]]]]].
    rewrite E. split; [exact A|]. intros xs c2 Eq. injection Eq as _ <-. exact L1.
Qed.

Lemma array_files {A} en (item : P A) f c ms : files c ms (read_array item c) ->
  (forall xs c1, read_array item c = OK xs c1 -> length (p_ts c1) <= p_i c1) ->
  files c ms ((xs <~ read_array item ; run_prog en (f xs)) c).
Proof.
  intros M L. unfold pbind. destruct (read_array item c) as [xs c1|c1| |] eqn:E; try exact I; [|exact M].
  rewrite <- (app_nil_r ms). eapply files_pre; [exact M|]. apply run_done. exact (L _ _ eq_refl).
Qed.

Theorem run_files en p : forall c, in_args c -> full c -> files c (prog_roles en 2 (p_version c) p (rest c)) (run_prog en p c).
Proof.
  induction p as [e|v p IH|m v p IH|k n f IH|n f IH|n f IH|n f IH|n f IH]; intros c H F; cbn [run_prog prog_roles].
  - cbn. adds0.
  - apply IH; assumption.
  - apply IH; assumption.
  - destruct (Nat.lt_ge_cases (p_i c) (length (p_ts c))) as [L|L].
    + destruct (next_operand c H L) as [T [Rc [A I2]]]. set (c1 := set_i (S (p_i c)) c) in *. rewrite Rc.
      rewrite (bind_ok _ _ _ _ _ (must_true n c L)). fold c1. eapply files_pre0; [exact A|].
      assert (F1 : full c1) by exact F.
      pose proof (imm_marks en k c1 T) as M. pose proof (imm_goes en k c1 T F1 I2) as G. change (p_version c1) with (p_version c) in G.
      destruct (operand en (p_version c) k (tok_v (now c1)) (texts (rest c1))) as [[x r']|] eqn:Eo.
      * rewrite (operand_roles_ok _ _ _ _ _ _ _ Eo). destruct G as [c2 [E [Ve [Ts [Li [H2 L2]]]]]]. rewrite E in M. cbn [marks] in M.
        rewrite (bind_ok _ _ _ _ _ E). eapply files_pre; [exact M|].
        pose proof (rest_last c1 c2 Ts Li) as Rl. rewrite L2 in Rl. rewrite <- Rl. change (p_version c1) with (p_version c) in Ve. rewrite <- Ve.
        apply IH; [exact H2|]. unfold full in *. rewrite Ts. exact F1.
      * rewrite (operand_roles_ko _ _ _ _ _ Eo), app_nil_r. destruct G as [c2 E]. unfold pbind. rewrite E. rewrite E in M. exact M.
    + rewrite (no_operand c L). destruct (must_false n c L) as [M N]. apply files_stop; assumption.
  - destruct (Nat.lt_ge_cases (p_i c) (length (p_ts c))) as [L|L].
    + destruct (next_operand c H L) as [T [Rc [A I2]]]. set (c1 := set_i (S (p_i c)) c) in *. rewrite Rc.
      rewrite (bind_ok _ _ _ _ _ (scan_true c L)). fold c1. eapply files_pre0; [exact A|].
      pose proof (imm_marks en IUint8 c1 T) as M. pose proof (imm_goes en IUint8 c1 T F I2) as G. cbn [parse_imm operand operand_value ok_roles ko_roles kind_role] in M, G.
      change (p_version c1) with (p_version c) in G.
      destruct (read_uint8 (tok_v (now c1))) as [x|]; cbn [obind] in G.
      * destruct G as [c2 [E [Ve [Ts [Li [H2 L2]]]]]]. change (p_version c1) with (p_version c) in Ve. rewrite E in M. cbn [marks] in M. rewrite (bind_ok _ _ _ _ _ E).
        change ((Number, now c1) :: prog_roles en 2 (p_version c) (f (Some x)) (rest c1)) with ([(Number, now c1)] ++ prog_roles en 2 (p_version c) (f (Some x)) (rest c1)).
        eapply files_pre; [exact M|].
        pose proof (rest_last c1 c2 Ts Li) as Rl. rewrite L2 in Rl. unfold texts, lastn in Rl. rewrite map_length, Nat.sub_diag in Rl. cbn [skipn] in Rl. rewrite <- Rl, <- Ve.
        apply IH; [exact H2|]. unfold full in *. rewrite Ts. exact F.
      * destruct G as [c2 E]. unfold pbind. rewrite E. rewrite E in M. exact M.
    + rewrite (no_operand c L). destruct (scan_false c L) as [c1 [E [A [_ [_ L1]]]]]. rewrite (bind_ok _ _ _ _ _ E). eapply files_pre0; [exact A|]. apply run_done. exact L1.
  - assert (Lr : length (rest c) < S (length (p_ts c))) by (unfold rest; rewrite skipn_length; lia).
    destruct (ints_files (S (length (p_ts c))) c H Lr) as [M N]. apply array_files; assumption.
  - assert (Lr : length (rest c) < S (length (p_ts c))) by (unfold rest; rewrite skipn_length; lia).
    destruct (bytes_files en (S (length (p_ts c))) (length (rest c)) c H F Lr (le_n _)) as [M N]. apply array_files; assumption.
  - assert (Lr : length (rest c) < S (length (p_ts c))) by (unfold rest; rewrite skipn_length; lia).
    destruct (labels_files (S (length (p_ts c))) c H Lr) as [M N]. apply array_files; assumption.
Qed.
