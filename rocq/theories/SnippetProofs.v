(* Proofs about the snippets. *)
From Verif Require Import Base LexSpec Lexer LexerProofs LexerThms Expr Linter Fields Literals Codec OpTable Print Process ProcessSpec ProcessDoc ProcessThms
  RoundTripSpec RoundTripLex DocProofs EditProofs FixLines ErrorSpec DiagSpec DiagProofs InsertProofs InsertDoc Snippets SnippetSpec.
From Verif Require Flow LintSpec RoundTripExact.
From Coq Require Import Lia.

Definition colon (n : str) : str := n ++ bs ":".
Definition soc_words (c : soc_choice) : list (list str) :=
  [[bs "txn"; bs "OnCompletion"]; bs "switch" :: soc_calls c;
   [colon (sc_noop c)]; [bs "b"; sc_then c]; [];
   [colon (sc_optin c)]; [bs "b"; sc_then c]; [];
   [colon (sc_closeout c)]; [bs "b"; sc_then c]; [];
   [colon (sc_clear c)]; [bs "b"; sc_then c]; [];
   [colon (sc_update c)]; [bs "b"; sc_then c]; [];
   [colon (sc_delete c)]; [];
   [colon (sc_then c)]].
Definition soc_lines (c : soc_choice) : list (list str * bool) := map (fun w => (w, false)) (soc_words c).

Lemma soc_text_words c rest : inserted (soc_typed c rest) soc_text = word_text (soc_lines c) ++ rest.
Proof.
  destruct c as [n0 n1 n2 n3 n4 n5 t]. unfold inserted.
  transitivity (bs "txn OnCompletion" ++ [c_lf] ++ bs "switch " ++ n0 ++ bs " " ++ n1 ++ bs " " ++ n2 ++ bs " " ++ n3 ++ bs " " ++ n4 ++ bs " " ++ n5 ++ [c_lf] ++
    n0 ++ bs ":" ++ [c_lf] ++ bs "b " ++ t ++ [c_lf; c_lf] ++ n1 ++ bs ":" ++ [c_lf] ++ bs "b " ++ t ++ [c_lf; c_lf] ++
    n2 ++ bs ":" ++ [c_lf] ++ bs "b " ++ t ++ [c_lf; c_lf] ++ n3 ++ bs ":" ++ [c_lf] ++ bs "b " ++ t ++ [c_lf; c_lf] ++
    n4 ++ bs ":" ++ [c_lf] ++ bs "b " ++ t ++ [c_lf; c_lf] ++ n5 ++ bs ":" ++ [c_lf; c_lf] ++ t ++ bs ":" ++ [c_lf] ++ rest); [vm_compute; reflexivity|].
  unfold soc_lines, soc_words, soc_calls, colon. cbn [map word_text join sc_noop sc_optin sc_closeout sc_clear sc_update sc_delete sc_then].
  repeat (rewrite <- app_assoc || rewrite <- app_comm_cons). cbn [app]. reflexivity.
Qed.

Lemma colon_word n : is_word n = true -> is_word (colon n) = true.
Proof.
  unfold colon. destruct n as [|c r]; [discriminate|]. cbn [app is_word]. rewrite !Bool.andb_true_iff. intros [[A B] C]. repeat split.
  - change (c :: r ++ bs ":") with ((c :: r) ++ bs ":"). rewrite forallb_app, A. reflexivity.
  - exact B.
  - destruct r as [|d r]; [|exact C]. cbn [app]. destruct (Ascii.eqb c c_slash); reflexivity.
Qed.
Lemma colon_label n : label_name (colon n) = Some n.
Proof. unfold label_name, colon. rewrite rev_app_distr. cbn. rewrite rev_involutive. reflexivity. Qed.

Lemma soc_words_fine c : Forall label_word (soc_names c) -> Forall (fun x => Forall (fun w => one_token w = true) (fst x)) (soc_lines c).
Proof.
  unfold label_word, soc_names, soc_calls. cbn [app]. intros H.
  repeat match goal with H : Forall _ (_ :: _) |- _ => inversion H; clear H; subst end.
  assert (X : forall w, is_word w = true -> one_token w = true) by (intros w E; unfold one_token; rewrite E; reflexivity).
  unfold soc_lines, soc_words, soc_calls. cbn [map].
  repeat (apply Forall_cons || apply Forall_nil || (cbn [fst]; apply X; first [assumption|apply colon_word; assumption|reflexivity]) || cbn [fst]).
Qed.

(* what the lines contribute *)
Lemma word_kind t l w ws : word_line (t :: l) (w :: ws) -> kind_of (t :: l) =
  match label_name w with
  | Some n => LLabel n
  | None => if seqb w (bs "#pragma") then LPragma ws else match ops_get w with Some p => LOp p ws | None => LUnknown end
  end.
Proof.
  intros [E F]. cbn [texts map] in E. injection E as <- <-. inversion F as [|? ? T _]; subst. unfold kind_of. rewrite T. reflexivity.
Qed.
Lemma blank_line l : word_line l [] -> l = [].
Proof. intros [E _]. destruct l; [reflexivity|discriminate]. Qed.

Definition adds (en : env) (m : mode) (v : N) (l : list token) (e : expr) : Prop :=
  statement en v l /\ available m v l /\ entries en v l = [e] /\ version_after v l = v /\ mode_after m l = m.
Lemma adds_blank en m v l : word_line l [] -> adds en m v l EmptyExpr.
Proof. intros H. rewrite (blank_line _ H). split; [exact I|]. split; [intros p args E; discriminate|]. repeat split. Qed.
Lemma adds_label en m v l n : n <> [] -> word_line l [colon n] -> adds en m v l (LabelExpr n).
Proof.
  intros N H. destruct l as [|t l]; [destruct H; discriminate|]. pose proof (word_kind _ _ _ _ H) as K. rewrite colon_label in K.
  unfold adds, statement, available, entries, version_after, mode_after. rewrite K. split; [exact N|]. split; [intros p args E; discriminate|].
  split; [destruct n; [congruence|reflexivity]|]. auto.
Qed.
Lemma adds_op en m v l w ws p e : label_name w = None -> seqb w (bs "#pragma") = false -> ops_get w = Some p -> assemble en v p ws = Some (e, []) ->
  (0 < min_version m p <= v)%N -> word_line l (w :: ws) -> adds en m v l e.
Proof.
  intros A B C D M H. destruct l as [|t l]; [destruct H; discriminate|]. pose proof (word_kind _ _ _ _ H) as K. rewrite A, B, C in K.
  unfold adds, statement, available, entries, version_after, mode_after. rewrite K, D. split; [eauto|]. split; [intros q args E; injection E as <- <-; exact M|]. auto.
Qed.

Fixpoint all_add (en : env) (m : mode) (v : N) (ls : list (list token)) (es : list expr) : Prop :=
  match ls, es with
  | [], [] => True
  | l :: ls, e :: es => adds en m v l e /\ all_add en m v ls es
  | _, _ => False
  end.
Lemma all_add_all en m v ls : forall es, all_add en m v ls es ->
  all_fine en m v ls /\ all_entries en v ls = es /\ last_version v ls = v /\ last_mode m ls = m.
Proof.
  induction ls as [|l ls IH]; intros [|e es]; cbn [all_add all_fine all_entries last_version last_mode]; try tauto.
  intros [[A [B [C [D F]]]] H]. rewrite D, F, C. destruct (IH es H) as [I1 [I2 [I3 I4]]]. rewrite I2. auto.
Qed.

Lemma adds_b en m v l n : m <> ModeNone -> (1 <= v)%N -> word_line l [bs "b"; n] -> (2 <= v)%N -> adds en m v l (BExpr n).
Proof.
  intros Hm V H V2. eapply adds_op; [| | | | |exact H]; try (vm_compute; reflexivity).
  destruct m; [congruence| |]; (split; [vm_compute; reflexivity|]); (eapply N.le_trans; [|exact V2]; vm_compute; discriminate).
Qed.
Lemma adds_switch en m v l ns : m <> ModeNone -> (8 <= v)%N -> word_line l (bs "switch" :: ns) -> ns <> [] -> adds en m v l (SwitchExpr ns).
Proof.
  intros Hm V H N. eapply adds_op; [| | | | |exact H]; try (vm_compute; reflexivity).
  destruct m; [congruence| |]; (split; [vm_compute; reflexivity|]); (eapply N.le_trans; [|exact V]; vm_compute; discriminate).
Qed.
Lemma adds_txn en m v l : m <> ModeNone -> (8 <= v)%N -> word_line l [bs "txn"; bs "OnCompletion"] -> adds en m v l (TxnExpr on_completion).
Proof.
  intros Hm V H. eapply adds_op; [| | | | |exact H]; try (vm_compute; reflexivity).
  - destruct v as [|p]; [lia|]. destruct p as [p|p|]; try lia; destruct p as [p|p|]; try lia; vm_compute; reflexivity.
  - destruct m; [congruence| |]; (split; [vm_compute; reflexivity|]); (eapply N.le_trans; [|exact V]; vm_compute; discriminate).
Qed.

Lemma soc_adds en m v c rs : m <> ModeNone -> (8 <= v)%N -> Forall label_word (soc_names c) ->
  Forall2 word_line rs (soc_words c) -> all_add en m v rs (soc_listing c).
Proof.
  unfold label_word, soc_names, soc_calls. cbn [app]. intros Hm V H.
  assert (X : forall w, is_word w = true -> w <> []) by (intros [|x w] E; [discriminate|discriminate]).
  repeat match goal with H : Forall _ (_ :: _) |- _ => inversion H; clear H; subst end.
  unfold soc_words, soc_listing. intros F.
  repeat match goal with F : Forall2 _ _ (_ :: _) |- _ => inversion F; clear F; subst end.
  match goal with F : Forall2 _ _ [] |- _ => inversion F; clear F; subst end. cbn [fst] in *. cbn [all_add].
  repeat match goal with |- _ /\ _ => apply conj end; try exact I;
  match goal with
  | W : word_line ?l _ |- adds _ _ _ ?l EmptyExpr => apply adds_blank; exact W
  | W : word_line ?l _ |- adds _ _ _ ?l (LabelExpr _) => apply adds_label; [apply X; assumption|exact W]
  | W : word_line ?l _ |- adds _ _ _ ?l (BExpr _) => apply adds_b; [exact Hm|lia|exact W|lia]
  | W : word_line ?l _ |- adds _ _ _ ?l (SwitchExpr _) => apply adds_switch; [exact Hm|exact V|exact W|discriminate]
  | W : word_line ?l _ |- adds _ _ _ ?l (TxnExpr _) => apply adds_txn; [exact Hm|exact V|exact W]
  end.
Qed.

(* the skeleton by itself has nothing wrong *)
Lemma soc_lookup c i e : nth_error (soc_listing c) i = Some e ->
  In (i, e) (combine (seq 0 20) (soc_listing c)).
Proof.
  intros H. apply nth_error_In with (n := i). revert H. unfold soc_listing. do 20 (destruct i as [|i]; [cbn; intros E; injection E as <-; reflexivity|]).
  cbn. destruct i; discriminate.
Qed.

Ltac soc_cases H := apply soc_lookup in H; cbn [combine seq soc_listing In] in H;
  repeat (destruct H as [H|H]; [injection H; clear H; intros; subst; try discriminate|]); try contradiction.

Lemma soc_label c i n : Flow.defines (soc_listing c) i n ->
  nth_error [(2, sc_noop c); (5, sc_optin c); (8, sc_closeout c); (11, sc_clear c); (14, sc_update c); (17, sc_delete c); (19, sc_then c)] (i / 3) = Some (i, n).
Proof.
  unfold Flow.defines. intros H. soc_cases H; reflexivity.
Qed.
Lemma soc_once c : NoDup (soc_names c) -> Flow.unique_labels (soc_listing c).
Proof.
  intros N i j n A B. apply soc_label in A, B.
  assert (X : forall x y, nth_error (soc_names c) x = Some n -> nth_error (soc_names c) y = Some n -> x = y).
  { intros x y P Q. apply (proj1 (NoDup_nth_error _) N); [apply nth_error_Some; congruence|congruence]. }
  assert (Y : forall x d, nth_error [(2, sc_noop c); (5, sc_optin c); (8, sc_closeout c); (11, sc_clear c); (14, sc_update c); (17, sc_delete c); (19, sc_then c)] x = Some (d, n) ->
    nth_error (soc_names c) x = Some n).
  { intros x d. change (soc_names c) with (map snd [(2, sc_noop c); (5, sc_optin c); (8, sc_closeout c); (11, sc_clear c); (14, sc_update c); (17, sc_delete c); (19, sc_then c)]).
    intros E. rewrite (map_nth_error snd _ _ E). reflexivity. }
  pose proof (X _ _ (Y _ _ A) (Y _ _ B)) as E. rewrite E in A. congruence.
Qed.
Lemma soc_used c n : Flow.used (soc_listing c) n <-> In n (soc_names c).
Proof.
  split.
  - intros [i [e [E H]]]. soc_cases E; inversion H; subst; unfold soc_names; apply in_or_app; [left; assumption|..]; right; left; reflexivity.
  - unfold soc_names. intros H. apply in_app_or in H as [H|[<-|[]]].
    + exists 1, (SwitchExpr (soc_calls c)). split; [reflexivity|constructor; exact H].
    + exists 3, (BExpr (sc_then c)). split; [reflexivity|constructor].
Qed.
Lemma soc_defines c n : In n (soc_names c) -> exists i, Flow.defines (soc_listing c) i n.
Proof.
  unfold soc_names, soc_calls, Flow.defines. cbn [app In]. intros [<-|[<-|[<-|[<-|[<-|[<-|[<-|[]]]]]]]];
  [exists 2|exists 5|exists 8|exists 11|exists 14|exists 17|exists 19]; reflexivity.
Qed.
Lemma soc_defined c i n : Flow.defines (soc_listing c) i n -> In n (soc_names c).
Proof. unfold Flow.defines. intros H. soc_cases H; unfold soc_names, soc_calls; cbn [app In]; tauto. Qed.
Lemma soc_then_line c i : NoDup (soc_names c) -> Flow.defines (soc_listing c) i (sc_then c) -> i = 19.
Proof. intros N D. apply (soc_once c N i 19 (sc_then c) D). reflexivity. Qed.
(* behind each of its branches comes a call label *)
Lemma soc_jump c j e : nth_error (soc_listing c) j = Some e -> LintSpec.unconditional e ->
  e = BExpr (sc_then c) /\ j < 16 /\ (exists n, Flow.defines (soc_listing c) (j + 2) n) /\ forall i, j < i < j + 2 -> ~ LintSpec.instruction_at (soc_listing c) i.
Proof.
  intros H U. soc_cases H; inversion U; subst; (split; [reflexivity|]; split; [lia|]; split; [eexists; reflexivity|]);
  intros i L [e [E S]]; assert (X : i = 4 \/ i = 7 \/ i = 10 \/ i = 13 \/ i = 16) by lia; destruct X as [->|[->|[->|[->| ->]]]];
  injection E as <-; apply S; constructor.
Qed.
Lemma soc_alive c i : i = 20 \/ LintSpec.instruction_at (soc_listing c) i -> ~ LintSpec.after_unconditional (soc_listing c) i.
Proof.
  intros I [j [e [L [E [U H]]]]]. destruct (soc_jump c j e E U) as [_ [L2 [[n D] X]]].
  apply (H (j + 2) n); [|exact D|apply (proj2 (soc_used c n)); eapply soc_defined; exact D].
  split; [lia|]. destruct I as [->|I]; [lia|]. destruct (Nat.le_gt_cases (j + 2) i) as [G|G]; [exact G|]. destruct (X i (conj L G) I).
Qed.
Lemma soc_no_pragma c i : ~ LintSpec.pragma_at (soc_listing c) i.
Proof. intros [v H]. soc_cases H. Qed.
Lemma soc_sound c : NoDup (soc_names c) -> sound_program (soc_listing c).
Proof.
  intros N. constructor.
  - apply soc_once. exact N.
  - intros i n D. apply soc_used. eapply soc_defined. exact D.
  - intros i n U. apply soc_defines. apply (proj1 (soc_used c n)). exists i. exact U.
  - intros i I. apply soc_alive. auto.
  - intros i [n [k [E [L [D H]]]]]. destruct (soc_jump c i _ E (LintSpec.unc_b n)) as [X [L2 [[m Dm] _]]]. injection X as ->.
    apply soc_then_line in D; [|exact N]. subst k. destruct (H (i + 2)) as [e [E2 [_ S]]]; [lia|].
    unfold Flow.defines in Dm. rewrite Dm in E2. injection E2 as <-. apply (S m). reflexivity.
  - intros i [j [n [E [L [D _]]]]]. destruct (soc_jump c i _ E (LintSpec.unc_b n)) as [X [L2 _]]. injection X as ->.
    apply soc_then_line in D; [|exact N]. lia.
  - intros i j P. destruct (soc_no_pragma c i P).
Qed.

(* the lines of a document are in one of the two modes *)
Lemma mode_some m ls : m <> ModeNone -> last_mode m ls <> ModeNone.
Proof.
  revert m. induction ls as [|l ls IH]; intros m H; [exact H|]. cbn [last_mode]. apply IH. unfold mode_after.
  destruct (kind_of l); try exact H. match goal with |- context [if ?b then _ else _] => destruct b end; [discriminate|exact H].
Qed.
Lemma same_modes ls ls' : Forall2 same_texts ls ls' -> forall m, last_mode m ls = last_mode m ls'.
Proof.
  induction 1 as [|l l' ls ls' H _ IH]; intros m; [reflexivity|]. cbn [last_mode]. unfold mode_after at 2. rewrite <- (same_kind _ _ H). apply IH.
Qed.

(* lines put between two lines of a document whose lines are all in order *)
Lemma insert_doc_at en pre a post mid x ws es r0 : Lexes pre a -> ends_line a -> last pre c_lf = c_lf ->
  Lexes mid x -> ends_line x -> x <> [] -> last mid c_lf = c_lf ->
  (forall l, exists raw, Lines (fst (layout l 0 x)) raw /\ Forall2 word_line raw ws) ->
  process en (pre ++ post) = Ret r0 ->
  (forall ps w, ~ Lexes (pre ++ post) (ps ++ [POpen w])) ->
  (forall i l, nth_error (r_lines r0) i = Some l ->
     statement en (version_at i (r_lines r0)) l /\ available (mode_at i (r_lines r0)) (version_at i (r_lines r0)) l) ->
  (forall rs, Forall2 word_line rs ws -> all_add en (mode_at (eols a) (r_lines r0)) (version_at (eols a) (r_lines r0)) rs es) ->
  exists r, process en (pre ++ mid ++ post) = Ret r /\
    r_listing r0 = firstn (eols a) (r_listing r0) ++ skipn (eols a) (r_listing r0) /\ length (firstn (eols a) (r_listing r0)) = eols a /\
    r_listing r = firstn (eols a) (r_listing r0) ++ es ++ skipn (eols a) (r_listing r0) /\
    (forall ps w, ~ Lexes (pre ++ mid ++ post) (ps ++ [POpen w])) /\
    (forall i l, nth_error (r_lines r) i = Some l ->
       statement en (version_at i (r_lines r)) l /\ available (mode_at i (r_lines r)) (version_at i (r_lines r)) l).
Proof.
  intros L O E Lm Om Nm Em Wm P NO ST AD0.
  destruct (insert_pieces en pre a post mid x ws r0 L O E Lm Om Em Wm P) as [b [ra [rs [rb [rb' [ts [errs [raw [L0 [L1 [R0 [La [Ws [Sb [T [Li Co]]]]]]]]]]]]]]]].
  assert (F0 : all_fine en ModeApp 1 (ra ++ rb)) by (apply all_fine_nth; rewrite <- R0; exact ST).
  apply all_fine_app in F0 as [Fa Fb].
  assert (V : version_at (eols a) (r_lines r0) = last_version 1 ra).
  { unfold version_at. rewrite R0, <- La, firstn_app, Nat.sub_diag, firstn_all, firstn_O, app_nil_r. auto. }
  assert (Mo : mode_at (eols a) (r_lines r0) = last_mode ModeApp ra).
  { unfold mode_at. rewrite R0, <- La, firstn_app, Nat.sub_diag, firstn_all, firstn_O, app_nil_r. auto. }
  pose proof (AD0 rs Ws) as AD. rewrite V, Mo in AD.
  apply all_add_all in AD as [Fs [Es [Vs Ms]]].
  assert (Fn : all_fine en ModeApp 1 (ra ++ rs ++ rb')).
  { apply all_fine_app. split; [exact Fa|]. apply all_fine_app. split; [exact Fs|]. rewrite Vs, Ms. eapply same_fine; [exact Sb|exact Fb]. }
  destruct (process_returns en _ _ _ _ T Li) as [r Pr1]; [rewrite Co; eapply fine_surplus; exact Fn|].
  exists r. split; [exact Pr1|].
  destruct (process_result en _ r Pr1) as [ts1 [errs1 [raw1 [lds1 [T1 [Li1 [_ Ro]]]]]]].
  assert (Rl : r_lines r = ra ++ rs ++ rb').
  { rewrite (ro_lines _ _ _ _ _ _ _ Ro), <- Co. f_equal. rewrite T in T1. injection T1 as <- <-. eapply RoundTripLex.Lines_fun; eassumption. }
  destruct (process_result en _ r0 P) as [? [? [? [? [_ [_ [_ Ro0]]]]]]].
  assert (G0 : r_listing r0 = all_entries en 1 ra ++ all_entries en (last_version 1 ra) rb).
  { rewrite (ro_listing _ _ _ _ _ _ _ Ro0), R0. apply all_entries_app. }
  assert (G : r_listing r = all_entries en 1 ra ++ es ++ all_entries en (last_version 1 ra) rb).
  { rewrite (ro_listing _ _ _ _ _ _ _ Ro), Rl, all_entries_app, all_entries_app, Es, Vs. f_equal. f_equal. symmetry. apply (same_all_entries en _ _ Sb). }
  assert (Ln : length (all_entries en 1 ra) = eols a) by (rewrite (fine_length _ _ _ _ Fa); exact La).
  split; [symmetry; apply firstn_skipn|]. split; [|split; [|split]].
  - rewrite G0, <- Ln, firstn_app, Nat.sub_diag, firstn_all, firstn_O, app_nil_r. reflexivity.
  - rewrite G, G0, <- Ln, firstn_app, Nat.sub_diag, firstn_all, firstn_O, app_nil_r, skipn_app, Nat.sub_diag, skipn_all, skipn_O. reflexivity.
  - intros ps w Lx. pose proof (RoundTripExact.Lexes_fun _ _ L1 _ Lx) as X.
    destruct b as [|p b] using rev_ind.
    + rewrite app_nil_r in X. destruct Om as [Z|[q [z Z]]]; [contradiction|rewrite Z, app_assoc in X; apply app_inj_tail in X as [_ X]; discriminate].
    + clear IHb. rewrite !app_assoc in X. apply app_inj_tail in X as [_ ->]. rewrite app_assoc in L0. exact (NO _ _ L0).
  - intros i l Nx. rewrite Rl in *. exact (proj1 (all_fine_nth en _ ModeApp 1%N) Fn i l Nx).
Qed.
Lemma insert_doc en pre a post mid x ws es r0 : Lexes pre a -> ends_line a -> last pre c_lf = c_lf ->
  Lexes mid x -> ends_line x -> x <> [] -> last mid c_lf = c_lf ->
  (forall l, exists raw, Lines (fst (layout l 0 x)) raw /\ Forall2 word_line raw ws) ->
  process en (pre ++ post) = Ret r0 ->
  (forall ps w, ~ Lexes (pre ++ post) (ps ++ [POpen w])) ->
  (forall i l, nth_error (r_lines r0) i = Some l ->
     statement en (version_at i (r_lines r0)) l /\ available (mode_at i (r_lines r0)) (version_at i (r_lines r0)) l) ->
  (forall m rs, m <> ModeNone -> Forall2 word_line rs ws -> all_add en m (version_at (eols a) (r_lines r0)) rs es) ->
  exists r, process en (pre ++ mid ++ post) = Ret r /\
    r_listing r0 = firstn (eols a) (r_listing r0) ++ skipn (eols a) (r_listing r0) /\ length (firstn (eols a) (r_listing r0)) = eols a /\
    r_listing r = firstn (eols a) (r_listing r0) ++ es ++ skipn (eols a) (r_listing r0) /\
    (forall ps w, ~ Lexes (pre ++ mid ++ post) (ps ++ [POpen w])) /\
    (forall i l, nth_error (r_lines r) i = Some l ->
       statement en (version_at i (r_lines r)) l /\ available (mode_at i (r_lines r)) (version_at i (r_lines r)) l).
Proof.
  intros L O E Lm Om Nm Em Wm P NO ST AD. refine (insert_doc_at en pre a post mid x ws es r0 L O E Lm Om Nm Em Wm P NO ST _).
  intros rs F. apply AD; [|exact F]. unfold mode_at. apply mode_some. discriminate.
Qed.

Lemma soc_lines_words c : map fst (soc_lines c) = soc_words c.
Proof. reflexivity. Qed.

(* the dispatch skeleton typed into a document in which nothing is wrong *)
Theorem soc_clean en pre a post r0 c : Lexes pre a -> ends_line a -> last pre c_lf = c_lf ->
  process en (pre ++ post) = Ret r0 -> r_diag r0 = [] ->
  (8 <= version_at (eols a) (r_lines r0))%N ->
  Forall label_word (soc_names c) -> NoDup (soc_names c) ->
  (forall n, In n (soc_names c) -> ~ Flow.used (r_listing r0) n /\ forall i, ~ Flow.defines (r_listing r0) i n) ->
  alive_at (r_listing r0) (eols a) -> (forall i, eols a <= i -> ~ LintSpec.pragma_at (r_listing r0) i) ->
  exists r, process en (pre ++ inserted (soc_typed c post) soc_text) = Ret r /\ r_diag r = [] /\
    r_listing r = firstn (eols a) (r_listing r0) ++ soc_listing c ++ skipn (eols a) (r_listing r0).
Proof.
  intros L O E P D V W N Fr Al Pr. rewrite soc_text_words.
  destruct (proj1 (nothing_reported en _ r0 P) D) as [NO [ST SO]]. pose proof (soc_words_fine c W) as Wf.
  destruct (insert_doc en pre a post _ _ _ (soc_listing c) r0 L O E (word_text_lexes _ Wf) (text_pieces_ends _) ltac:(discriminate) (word_text_last _) (text_lines _ Wf) P NO ST) as [r [Pr1 [G0 [Ln [G [NO1 ST1]]]]]].
  { intros m rs M F. apply soc_adds; assumption. }
  exists r. split; [exact Pr1|]. split; [|exact G].
  apply (proj2 (nothing_reported en _ r Pr1)). split; [exact NO1|]. split; [exact ST1|].
  rewrite G. unfold alive_at in Al. remember (firstn (eols a) (r_listing r0)) as l1 eqn:R1. remember (skipn (eols a) (r_listing r0)) as l2 eqn:R2. clear R1 R2. rewrite G0 in *. rewrite <- Ln in Al, Pr. apply insert_sound; try assumption.
  - apply soc_sound. exact N.
  - intros m [U|[i Dm]]; apply Fr; [apply (proj1 (soc_used c m)); exact U|eapply soc_defined; exact Dm].
  - exists (TxnExpr on_completion). split; [reflexivity|]. intros X. inversion X.
  - apply soc_alive. left. reflexivity.
  - apply soc_no_pragma.
Qed.

(* below version 8 the skeleton is refused wherever it is typed *)
Theorem soc_needs_8 en pre a post r0 c r : Lexes pre a -> ends_line a -> last pre c_lf = c_lf ->
  process en (pre ++ post) = Ret r0 -> (version_at (eols a) (r_lines r0) < 8)%N -> Forall label_word (soc_names c) ->
  process en (pre ++ inserted (soc_typed c post) soc_text) = Ret r ->
  exists from to, In (Diag (S (eols a)) from to (KVersion 8 (version_at (eols a) (r_lines r0)))) (r_diag r).
Proof.
  intros L O E P V W P1. rewrite soc_text_words in P1. pose proof (soc_words_fine c W) as Wf.
  destruct (insert_pieces en pre a post _ _ _ r0 L O E (word_text_lexes _ Wf) (text_pieces_ends _) (word_text_last _) (text_lines _ Wf) P) as [b [ra [rs [rb [rb' [ts [errs [raw [L0 [L1 [R0 [La [Ws [Sb [T [Li Co]]]]]]]]]]]]]]]].
  destruct (process_result en _ r P1) as [ts1 [errs1 [raw1 [lds1 [T1 [Li1 [_ Ro]]]]]]].
  assert (Rl : r_lines r = ra ++ rs ++ rb').
  { rewrite (ro_lines _ _ _ _ _ _ _ Ro), <- Co. f_equal. rewrite T in T1. injection T1 as <- <-. eapply RoundTripLex.Lines_fun; eassumption. }
  rewrite soc_lines_words in Ws. unfold soc_words in Ws. inversion Ws as [|l0 ? rs0 ? W0 Ws0]; subst. inversion Ws0 as [|l1 ? rs1 ? W1 _]; subst.
  destruct l1 as [|t l1]; [destruct W1; discriminate|]. destruct l0 as [|t0 l0]; [destruct W0; discriminate|].
  pose proof (word_kind _ _ _ _ W1) as K1. pose proof (word_kind _ _ _ _ W0) as K0. cbn -[kind_of] in K1, K0.
  assert (V0 : version_at (eols a) (r_lines r0) = last_version 1 ra).
  { unfold version_at. rewrite R0, <- La, firstn_app, Nat.sub_diag, firstn_all, firstn_O, app_nil_r. auto. }
  assert (X : forall A (u : list A) p v, firstn (S (length u)) (u ++ p :: v) = u ++ [p]) by (intros A u; induction u as [|y u IH]; intros p v; [reflexivity|]; cbn [length app firstn]; f_equal; apply IH).
  assert (F : firstn (S (eols a)) (r_lines r) = ra ++ [t0 :: l0]) by (rewrite Rl, <- La; cbn [app]; apply X).
  assert (V1 : version_at (S (eols a)) (r_lines r) = last_version 1 ra).
  { unfold version_at. rewrite F. clear - K0. assert (Y : forall v, last_version v (ra ++ [t0 :: l0]) = last_version v ra); [|apply Y].
    induction ra as [|y ra IH]; intros v; cbn [app last_version]; [unfold version_after; rewrite K0; reflexivity|apply IH]. }
  assert (N1 : nth_error (r_lines r) (S (eols a)) = Some (t :: l1)).
  { rewrite Rl, nth_error_app2 by lia. replace (S (eols a) - length ra) with 1 by lia. reflexivity. }
  assert (M : mode_at (S (eols a)) (r_lines r) <> ModeNone) by (apply mode_some; discriminate).
  exists (tok_b t), (tok_e t). apply (proj2 (reports_exact en _ r _ P1)). rewrite V0, <- V1. eapply RVersion; [exact N1|exact K1| |rewrite V1, <- V0; exact V].
  destruct (mode_at (S (eols a)) (r_lines r)); [congruence| |]; reflexivity.
Qed.
