(* Property C94: programs built with the functions and variables of the package. *)
From Verif Require Import Base LexSpec Expr Fields OpTable Codec Compiler Print Process RoundTripSpec RoundTrip PropProcess Builders BuilderSpec BuilderProofs BuilderBytes.
From Coq Require Import String.

(* the text of a program in version 10 with one more line *)
Definition after_version_10 (s : str) : str := bs "#pragma version 10" ++ c_lf :: s ++ [c_lf].

(* the text Compile gives for one string is read back as that string *)
Definition string_kept (v : str) : Prop :=
  exists s r f, text_of [StringBytes v] = Ret s /\ process env0 s = Ret r /\ r_listing r = [ByteExpr v f].

(* Cover makes an uncover; ExtractUint64 is misspelt in the text; no block can be compiled; the text
   of StringBytes does not escape its argument *)
Theorem C94_refuted :
  (exists t s, called_for t s /\ text_of [t] <> Ret (s ++ [c_lf])) /\
  (exists v e o, In (v, e) variables /\ In (v, o) opcodes /\ print e <> Ret (bs o)) /\
  (exists t es, combines t es /\ text_of [t] = Panic) /\
  (exists v, ~ string_kept v).
Proof.
  split; [|split; [|split]].
  - exists (Cover 1), (bs "cover " ++ dec 1). split; [constructor|]. vm_compute. discriminate.
  - exists "ExtractUint64"%string, (Op0 ExtractUint64Expr), "extract_uint64"%string.
    split; [|split; [|vm_compute; discriminate]]; apply nth_error_In with 81; reflexivity.
  - exists (Plus (Int 1) (Int 2)), [IntExpr 1; IntExpr 2; Op0 PlusExpr]. split; [apply co_plus|reflexivity].
  - exists [c_quote]. intros [s [r [f [T [P L]]]]]. rewrite string_bytes_text in T. injection T as <-.
    destruct (proj1 (string_bytes_read env0 [c_quote])) as [N _]; [exists r, f; split; assumption|].
    apply N. left. reflexivity.
Qed.
Print Assumptions C94_refuted.

(* a string is kept exactly when it contains neither a quote nor a backslash *)
Theorem C94_strings en v :
  (exists s r f, text_of [StringBytes v] = Ret s /\ process en s = Ret r /\ r_listing r = [ByteExpr v f]) <->
  ~ In c_quote v /\ ~ In c_bslash v.
Proof.
  rewrite <- (string_bytes_read en v). split.
  - intros [s [r [f [T [P L]]]]]. rewrite string_bytes_text in T. injection T as <-. exists r, f. split; assumption.
  - intros [r [f [P L]]]. exists (string_text v), r, f. split; [apply string_bytes_text|]. split; assumption.
Qed.
Print Assumptions C94_strings.
Example C94_strings_ex : (~ In c_quote (bs "ok") /\ ~ In c_bslash (bs "ok")) /\ ~ (~ In c_quote (bs "a\n") /\ ~ In c_bslash (bs "a\n")).
Proof. split; [split; intros [H|[H|[]]]; discriminate|]. intros [_ N]. apply N. right. left. reflexivity. Qed.

(* every other builder of one instruction makes the line it is called for *)
Theorem C94_partial t s : called_for t s -> (forall n, t <> Cover n) -> text_of [t] = Ret (s ++ [c_lf]).
Proof. exact (called_for_text t s). Qed.
Print Assumptions C94_partial.

(* instructions and lists of them, however deep, come out line by line; everything else is a panic *)
Theorem C94_lists ts : ((forall t, In t ts -> flat t) -> text_of ts = print_listing (flat_map content ts)) /\
  (text_of ts = Panic <-> exists t, In t ts /\ ~ flat t).
Proof. split; [apply text_flat|apply text_panics]. Qed.
Print Assumptions C94_lists.

(* ... and are read back, when each instruction is one that survives printing (C13) *)
Theorem C94_read_back en ts : (forall t, In t ts -> flat t) -> all_survive en 1 (flat_map content ts) = true ->
  exists s r, text_of ts = Ret s /\ process en s = Ret r /\ r_listing r = flat_map content ts.
Proof.
  intros F A. rewrite text_flat by exact F. apply listing_round_trip. exact A.
Qed.
Print Assumptions C94_read_back.

(* the builders of several instructions hold the right ones in the right order, and cannot be compiled,
   alone or within a program *)
Theorem C94_blocks t es : combines t es -> content t = es /\ forall before after, text_of (before ++ t :: after) = Panic.
Proof.
  intros C. split; [apply combines_content; exact C|]. intros before after. apply text_panics. exists t. split.
  - apply in_or_app. right. left. reflexivity.
  - apply combines_nested with es. exact C.
Qed.
Print Assumptions C94_blocks.

(* every other variable prints the opcode it is named after, which is an opcode of the table; Process
   reads the line as an instruction with the same text *)
Definition var_ok (v : string) (e : expr) (o : string) : Prop :=
  print e = Ret (bs o) /\
  exists r, process env0 (after_version_10 (bs o)) = Ret r /\ print_listing (r_listing r) = Ret (after_version_10 (bs o)).
Definition var_okb (x : string * expr) (y : string * string) : bool :=
  String.eqb (fst x) (fst y) &&
  (String.eqb (fst x) "ExtractUint64" ||
   match print (snd x) with Ret s => seqb s (bs (snd y)) | _ => false end &&
   match process env0 (after_version_10 (bs (snd y))) with
   | Ret r => match print_listing (r_listing r) with Ret s => seqb s (after_version_10 (bs (snd y))) | _ => false end
   | _ => false
   end)%bool.
Fixpoint all2 (xs : list (string * expr)) (ys : list (string * string)) : bool :=
  match xs, ys with
  | [], [] => true
  | x :: xs, y :: ys => var_okb x y && all2 xs ys
  | _, _ => false
  end.
Lemma all2_checked : all2 variables opcodes = true.
Proof. exact (eq_refl true <: all2 variables opcodes = true). Qed.
Lemma all2_sound xs ys : all2 xs ys = true ->
  map fst xs = map fst ys /\
  forall i v e o, nth_error xs i = Some (v, e) -> nth_error ys i = Some (v, o) -> v <> "ExtractUint64"%string -> var_ok v e o.
Proof.
  revert ys. induction xs as [|x xs IH]; intros [|y ys] H; cbn in H; try discriminate.
  - split; [reflexivity|]. intros [|i] ? ? ? E; discriminate.
  - apply andb_prop in H as [H1 H2]. destruct (IH ys H2) as [M K].
    unfold var_okb in H1. apply andb_prop in H1 as [Hn Ho]. apply String.eqb_eq in Hn. split; [cbn; f_equal; assumption|].
    intros [|i] v e o Ex Ey N; cbn in Ex, Ey; [|apply (K i); assumption].
    injection Ex as ->. injection Ey as ->. cbn [fst snd] in *. apply orb_prop in Ho as [Ho|Ho]; [apply String.eqb_eq in Ho; contradiction|].
    apply andb_prop in Ho as [P Q]. destruct (print e) as [s| |] eqn:E; try discriminate. apply seqb_eq in P. subst s.
    split; [exact E|]. destruct (process env0 (after_version_10 (bs o))) as [r| |]; try discriminate. exists r. split; [reflexivity|].
    destruct (print_listing (r_listing r)) as [s| |]; try discriminate. apply seqb_eq in Q. subst s. reflexivity.
Qed.
Theorem C94_variables : map fst variables = map fst opcodes /\ forall i v e o,
  nth_error variables i = Some (v, e) -> nth_error opcodes i = Some (v, o) -> v <> "ExtractUint64"%string -> var_ok v e o.
Proof. exact (all2_sound variables opcodes all2_checked). Qed.
Print Assumptions C94_variables.

Example C94_ex : called_for (Arg 2) (bs "txna ApplicationArgs 2") /\ text_of [Arg 2] = Ret (bs "txna ApplicationArgs 2" ++ [c_lf]).
Proof. split; [exact (cf_arg 2)|reflexivity]. Qed.
Example C94_read_back_ex :
  let ts := [TOp (PragmaExpr 8); TList [Int 1; TList [Bnz (bs "x")]; TOp ErrExpr]; Label (bs "x"); Arg 1] in
  (forall t, In t ts -> flat t) /\ all_survive env0 1 (flat_map content ts) = true.
Proof.
  split; [|vm_compute; reflexivity].
  intros t [<-|[<-|[<-|[<-|[]]]]]; try constructor. intros u [<-|[<-|[<-|[]]]]; constructor. intros v [<-|[]]. constructor.
Qed.
Example C94_variables_ex : List.length variables = 118 /\ nth_error variables 10 <> None.
Proof. split; [reflexivity|discriminate]. Qed.
Example C94_blocks_ex : combines (AssertLen (Arg 0) 32) [TxnaExpr 26 0; Op0 LenExpr; IntExpr 32; Op0 EqExpr; Op0 AssertExpr].
Proof. exact (co_len (Arg 0) 32). Qed.
