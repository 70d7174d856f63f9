(* Property C115: comments and blank lines mean nothing. *)
From Verif Require Import Base LexSpec Lexer Expr Linter OpTable Process ProcessSpec RoundTripSpec RoundTripLex FixLines QuietSpec QuietProofs PropProcess.
From Coq Require Import Permutation.

(* not in general: the linter may crash over a document with surplus operands, and does not with a blank line at its end *)
Theorem C115_refuted : exists src r, process env0 src = Panic /\ process env0 (src ++ [c_lf]) = Ret r.
Proof.
  exists (lines ["err 1"; "x:"]). eexists. split; vm_compute; reflexivity.
Qed.
Print Assumptions C115_refuted.

(* A blank or comment line put between two lines of a document without surplus operands: the same complaints in the same columns, those
   behind it one line further down, the same version and mode, and the same program with an empty line in it. *)
Theorem C115_partial en pre a post w eol r : Lexes pre a -> ends_line a -> last pre c_lf = c_lf ->
  quiet w -> eol = [c_lf] \/ eol = [c_cr; c_lf] ->
  process en (pre ++ post) = Ret r -> (forall d, In d (r_diag r) -> dg_kind d <> KParse RTooMany) ->
  let k := eols a in
  exists r', process en (pre ++ (w ++ eol) ++ post) = Ret r' /\ Permutation (r_diag r') (map (diag_down k) (r_diag r)) /\
    r_listing r' = firstn k (r_listing r) ++ EmptyExpr :: skipn k (r_listing r) /\ r_version r' = r_version r /\ r_mode r' = r_mode r.
Proof. intros L E Z Q El P N. exact (quiet_added en pre post a w eol L E Z Q El r P N). Qed.
Print Assumptions C115_partial.

(* Taken away again, the same holds the other way round. *)
Theorem C115_away_partial en pre a post w eol r' : Lexes pre a -> ends_line a -> last pre c_lf = c_lf ->
  quiet w -> eol = [c_lf] \/ eol = [c_cr; c_lf] ->
  process en (pre ++ (w ++ eol) ++ post) = Ret r' -> (forall d, In d (r_diag r') -> dg_kind d <> KParse RTooMany) ->
  let k := eols a in
  exists r, process en (pre ++ post) = Ret r /\ Permutation (r_diag r') (map (diag_down k) (r_diag r)) /\
    r_listing r' = firstn k (r_listing r) ++ EmptyExpr :: skipn k (r_listing r) /\ r_version r = r_version r' /\ r_mode r = r_mode r'.
Proof.
  intros L E Z Q El P N. destruct (quiet_removed en pre post a w eol L E Z Q El r' P N) as (r & P0 & N0).
  destruct (quiet_added en pre post a w eol L E Z Q El r P0 N0) as (r'' & P' & H1 & H2 & H3 & H4).
  rewrite P in P'. injection P' as <-. exists r. auto.
Qed.
Print Assumptions C115_away_partial.

(* The same for a listing: everything there is to be found, and nothing else, is found one line further down. *)
Theorem C115_listing l1 l2 e : DiagSpec.finding (l1 ++ EmptyExpr :: l2) e <->
  exists e0, e = error_down (length l1) e0 /\ DiagSpec.finding (l1 ++ l2) e0.
Proof.
  split; [apply finding_big|]. intros (e0 & -> & F). apply finding_down. exact F.
Qed.
Print Assumptions C115_listing.

Definition top : list (list str * bool) := [([bs "#pragma"; bs "version"; bs "2"], false); ([bs "int"; bs "1"], false); ([bs "b"; bs "x"], true)].
Definition rest : str := lines ["txn Fee"; "switch y y"; "x:"; "bogus"; "#pragma version 3"; "byte ""open"].
Definition note : str := bs "  // note ""x".
Example C115_ex : Lexes (word_text top) (text_pieces top) /\ ends_line (text_pieces top) /\ eols (text_pieces top) = 3 /\
  last (word_text top) c_lf = c_lf /\ quiet note /\
  match process env0 (word_text top ++ rest), process env0 (word_text top ++ (note ++ [c_cr; c_lf]) ++ rest) with
  | Ret r, Ret r' =>
      map (fun d => (dg_line d, dg_b d)) (r_diag r) = [(8, 11); (4, 0); (6, 0); (8, 0); (3, 0); (4, 0); (4, 0); (4, 0); (7, 0)] /\
      r_diag r' = map (diag_down 3) (r_diag r) /\ forallb (fun d => match dg_kind d with KParse RTooMany => false | _ => true end) (r_diag r) = true
  | _, _ => False end.
Proof.
  split; [apply word_text_lexes; repeat constructor|]. split; [apply InsertDoc.text_pieces_ends|]. split; [reflexivity|]. split; [reflexivity|]. split.
  - apply (quiet_comment (bs "  ") (bs " note ""x")).
    + repeat constructor.
    + repeat constructor; intros [H|H]; discriminate H.
    + vm_compute. discriminate.
  - vm_compute. repeat split.
Qed.
