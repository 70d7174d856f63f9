(** Text-level properties: semantic tokens, ranges, lines, literals (C26, C27, C45, C54, C55, C61). *)
From Verif Require Import Base Lexer LexSpec LexStatements DocLines DocProofs DocTokens
  Semantics SemanticsProofs Strconv Literals LiteralsProofs.

(** C26: whatever order sort.Sort leaves equal positions in, decoding the result gives the tokens
    back, sorted; ... *)
Theorem C26_encode_lossless : forall ts r,
  Forall token_fits ts -> encodes ts r ->
  exists s, decode r = Some s /\ Permutation ts s /\ StronglySorted in_order s.
Proof. exact encode_lossless. Qed.
Print Assumptions C26_encode_lossless.

(** ... a result exists, it has five numbers per token, ... *)
Theorem C26_encode_total : forall ts, exists r, encodes ts r.
Proof. exact encode_exists. Qed.
Print Assumptions C26_encode_total.

Theorem C26_encode_size : forall ts r, encodes ts r -> length r = 5 * length ts.
Proof. exact encode_length. Qed.
Print Assumptions C26_encode_size.

(** ... and it is unique when no two tokens share a position. *)
Theorem C26_encode_determined : forall ts r r',
  (forall a b, In a ts -> In b ts -> same_place a b -> a = b) ->
  encodes ts r -> encodes ts r' -> r = r'.
Proof. exact encode_unique. Qed.
Print Assumptions C26_encode_determined.

Example C26_nonvacuous :
  let ts := [SToken 2 4 1 0 0; SToken 0 3 2 1 0; SToken 2 0 3 5 1] in
  Forall token_fits ts /\
  encodes ts [0; 3; 2; 1; 0;  2; 0; 3; 5; 1;  0; 4; 1; 0; 0]%Z.
Proof.
  split.
  - repeat constructor; cbn; unfold fits32; lia.
  - exists [SToken 0 3 2 1 0; SToken 2 0 3 5 1; SToken 2 4 1 0 0]. split; [split|reflexivity].
    + apply perm_trans with [SToken 0 3 2 1 0; SToken 2 4 1 0 0; SToken 2 0 3 5 1]; repeat constructor.
    + repeat constructor.
Qed.

(** C27: the overlap test is symmetric, ... *)
Theorem C27_symmetric : forall a b, overlaps a b = overlaps b a.
Proof. exact overlaps_sym. Qed.
Print Assumptions C27_symmetric.

(** ... and exact for ranges on a single line. *)
Theorem C27_single_line : forall a b,
  single_line a -> single_line b -> proper a -> proper b ->
  (overlaps a b = true <-> exists l c, in_range a l c /\ in_range b l c).
Proof. exact overlaps_single_line. Qed.
Print Assumptions C27_single_line.

Example C27_nonvacuous :
  overlaps (Range 3 1 3 4) (Range 3 4 3 9) = true /\ overlaps (Range 3 1 3 4) (Range 3 5 3 9) = false.
Proof. split; reflexivity. Qed.

(** For ranges over several lines a positive answer is right, ... *)
Theorem C27_sound : forall a b, proper a -> proper b -> overlaps a b = true ->
  exists l c, in_range a l c /\ in_range b l c.
Proof. exact overlaps_sound. Qed.
Print Assumptions C27_sound.

(** ... a negative one may be wrong. *)
Theorem C27_multi_line_refuted :
  exists a b, proper a /\ proper b /\ overlaps a b = false /\
              exists l c, in_range a l c /\ in_range b l c.
Proof.
  exists (Range 0 10 1 0), (Range 0 12 0 15). unfold proper, in_range. cbn.
  repeat split; try lia. exists 0%Z, 12%Z. lia.
Qed.
Print Assumptions C27_multi_line_refuted.

(** C45: splitLines cuts a text into its lines ([lines_of]: terminators \n, \r\n and a lone \r,
    nothing else, terminators and lines make up the text). *)
Theorem C45_split_lines : forall s ls, split_lines s = Ret ls <-> lines_of s ls.
Proof. exact split_lines_iff. Qed.
Print Assumptions C45_split_lines.

Theorem C45_total : forall s, exists ls, split_lines s = Ret ls /\ ls <> [].
Proof. exact split_lines_total. Qed.
Print Assumptions C45_total.

Example C45_nonvacuous :
  split_lines (bs "a" ++ [c_cr; c_lf; c_cr] ++ bs "b" ++ [c_lf]) = Ret [bs "a"; []; bs "b"; []].
Proof. vm_compute. reflexivity. Qed.

(** C54: a quoted literal is accepted exactly when its body is well formed, with that meaning; *)
Theorem C54_literal_accepts : forall body v,
  parse_string_literal (c_quote :: body ++ [c_quote]) = Ret (Some v) <-> denotes body v.
Proof. exact literal_accepts. Qed.
Print Assumptions C54_literal_accepts.

(** ... nothing without the two quotes is accepted (except the lone quote below), ... *)
Theorem C54_needs_quotes_partial : forall s v, s <> [c_quote] ->
  parse_string_literal s = Ret (Some v) -> exists body, s = c_quote :: body ++ [c_quote] /\ denotes body v.
Proof. exact literal_needs_quotes. Qed.
Print Assumptions C54_needs_quotes_partial.

(** ... nonempty input never crashes it, ... *)
Theorem C54_no_panic_partial : forall s, s <> [] -> exists r, parse_string_literal s = Ret r.
Proof. exact literal_no_panic. Qed.
Print Assumptions C54_no_panic_partial.

(** ... and every byte string can be written as a literal and is read back. *)
Theorem C54_round_trip : forall v,
  parse_string_literal (c_quote :: escape_all v ++ [c_quote]) = Ret (Some v).
Proof. exact literal_round_trip. Qed.
Print Assumptions C54_round_trip.

Theorem C54_meaning_determined : forall body v v', denotes body v -> denotes body v' -> v = v'.
Proof. exact (fun body v v' H H' => denotes_unique body v H v' H'). Qed.
Print Assumptions C54_meaning_determined.

(** One quote is accepted as an empty literal, the empty text crashes. *)
Theorem C54_refuted :
  parse_string_literal [c_quote] = Ret (Some []) /\ parse_string_literal [] = Panic.
Proof. split; reflexivity. Qed.
Print Assumptions C54_refuted.

Example C54_nonvacuous :
  parse_string_literal (c_quote :: bs "a\n\x4a\\" ++ [c_quote]) =
    Ret (Some (bs "a" ++ [c_lf] ++ bs "J\")) /\
  parse_string_literal (c_quote :: bs "\q" ++ [c_quote]) = Ret None /\
  parse_string_literal (c_quote :: bs "\x4" ++ [c_quote]) = Ret None.
Proof. repeat split; vm_compute; reflexivity. Qed.

(** C55: unsigned and signed 8-bit immediates. *)
Theorem C55_uint8 : forall s n, read_uint8 s = Some n <-> is_numeral s n /\ (n < 256)%N.
Proof. exact read_uint8_spec. Qed.
Print Assumptions C55_uint8.

Theorem C55_int8 : forall s z,
  read_int8 s = Some z <-> is_signed_numeral s z /\ (-128 <= z < 128)%Z.
Proof. exact read_int8_spec. Qed.
Print Assumptions C55_int8.

Example C55_nonvacuous :
  read_uint8 "255" = Some 255%N /\ read_uint8 "256" = None /\ read_uint8 "0x10" = None /\
  read_uint8 "0010" = Some 10%N /\ read_int8 "-128" = Some (-128)%Z /\ read_int8 "128" = None /\
  read_int8 "+7" = Some 7%Z.
Proof. repeat split; vm_compute; reflexivity. Qed.

(** C61: as long as no quoted string contains a line terminator, a token is found on the line and
    between the columns of the document that it names, and there is one line per end-of-line
    token plus one. *)
Theorem C61_tokens_on_lines_partial : forall src ps ts errs ls,
  Lexes src ps -> strings_on_one_line ps -> tokenize src = Ret (ts, errs) -> lines_of src ls ->
  length ls = S (length (filter is_eol_tok ts)) /\
  forall t, In t ts -> tok_t t <> TokEol ->
    exists line pre raw post, nth_error ls (tok_l t) = Some line /\ line = pre ++ raw ++ post /\
      tok_b t = length pre /\ tok_e t = length (pre ++ raw) /\ token_text t raw.
Proof. exact tokens_on_lines. Qed.
Print Assumptions C61_tokens_on_lines_partial.

Example C61_nonvacuous :
  exists ts, tokenize (bs "int 1" ++ [c_lf] ++ bs " pop") = Ret (ts, []) /\
             nth_error ts 3 = Some (Token "pop" 1 1 4 TokValue).
Proof. eexists. split; vm_compute; reflexivity. Qed.

(** A string that runs over a line end shifts everything below it: the last token of this text is
    on the second line of the document but is reported on the first. *)
Theorem C61_refuted : exists src ts ls t,
  tokenize src = Ret (ts, []) /\ lines_of src ls /\ In t ts /\ tok_t t = TokValue /\
  tok_v t = bs "pop" /\ length ls = 2 /\ tok_l t = 0 /\
  (forall line, nth_error ls (tok_l t) = Some line -> ~ exists pre post, line = pre ++ bs "pop" ++ post).
Proof.
  exists (c_quote :: bs "a" ++ [c_lf] ++ bs "b" ++ [c_quote] ++ bs " pop").
  eexists. exists [c_quote :: bs "a"; bs "b" ++ [c_quote] ++ bs " pop"].
  exists (Token "pop" 0 6 9 TokValue).
  split; [vm_compute; reflexivity|].
  split. { apply (lines_lf (c_quote :: bs "a")); [|apply lines_last]; split; vm_compute; intuition discriminate. }
  split; [right; left; reflexivity|]. repeat split.
  intros line E. injection E as <-. intros [pre [post E]].
  apply (f_equal (@length _)) in E. rewrite !app_length in E. cbn in E. lia.
Qed.
Print Assumptions C61_refuted.
