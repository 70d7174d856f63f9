(** C01-C06: the lexer.  Only theorem statements; proofs are in LexerThms.v. *)
From Verif Require Import Base Utf8 Lexer LexSpec LexStatements LexerProofs LexerThms.

(** C01: scanning any source finishes without a panic, with at most one token per byte. *)
Theorem C01_lexing_total : forall src : str,
  exists ts errs, tokenize src = Ret (ts, errs) /\ length ts <= length src.
Proof. exact tokenize_total. Qed.
Print Assumptions C01_lexing_total.

Example C01_nonvacuous : exists ts, tokenize "int 1 // x" = Ret (ts, []) /\ length ts = 3.
Proof. eexists; split; vm_compute; reflexivity. Qed.

(** C02: blanks and tokens tile the source; the only other text is an open string at the end. *)
Theorem C02_tokens_tile_source : forall src ts errs, tokenize src = Ret (ts, errs) ->
  exists segs tail, Tiles src ts segs tail /\
    (errs = [] -> blank_tail tail) /\ (errs <> [] -> open_string_tail tail).
Proof. exact tokenize_tiles_tail. Qed.
Print Assumptions C02_tokens_tile_source.

Example C02_nonvacuous :
  exists e, tokenize "byte ""a\""b"" ""oops" = Ret ([Token "byte" 0 0 4 TokValue;
     Token """a""b""" 0 5 11 TokValue], [e]).
Proof. eexists; vm_compute; reflexivity. Qed.

(** C03: positions are line-relative byte offsets, lines count end-of-line tokens, and
    positions strictly increase. *)
Theorem C03_token_positions : forall src ts errs, tokenize src = Ret (ts, errs) ->
  (exists segs tail, Tiles src ts segs tail /\ Placed 0 0 0 segs ts) /\
  (forall k t, nth_error ts k = Some t -> tok_l t = length (filter is_eol_tok (firstn k ts))) /\
  (forall i j t u, i < j -> nth_error ts i = Some t -> nth_error ts j = Some u -> pos_lt t u).
Proof. exact tokenize_positions. Qed.
Print Assumptions C03_token_positions.

Example C03_nonvacuous :
  exists ts, tokenize (bs "a" ++ [c_cr; c_lf] ++ bs " b") = Ret (ts, []) /\
             nth_error ts 2 = Some (Token "b" 1 1 2 TokValue).
Proof. eexists; split; vm_compute; reflexivity. Qed.

(** C04: an error if and only if the source ends inside a quoted string; one error, and the
    tokens before the opening quote are those of the text before it. *)
Theorem C04_errors_are_open_strings : forall src ts errs, tokenize src = Ret (ts, errs) ->
  (errs <> [] <-> exists ps w, Lexes src (ps ++ [POpen w])) /\
  (errs <> [] -> exists pre w l c, src = pre ++ c_quote :: w /\ quotes_escaped w /\
                   tokenize pre = Ret (ts, []) /\ errs = [LexErr l c IncompleteString]).
Proof. exact tokenize_errors. Qed.
Print Assumptions C04_errors_are_open_strings.

Example C04_nonvacuous : exists ts, tokenize "int 1 ""x" = Ret (ts, [LexErr 0 8 IncompleteString]).
Proof. eexists; vm_compute; reflexivity. Qed.

(** C05: any interleaving of Scan, Return and Curr behaves as a cursor over the token list. *)
Theorem C05_lexer_is_cursor : forall src ts errs, tokenize src = Ret (ts, errs) ->
  forall ops, run_lexer ops (new_lexer src) = Ret (run_cursor ts None ops).
Proof. exact lexer_is_cursor. Qed.
Print Assumptions C05_lexer_is_cursor.

Example C05_nonvacuous :
  run_lexer [OCurr; OScan; OScan; OReturn; OCurr; OReturn] (new_lexer "a b") =
  Ret [OutTok None; OutBool true; OutBool true; OutBool true; OutTok (Some (Token "a" 0 0 1 TokValue));
       OutBool false].
Proof. vm_compute; reflexivity. Qed.

(** C06: the rune-wise lexer computes the byte-wise grammar of LexSpec.v, ... *)
Theorem C06_bytewise : forall src, exists ps, Lexes src ps /\ tokenize src = Ret (layout 0 0 ps).
Proof.
  exact (fun src => match lexes_exists src with
                    | ex_intro _ ps H => ex_intro _ ps (conj H (tokenize_spec src ps H)) end).
Qed.
Print Assumptions C06_bytewise.

(** ... so replacing non-delimiter bytes by any other non-delimiter bytes (in particular the
    bytes of multi-byte or malformed sequences) moves no token boundary. *)
Theorem C06_encoding_independent : forall g : ascii -> ascii,
  (forall c, special (g c) <-> special c) -> (forall c, special c -> g c = c) ->
  forall src ts errs, tokenize src = Ret (ts, errs) ->
  tokenize (map g src) = Ret (map (map_token g) ts, errs).
Proof. exact tokenize_map. Qed.
Print Assumptions C06_encoding_independent.

(** Truncated three-byte sequence directly before a delimiter. *)
Example C06_nonvacuous :
  tokenize (map ascii_of_nat [226; 130; 32; 228; 10; 97]) =
  Ret ([Token (map ascii_of_nat [226; 130]) 0 0 2 TokValue; Token [ascii_of_nat 228] 0 3 4 TokValue;
        Token [c_lf] 0 4 5 TokEol; Token "a" 1 0 1 TokValue], []).
Proof. vm_compute; reflexivity. Qed.
