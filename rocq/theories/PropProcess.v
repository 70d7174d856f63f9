(* Properties C07-C12 and the pragma part of C55: Process on whole documents. *)
From Verif Require Import Base Lexer Expr Linter OpTable Codec Print Process ProcessSpec ProcessThms AvmVersions ProcessAvm.

(* any environment will do; this one knows no base32 text and accepts every address *)
Definition env0 : env := Env (fun _ => None) (fun _ => true).
Definition lines (ls : list string) : str := concat (map (fun l => bs l ++ [ascii_of_nat 10]) ls).

(* ---------------------------------------------------------------- C07: Process never panics *)
(* A line with too many values yields two listing entries, so the linter may name a listing index
   that is no line of the document; indexing the lines with it panics. *)
Theorem C07_refuted : exists src, process env0 src = Panic.
Proof. exists (lines ["err 1"; "x:"]). vm_compute. reflexivity. Qed.
Print Assumptions C07_refuted.

(* It always either returns or panics in exactly that way, and it never diverges. *)
Theorem C07_outcome en src : exists ts errs raw,
  tokenize src = Ret (ts, errs) /\ Lines ts raw /\
  ((exists r, process en src = Ret r) \/
   (process en src = Panic /\
    exists e, In e (lint (all_entries en 1 (map code_of raw))) /\ length raw <= le_line e)).
Proof. exact (process_outcome en src). Qed.
Print Assumptions C07_outcome.

Theorem C07_partial en src ts errs raw : tokenize src = Ret (ts, errs) -> Lines ts raw ->
  all_surplus en 1 (map code_of raw) = 0 -> exists r, process en src = Ret r.
Proof. exact (process_returns en src ts errs raw). Qed.
Print Assumptions C07_partial.
Example C07_ex : match process env0 (lines ["#pragma version 8"; "int 1"; "x:"; "bogus"; "b y"; "byte 0x1"; "txn"]) with
  Ret r => length (r_diag r) = 5 | _ => False end.
Proof. vm_compute. reflexivity. Qed.

(* ---------------------------------------------------------------- C08: one entry per line *)
Theorem C08_refuted : exists src r, process env0 src = Ret r /\ length (r_listing r) <> length (r_lines r).
Proof.
  exists (lines ["err 1"]).
  destruct (process env0 (lines ["err 1"])) as [r| |] eqn:E; vm_compute in E; try discriminate.
  injection E as <-. eexists. split; [reflexivity|]. vm_compute. discriminate.
Qed.
Print Assumptions C08_refuted.

(* one further entry for every "too many values" diagnostic, and no other deviation *)
Theorem C08_length en src r : process en src = Ret r ->
  length (r_listing r) = length (r_lines r) + length (filter is_surplus_diag (r_diag r)).
Proof. exact (listing_length en src r). Qed.
Print Assumptions C08_length.

Theorem C08_partial en src r : process en src = Ret r -> filter is_surplus_diag (r_diag r) = [] ->
  length (r_listing r) = length (r_lines r) /\
  forall i l, nth_error (r_lines r) i = Some l ->
    exists e, nth_error (r_listing r) i = Some e /\ entries en (last_version 1 (firstn i (r_lines r))) l = [e].
Proof. exact (listing_lines en src r). Qed.
Print Assumptions C08_partial.
Example C08_ex : match process env0 (lines ["#pragma version 8"; ""; "int 7 // c"; "x:"; "bogus"; "b x"]) with
  Ret r => r_listing r = [PragmaExpr 8; EmptyExpr; IntExpr 7; LabelExpr (bs "x"); EmptyExpr; BExpr (bs "x")] | _ => False end.
Proof. vm_compute. reflexivity. Qed.

(* ---------------------------------------------------------------- C09: diagnostics *)
(* A lexer error lies after the last line end; every other diagnostic names a line and covers
   tokens of it. *)
Theorem C09 en src r d : process en src = Ret r -> In d (r_diag r) ->
  match dg_kind d with
  | KLex _ => dg_line d = length (filter is_eol (r_tokens r)) /\ dg_b d = dg_e d
  | _ => exists l, nth_error (r_lines r) (dg_line d) = Some l /\ covers l d
  end.
Proof. exact (diagnostics_on_lines en src r d). Qed.
Print Assumptions C09.
Example C09_ex : match process env0 (lines ["int 1"; "  b  nowhere"; "txna Sender 0"]) with
  Ret r => map (fun d => (dg_line d, dg_b d, dg_e d)) (r_diag r) <> [] | _ => False end.
Proof. vm_compute. discriminate. Qed.

(* ---------------------------------------------------------------- C10: independent lines *)
(* Replacing a block of lines without #pragma by another one leaves the entries of the lines before
   and after it as they were. *)
Theorem C10 en s1 s2 r1 r2 a1 m1 b1 a2 m2 b2 :
  process en s1 = Ret r1 -> process en s2 = Ret r2 ->
  r_lines r1 = a1 ++ m1 ++ b1 -> r_lines r2 = a2 ++ m2 ++ b2 ->
  Forall2 same_texts a1 a2 -> Forall2 same_texts b1 b2 -> Forall no_pragma m1 -> Forall no_pragma m2 ->
  exists x y1 y2 z, r_listing r1 = x ++ y1 ++ z /\ r_listing r2 = x ++ y2 ++ z /\
    length x = length a1 + all_surplus en 1 a1 /\
    length y1 = length m1 + all_surplus en (last_version 1 a1) m1 /\
    length y2 = length m2 + all_surplus en (last_version 1 a1) m2.
Proof. exact (lines_independent en s1 s2 r1 r2 a1 m1 b1 a2 m2 b2). Qed.
Print Assumptions C10.
Example C10_ex : match process env0 (lines ["int 1"; "int 2"; "pop"]), process env0 (lines ["int 1"; "zzz"; "pop"]) with
  Ret r1, Ret r2 => r_listing r1 = [IntExpr 1; IntExpr 2; Op0 PopExpr] /\ r_listing r2 = [IntExpr 1; EmptyExpr; Op0 PopExpr] | _, _ => False end.
Proof. vm_compute. split; reflexivity. Qed.
(* the restriction to lines without #pragma is needed *)
Example C10_pragma : match process env0 (lines ["#pragma version 1"; "txn FirstValidTime"]),
                           process env0 (lines ["#pragma version 7"; "txn FirstValidTime"]) with
  Ret r1, Ret r2 => nth_error (r_listing r1) 1 <> nth_error (r_listing r2) 1 | _, _ => False end.
Proof. vm_compute. discriminate. Qed.

(* ---------------------------------------------------------------- C11: version gating *)
(* The mode and version errors on a line are exactly those that the declared availability of its
   opcode, the mode and the version in force call for. *)
Theorem C11_exact en src r i l : process en src = Ret r -> nth_error (r_lines r) i = Some l ->
  gates_on i (r_diag r) = gate (mode_at i (r_lines r)) (version_at i (r_lines r)) l.
Proof. exact (gates_of_line en src r i l). Qed.
Print Assumptions C11_exact.

(* Against the published table of opcodes (AvmVersions.v), with the specification avm_gate: args
   reads an argument of a logic signature but is declared for applications. *)
Theorem C11_refuted : exists src r t,
  process env0 src = Ret r /\ nth_error (r_lines r) 2 = Some [t] /\ tok_v t = bs "args" /\
  mode_at 2 (r_lines r) = ModeSig /\ version_at 2 (r_lines r) = 8%N /\ avm_version ModeSig "args" = 5%N /\
  gates_on 2 (r_diag r) = [Diag (tok_l t) (tok_b t) (tok_e t) (KMode ModeSig)].
Proof.
  exists (lines ["//#pragma mode logicsig"; "#pragma version 8"; "args"]).
  destruct (process env0 (lines ["//#pragma mode logicsig"; "#pragma version 8"; "args"])) as [r| |] eqn:E;
    vm_compute in E; try discriminate.
  injection E as <-. eexists. eexists. repeat split; vm_compute; reflexivity.
Qed.
Print Assumptions C11_refuted.

(* every opcode but args and the ec_ opcodes, which no released version has *)
Theorem C11_partial en src r i t rest n : process en src = Ret r -> nth_error (r_lines r) i = Some (t :: rest) ->
  tok_t t <> TokComment -> tok_v t = bs n -> In n (map fst ops_list) -> ~ In n unlisted ->
  gates_on i (r_diag r) = avm_gate (mode_at i (r_lines r)) (version_at i (r_lines r)) n t.
Proof. exact (gates_as_published en src r i t rest n). Qed.
Print Assumptions C11_partial.
Example C11_ex : match process env0 (lines ["#pragma version 7"; "int 1"; "bury 1"; "//#pragma mode logicsig"; "log"; "arg 0"]) with
  Ret r => gates_on 1 (r_diag r) = [] /\ gates_on 2 (r_diag r) = [Diag 2 0 4 (KVersion 8 7)] /\
           gates_on 4 (r_diag r) = [Diag 4 0 3 (KMode ModeSig)] /\ gates_on 5 (r_diag r) = [] | _ => False end.
Proof. vm_compute. repeat split; reflexivity. Qed.

(* ---------------------------------------------------------------- C12: symbols and references *)
Theorem C12 en src r : process en src = Ret r ->
  (map (fun s => (sy_name s, sy_l s, sy_b s, sy_e s)) (r_syms r) =
   map (fun d => (snd d, tok_l (fst d), tok_b (fst d), tok_e (fst d))) (flat_map defines (r_lines r))) /\
  r_refs r = flat_map names_labels (r_lines r) /\
  (forall t, In t (r_miss r) <-> In t (r_refs r) /\ forall s, In s (r_syms r) -> sy_name s <> tok_v t) /\
  r_refc r = flat_map uses (r_listing r).
Proof. exact (symbols_complete en src r). Qed.
Print Assumptions C12.
Example C12_ex : match process env0 (lines ["#pragma version 8"; "a:"; "switch a b"; "b: "; "bnz c"]) with
  Ret r => map sy_name (r_syms r) = [bs "a"; bs "b"] /\ map tok_v (r_refs r) = [bs "a"; bs "b"; bs "c"] /\
           map tok_v (r_miss r) = [bs "c"] | _ => False end.
Proof. vm_compute. repeat split; reflexivity. Qed.

(* ---------------------------------------------------------------- C55: the version of a pragma *)
(* the listing keeps the version modulo 256 only *)
Theorem C55_refuted : exists src r, process env0 src = Ret r /\ version_at 1 (r_lines r) = 256%N /\
  r_listing r = [PragmaExpr 0].
Proof.
  exists (lines ["#pragma version 256"]).
  destruct (process env0 (lines ["#pragma version 256"])) as [r| |] eqn:E; vm_compute in E; try discriminate.
  injection E as <-. eexists. repeat split; vm_compute; reflexivity.
Qed.
Print Assumptions C55_refuted.
Theorem C55_pragma_partial en src r i t rest v : process en src = Ret r -> filter is_surplus_diag (r_diag r) = [] ->
  nth_error (r_lines r) i = Some (t :: rest) -> tok_t t <> TokComment -> tok_v t = bs "#pragma" ->
  pragma_version (texts rest) = Some v ->
  version_at (S i) (r_lines r) = v /\ nth_error (r_listing r) i = Some (PragmaExpr (v mod 256)).
Proof. exact (pragma_stored en src r i t rest v). Qed.
Print Assumptions C55_pragma_partial.
