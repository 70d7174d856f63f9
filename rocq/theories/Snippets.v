(* lsp/lsp.go:1431-1471: the two snippets offered beside the opcodes.

   Simplifications.  strings.ToLower is modelled for ASCII, which is all the names consist of. *)
From Verif Require Import Base LexSpec Codec Process.

(* strings.ToLower (lsp/lsp.go:1444) *)
Definition lower_char (c : ascii) : ascii :=
  if (65 <=? byte c)%N && (byte c <=? 90)%N then ascii_of_N (byte c + 32) else c.
Definition to_lower (s : str) : str := map lower_char s.

(* go_algorand.go:891, 1824-1829 OnCompletionNames: the names in the order of their values *)
Definition on_completion_names : list str := map (fun x => bs (fst x)) on_completion_map.

(* fmt.Sprintf of a field with a number and a text (lsp/lsp.go:1444, 1450, 1456) *)
Definition snippet_field (n : nat) (s : str) : str := bs "${" ++ dec (N.of_nat n) ++ bs ":" ++ s ++ bs "}".

(* lsp/lsp.go:1439-1446: the variable at *)
Fixpoint soc_labels (i : nat) (names : list str) : str :=
  match names with
  | [] => []
  | n :: r => (if 0 <? i then bs " " else []) ++ snippet_field (i + 1) (to_lower n) ++ soc_labels (S i) r
  end.
(* lsp/lsp.go:1439-1454: the variable bt *)
Fixpoint soc_blocks (total i : nat) (names : list str) : str :=
  match names with
  | [] => []
  | n :: r =>
      snippet_field (i + 1) (to_lower n) ++ bs ":" ++ [c_lf] ++
      (if i <? total - 1 then bs "b " ++ snippet_field (total + 2) (bs "then") ++ [c_lf] else []) ++
      [c_lf] ++ soc_blocks total (S i) r
  end.
(* lsp/lsp.go:1437-1464: the snippet soc *)
Definition soc_text : str :=
  let total := length on_completion_names in
  bs "txn OnCompletion" ++ [c_lf] ++ bs "switch " ++ soc_labels 0 on_completion_names ++ [c_lf] ++
  soc_blocks total 0 on_completion_names ++
  snippet_field (total + 2) (bs "then") ++ bs ":" ++ [c_lf] ++ bs "$" ++ dec (N.of_nat (total + 3)).

(* lsp/lsp.go:1466-1472: the snippet func *)
Definition func_text : str :=
  let crlf := [c_cr; c_lf] in
  bs "${1:sub}:" ++ crlf ++ crlf ++ [c_tab] ++ bs "proto ${2:0} ${3:0}" ++ crlf ++ [c_tab] ++ bs "${4}" ++ crlf ++
  [c_tab] ++ bs "retsub" ++ crlf.
