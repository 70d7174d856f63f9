(* Property C107: the outline of a document. *)
From Verif Require Import Base LexSpec Lexer DocLines DocProofs Codec Process ProcessSpec Semantics Query Lsp LspSpec RenameSpec OutlineSpec OutlineProofs PropProcess PropLsp.
From Coq Require Import Sorted.

(* A string over two lines: the lines of the tokens are not the lines of the editor. *)
Definition late : str := bs "byte ""x" ++ [c_lf] ++ bs "y""" ++ [c_lf] ++ lines ["l:"].
Theorem C107_refuted : exists r s ls, process env0 late = Ret r /\ lines_of late ls /\
  run len0 start [open_ late] = Ret (s, []) /\
  written (handle len0 s (Call (NumId 1) (DocumentSymbol (Params (Some doc1))))) = Ret [Reply (NumId 1) (ADocumentSymbol [(bs "l", Range 1 0 1 2)])] /\
  ~ covers ls (Range 1 0 1 2) (bs "l:").
Proof.
  destruct (process env0 late) as [r| |] eqn:E; vm_compute in E; try discriminate. injection E as <-.
  destruct (split_lines_spec late) as [ls [S L]]. vm_compute in S. injection S as <-.
  do 3 eexists. split; [reflexivity|]. split; [exact L|]. split; [vm_compute; reflexivity|]. split; [vm_compute; reflexivity|].
  intros (i & line & pre & post & N & El & R). injection R as Ri Rp _. assert (i = 1) by lia. assert (P : pre = []) by (destruct pre; [reflexivity|cbn in Rp; lia]).
  subst i pre. cbn in N. injection N as <-. discriminate El.
Qed.
Print Assumptions C107_refuted.

(* the outline lists the labels by name and place, each once, from top to bottom *)
Theorem C107_partial en es s out uri t r id :
  run en start es = Ret (s, out) -> s_exit s = false -> s_shutdown s = false -> latest uri es = Some t -> process (l_env en) t = Ret r ->
  exists l, written (handle en s (Call id (DocumentSymbol (Params (Some uri))))) = Ret [Reply id (ADocumentSymbol l)] /\
    (forall n rg, In (n, rg) l <-> exists i, label_line r i n rg) /\ StronglySorted downwards l /\
    (forall ps ls n rg, Lexes t ps -> strings_on_one_line ps -> lines_of t ls -> In (n, rg) l -> covers ls rg (n ++ bs ":")).
Proof.
  intros R X D L P. exists (outline r). split; [rewrite (outline_answer en es s out uri id R X D), L, P; reflexivity|].
  split; [exact (outline_exact _ _ _ P)|]. split; [exact (outline_order _ _ _ P)|]. exact (outline_text _ _ _ P).
Qed.
Print Assumptions C107_partial.
Theorem C107_unopened en es s out uri id :
  run en start es = Ret (s, out) -> s_exit s = false -> s_shutdown s = false -> latest uri es = None ->
  written (handle en s (Call id (DocumentSymbol (Params (Some uri))))) = Ret [].
Proof. intros R X D L. rewrite (outline_answer en es s out uri id R X D), L. reflexivity. Qed.
Print Assumptions C107_unopened.
Example C107_ex : outputs [open_ (lines ["int 1"; " a: int 2 // c"; "// b:"; ":"; "a:"; "b a"]); ask_symbols 1] =
  Ret [Reply (NumId 1) (ADocumentSymbol [(bs "a", Range 1 1 1 3); (bs "a", Range 4 0 4 2)])].
Proof. vm_compute. reflexivity. Qed.
