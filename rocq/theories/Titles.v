(* The quick fixes as the client shows them: with their titles (lsp/lsp.go:1675-1800). *)
From Verif Require Import Base LexSpec Lexer Expr Linter Codec Process Semantics Query Lsp.

(* lsp/lsp.go:489-496 lspCodeAction with its command (453-457): the title of the entry in the menu, the title of
   the command behind it, and what the command is called with.  Every kind is "quickfix". *)
Record offer := Offer { of_title : str; of_command : str; of_action : action }.

(* fmt.Sprintf with %s between single quotes: the text goes in as it is (linter.go:22, lsp/lsp.go:1706, 1726, 1754) *)
Definition ticked (s : str) : str := bs "'" ++ s ++ bs "'".

(* the String methods, linter.go:21-23, 33-35 *)
Definition red_title (x : redundant_line) : str :=
  match x with
  | RedundantLabelLine _ n => bs "Remove label " ++ ticked n
  | RedundantBLine _ => bs "Remove b call"
  end.

(* lsp/lsp.go:1677-1697 *)
Definition line_offer (x : redundant_line) : offer := Offer (red_title x) (red_title x) (FixRemoveLine (red_line x)).
(* lsp/lsp.go:1704-1719 *)
Definition label_offer (t : token) : offer := Offer (bs "Create label " ++ ticked (tok_v t)) (bs "Create label") (FixCreateLabel (tok_v t)).
(* lsp/lsp.go:1723-1747 *)
Definition name_offer (h : token * str) : offer :=
  Offer (bs "Replace with " ++ ticked (snd h)) (bs "Replace with named const") (FixReplace (tok_range (fst h)) (snd h)).
(* lsp/lsp.go:1749-1776 *)
Definition text_offer (h : token * str) : offer :=
  Offer (bs "Replace with literal " ++ ticked (snd h)) (bs "Replace with literal") (FixReplace (tok_range (fst h)) (literal_of (snd h))).
(* lsp/lsp.go:1778-1798 *)
Definition version_offer (v : required) : offer :=
  Offer (bs "Update version to " ++ dec (rq_version v)) (bs "Update version") (FixVersion (rq_version v)).

(* lsp/lsp.go:1675-1800 *)
Definition code_offers (r : presult) (rg : range) : res (list offer) :=
  letr hs := inlay_hints r rg in
  Ret (map line_offer
         (filter (fun x => (r_sl rg <=? Z.of_nat (red_line x))%Z && (Z.of_nat (red_line x) <=? r_el rg)%Z) (r_reds r)) ++
       map label_offer (filter (fun t => overlaps rg (tok_range t)) (r_miss r)) ++
       map name_offer (fst hs) ++ map text_offer (snd hs) ++
       map version_offer (filter (fun v => overlaps rg (req_range v)) (r_vers r))).
