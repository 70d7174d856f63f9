(* lsp/lsp.go: the language server as a state machine over decoded messages.

   Simplifications.  A message is what json.Unmarshal makes of the body for its method: the decoded
   parameters, a nil pointer, or an error.  The answer is the value given to json.Marshal; titles,
   documentation and the constant parts are left out.  The semantic tokens are those given to Encode
   (Semantics.v).  Entries that come out of a Go map are listed in the order of the table.  Writing to
   the client does not fail.  The counter of the server requests does not overflow. *)
From Verif Require Import Base LexSpec Lexer Expr Linter Fields Strconv Literals Codec OpTable Process Semantics Query.

(* the context of Process, and tealfmt.Format of the package github.com/joe-p/tealfmt (lsp/lsp.go:1588) *)
Record lenv := Lenv { l_env : env; l_format : str -> str }.

(* lsp/lsp.go:38-41 lspDoc *)
Record ldoc := LDoc { d_text : str; d_res : option presult }.
(* lsp/lsp.go:294-299 tealConfig *)
Record config := Config { c_semantic : bool; c_named : bool; c_decoded : bool; c_lens : bool }.
(* lsp/lsp.go:56-71 lsp; the map docs by uri *)
Record server := Server {
  s_id : nat; s_config : config; s_docs : list (str * ldoc);
  s_shutdown : bool; s_exit : bool; s_code : nat }.

(* lsp/lsp.go:82-103 New *)
Definition start : server := Server 0 (Config true true true true) [] false false 0.

(* l.docs[uri], l.docs[uri] = d, delete(l.docs, uri) (lsp/lsp.go:59, 818-824, 868) *)
Definition remove_doc (uri : str) (ds : list (str * ldoc)) : list (str * ldoc) :=
  filter (fun x => negb (seqb (fst x) uri)) ds.
Definition get_doc (uri : str) (s : server) : option ldoc :=
  match find (fun x => seqb (fst x) uri) (s_docs s) with Some (_, d) => Some d | None => None end.
Definition set_docs (ds : list (str * ldoc)) (s : server) : server :=
  Server (s_id s) (s_config s) ds (s_shutdown s) (s_exit s) (s_code s).
Definition put_doc (uri : str) (d : ldoc) (s : server) : server := set_docs ((uri, d) :: remove_doc uri (s_docs s)) s.

(* ------------------------------------------------------------------------------------------ *)
(* messages *)

(* the id of a JSON-RPC message (lsp/lsp.go:112-121); NoId: absent or null *)
Inductive ident : Set := NoId | NumId (n : Z) | StrId (s : str).

(* what unmarshalling gives for a field Params *T (lsp/lsp.go:135-137, 664-687, 715-724) *)
Inductive params (A : Type) : Type := BadParams | NilParams | Params (a : A).
Arguments BadParams {A}. Arguments NilParams {A}. Arguments Params {A} a.

(* lsp/lsp.go:506-525 lspPosition; a range (527-546) is Semantics.range *)
Record position := Pos { ps_line : Z; ps_char : Z }.
Definition pos_range (p : position) : range := Range (ps_line p) (ps_char p) (ps_line p) (ps_char p).

(* lsp/lsp.go:347-383: the arguments of a command; None: they do not unmarshal *)
Inductive command : Type :=
| VersionUpdate (a : option (list (str * N)))
| ValueReplace (a : option (list (str * range * str)))
| LineRemove (a : option (list (str * Z)))
| LabelRemove (a : option (list (str * str)))
| LabelCreate (a : option (list (str * str)))
| UnknownCommand (name : str).

(* requests about one document, whose uri is a plain field of the parameters (lsp/lsp.go:393-427, 569-656) *)
Inductive query : Type :=
| QPrepareRename (p : position)
| QRename (p : position) (name : str)
| QInlineValue (r : range)
| QCodeLens
| QInlayHint (r : range)
| QCompletion (p : position)
| QHover (p : position)
| QDefinition (p : position)
| QFormatting
| QSignatureHelp (p : position)
| QCodeAction (r : range)
| QDocumentHighlight (p : position)
| QSemanticTokens.

(* lsp/lsp.go:803-2112, the methods *)
Inductive call : Type :=
| Initialized
| Exit
| DidOpen (p : params (option (str * str)))              (* textDocument: uri and text *)
| DidChange (p : params (option str * list (option str)))   (* textDocument, contentChanges *)
| DidSave (p : params unit)
| Shutdown
| CancelRequest
| DidClose (p : params (option str))
| ExecuteCommand (p : params command)
| Query (p : params (str * query))
| DocumentSymbol (p : params (option str))
| Diagnostic (p : params (option str))
| Initialize (p : params (option (option bool * option bool * option bool * option bool)))
| UnknownMethod.

(* lsp/lsp.go:112-121 jsonRpcHeader: a message with a result or an error, or without a method, is a
   response of the client *)
Inductive message : Type := Response | Call (id : ident) (c : call).

(* ------------------------------------------------------------------------------------------ *)
(* what the server sends *)

(* lsp/lsp.go:459-462 lspTextEdit *)
Record text_edit := TextEdit { te_range : range; te_text : str }.

(* lsp/lsp.go:453-457, 489-496: the commands behind the quick fixes, with the uri *)
Inductive action : Type :=
| FixRemoveLine (line : nat)
| FixCreateLabel (name : str)
| FixReplace (r : range) (value : str)
| FixVersion (v : N).

(* lsp/lsp.go:1391, 1404-1511: the two modes of a completion.  The blank item that stands for an empty
   list (1513-1517) is left out. *)
Inductive completion : Type := CompleteOps (names : list str) | CompleteArgs (vals : list arg_val).

(* lsp/lsp.go:2078-2108 lspServerCapabilities: whether semantic tokens, inlay hints and code lenses are
   among them; everything else is always the same *)
Record capabilities := Capabilities { cp_semantic : bool; cp_inlay : bool; cp_lens : bool }.

(* the values given to success (lsp/lsp.go:711-713) *)
Inductive answer : Type :=
| AShutdown
| APrepareRename (o : option (range * str))
| ARename (uri : str) (es : list text_edit)
| AInlineValue (r : range)
| ACodeLens (ls : list (nat * nat))                     (* line, references *)
| AInlayHint (hs : list (position * str))
| ACompletion (c : completion)
| AHover (d : shown)
| ADefinition (uri : str) (ls : list range)
| AFormatting (e : text_edit)
| ASignatureHelp (o : option (str * Z))                 (* opcode, active parameter *)
| ACodeAction (uri : str) (l : list action)
| ADocumentHighlight (l : list range)
| ASemanticTokens (l : list stoken)
| ADocumentSymbol (l : list (str * range))
| ADiagnostic (l : list diagnostic)
| AInitialize (c : capabilities).

(* lsp/lsp.go:698-713 reply, fail and success, 726-734 request *)
Inductive output : Type :=
| Reply (id : ident) (a : answer)
| Fail (id : ident) (message : str)
| ApplyEdit (id : str) (uri : str) (es : list text_edit).    (* a request workspace/applyEdit *)

(* ------------------------------------------------------------------------------------------ *)
(* lsp/lsp.go:777-784 prepare, with lspDoc.Results (48-54): the result is kept in the document *)
Definition results (en : lenv) (uri : str) (s : server) : res (option (presult * server)) :=
  match get_doc uri s with
  | None => Ret None
  | Some d =>
      match d_res d with
      | Some r => Ret (Some (r, s))
      | None => letr r := process (l_env en) (d_text d) in Ret (Some (r, put_doc uri (LDoc (d_text d) (Some r)) s))
      end
  end.

(* lsp/lsp.go:726-734 request *)
Definition send_edit (uri : str) (es : list text_edit) (s : server) : server * list output :=
  (Server (S (s_id s)) (s_config s) (s_docs s) (s_shutdown s) (s_exit s) (s_code s),
   [ApplyEdit (dec (N.of_nat (S (s_id s)))) uri es]).

(* lsp/lsp.go:1194-1203: the range of a name, [begin, begin + len(name)) *)
Definition name_range (s : symbol) : range :=
  Range (Z.of_nat (sy_l s)) (Z.of_nat (sy_b s)) (Z.of_nat (sy_l s)) (Z.of_nat (sy_b s + length (sy_name s))).

(* lsp/lsp.go:1192-1221, 1225-1255: the edits of one renamed name *)
Definition rename_one (r : presult) (new old : str) : list text_edit :=
  map (fun s => TextEdit (name_range s) new) (sym_by_name r old) ++
  map (fun t => TextEdit (tok_range t) new) (ref_by_name r old).
(* lsp/lsp.go:1190-1256 *)
Definition rename_edits (r : presult) (p : position) (new : str) : list text_edit :=
  flat_map (fun s => rename_one r new (sy_name s)) (symbols_within r (pos_range p)) ++
  flat_map (fun t => rename_one r new (tok_v t)) (refs_within r (pos_range p)).

(* lsp/lsp.go:1145-1177 *)
Definition prepare_rename (r : presult) (p : position) : option (range * str) :=
  match symbols_within r (pos_range p) with
  | s :: _ => Some (name_range s, sy_name s)
  | [] =>
      match refs_within r (pos_range p) with
      | t :: _ => Some (Range (Z.of_nat (tok_l t)) (Z.of_nat (tok_b t)) (Z.of_nat (tok_l t)) (Z.of_nat (tok_b t + length (tok_v t))), tok_v t)
      | [] => None
      end
  end.

(* lsp/lsp.go:1295-1316; RefCounts as a list of names *)
Definition code_lens (r : presult) : list (nat * nat) :=
  filter (fun x => 0 <? snd x)
    (map (fun s => (sy_l s, length (filter (seqb (sy_name s)) (r_refc r)))) (r_syms r)).

(* lsp/lsp.go:1331-1367: where a hint is shown *)
Definition hint_at (x : token * str) : position * str :=
  (Pos (Z.of_nat (tok_l (fst x))) (Z.of_nat (tok_e (fst x))), snd x).

(* process.go:1451-1548: the keys of Ops.Items *)
Fixpoint dedup (l : list str) : list str :=
  match l with [] => [] | a :: r => if mem a r then dedup r else a :: dedup r end.
Definition item_names : list str := dedup (map (fun x => bs (fst x)) ops_list).
(* strings.HasPrefix (lsp/lsp.go:1474) *)
Definition is_prefix (p s : str) : bool := seqb (firstn (length p) s) p.
(* process.go:1446-1449, 1533: the AppVersion of an item *)
Definition app_version (name : str) : option N :=
  match ops_get name with Some p => Some (dc_app (doc_of p)) | None => None end.
(* lsp/lsp.go:1382-1511 *)
Definition completions (r : presult) (p : position) : res completion :=
  letr ln := (if (ps_line p <? Z.of_nat (length (r_lines r)))%Z then line_of r (ps_line p) else Ret []) in
  let ops prefix :=
    CompleteOps (bs "soc" :: bs "func" ::
      filter (fun n => match app_version n with Some v => (v <=? r_version r)%N && is_prefix prefix n | None => false end)
        item_names) in
  match ln with
  | [] => Ret (ops [])
  | t :: _ =>
      if (ps_char p <=? Z.of_nat (tok_e t))%Z then Ret (ops (tok_v t))
      else letr vs := arg_vals_at r (ps_line p) (ps_char p) in Ret (CompleteArgs vs)
  end.

(* lsp/lsp.go:1617-1660 *)
Definition signature_help (r : presult) (p : position) : res (option (str * Z)) :=
  match find (fun t => (Z.of_nat (tok_l t) =? ps_line p)%Z) (r_ops r) with
  | None => Ret None
  | Some t =>
      match ops_get (tok_v t) with
      | None => Ret None
      | Some _ => letr x := arg_at r (ps_line p) (ps_char p) in Ret (Some (tok_v t, snd x))
      end
  end.

(* lsp/lsp.go:1772: strings.ReplaceAll(v, `"`, `\"`) in quotes *)
Fixpoint escape_quotes (s : str) : str :=
  match s with
  | [] => []
  | c :: r => if Ascii.eqb c c_quote then c_bslash :: c_quote :: escape_quotes r else c :: escape_quotes r
  end.
Definition literal_of (v : str) : str := c_quote :: escape_quotes v ++ [c_quote].

(* lsp/lsp.go:1675-1799 *)
Definition code_actions (r : presult) (rg : range) : res (list action) :=
  letr hs := inlay_hints r rg in
  Ret (map (fun x => FixRemoveLine (red_line x))
         (filter (fun x => (r_sl rg <=? Z.of_nat (red_line x))%Z && (Z.of_nat (red_line x) <=? r_el rg)%Z) (r_reds r)) ++
       map (fun t => FixCreateLabel (tok_v t)) (filter (fun t => overlaps rg (tok_range t)) (r_miss r)) ++
       map (fun h => FixReplace (tok_range (fst h)) (snd h)) (fst hs) ++
       map (fun h => FixReplace (tok_range (fst h)) (literal_of (snd h))) (snd hs) ++
       map (fun v => FixVersion (rq_version v)) (filter (fun v => overlaps rg (req_range v)) (r_vers r))).

(* lsp/lsp.go:1834-1868 *)
Definition highlights (r : presult) (p : position) : list range :=
  let name := sym_or_ref_at r (pos_range p) in
  map name_range (sym_by_name r name) ++ map tok_range (ref_by_name r name).

(* lsp/lsp.go:1915-2000; the types are numbered at 22-32 *)
Definition sem_tok (ty : Z) (t : token) : stoken :=
  SToken (Z.of_nat (tok_l t)) (Z.of_nat (tok_b t)) (Z.of_nat (tok_e t) - Z.of_nat (tok_b t)) ty 0.
Definition sem_sym (ty : Z) (s : symbol) : stoken :=
  SToken (Z.of_nat (sy_l s)) (Z.of_nat (sy_b s)) (Z.of_nat (sy_e s) - Z.of_nat (sy_b s)) ty 0.
Definition semantic_tokens (r : presult) : list stoken :=
  map (sem_tok 4) (r_mcrs r) ++
  map (sem_tok 0) (filter (fun t => match tok_t t with TokValue => true | _ => false end) (r_ops r)) ++
  map (sem_tok 6) (r_nums r) ++ map (sem_tok 1) (r_strs r) ++ map (sem_tok 0) (r_keys r) ++
  map (sem_tok 2) (filter is_comment (r_tokens r)) ++
  map (sem_sym 3) (r_syms r) ++ map (sem_tok 1) (r_refs r).

(* lsp/lsp.go:1134-1800, 1821-1870, 1904-2006: the requests about one document are a function of its text,
   its uri and the settings *)
Definition answer_query (en : lenv) (cf : config) (uri text : str) (r : presult) (q : query) : res answer :=
  match q with
  | QPrepareRename p => Ret (APrepareRename (prepare_rename r p))
  | QRename p new => Ret (ARename uri (rename_edits r p new))
  | QInlineValue rg => Ret (AInlineValue rg)
  | QCodeLens => Ret (ACodeLens (if c_lens cf then code_lens r else []))
  | QInlayHint rg =>
      letr hs := inlay_hints r rg in
      Ret (AInlayHint ((if c_named cf then map hint_at (fst hs) else []) ++
                       (if c_decoded cf then map hint_at (snd hs) else [])))
  | QCompletion p => letr c := completions r p in Ret (ACompletion c)
  | QHover p => letr d := doc_at r (ps_line p) (ps_char p) in Ret (AHover d)
  | QDefinition p => Ret (ADefinition uri (map name_range (symbols_for_ref r (pos_range p))))
  | QFormatting =>
      Ret (AFormatting (TextEdit (Range 0 0 (Z.of_nat (length (r_lines r))) 0) (l_format en text)))
  | QSignatureHelp p => letr x := signature_help r p in Ret (ASignatureHelp x)
  | QCodeAction rg => letr l := code_actions r rg in Ret (ACodeAction uri l)
  | QDocumentHighlight p => Ret (ADocumentHighlight (highlights r p))
  | QSemanticTokens => Ret (ASemanticTokens (semantic_tokens r))
  end.

(* ------------------------------------------------------------------------------------------ *)
(* lsp/lsp.go:786-2116 handle: the next state and what is written; an error is only traced (2203-2210) *)
Definition next (s : server) (out : list output) : res (server * list output) := Ret (s, out).

(* lsp/lsp.go:832-839, the changes in turn *)
Fixpoint change_doc (uri : str) (chs : list (option str)) (s : server) : res server :=
  match chs with
  | [] => Ret s
  | ch :: r =>
      match get_doc uri s, ch with
      | None, _ => Ret s
      | Some _, None => Panic
      | Some _, Some t => change_doc uri r (put_doc uri (LDoc t None) s)
      end
  end.

(* lsp/lsp.go:876-1132 *)
Definition one_arg {A} (a : option (list A)) : option A := match a with Some [x] => Some x | _ => None end.
Definition execute (en : lenv) (id : ident) (c : command) (s : server) : res (server * list output) :=
  match c with
  | VersionUpdate a =>
      match one_arg a with
      | None => next s []
      | Some (uri, v) =>
          letr x := results en uri s in
          match x with
          | None => next s []
          | Some (r, s) =>
              Ret (send_edit uri
                     [match r_vtok r with
                      | Some t => TextEdit (tok_range t) (dec v)
                      | None => TextEdit (Range 0 0 0 0) (bs "#pragma version " ++ dec v ++ [c_cr; c_lf])
                      end] s)
          end
      end
  | ValueReplace a =>
      match one_arg a with
      | None => next s []
      | Some (uri, rg, v) =>
          match get_doc uri s with
          | None => next s []
          | Some _ => Ret (send_edit uri [TextEdit rg v] s)
          end
      end
  | LineRemove a =>
      match one_arg a with
      | None => next s []
      | Some (uri, line) =>
          match get_doc uri s with
          | None => next s []
          | Some _ => Ret (send_edit uri [TextEdit (Range line 0 (line + 1) 0) []] s)
          end
      end
  | LabelRemove a =>
      match one_arg a with
      | None => next s []
      | Some (uri, name) =>
          letr x := results en uri s in
          match x with
          | None => next s []
          | Some (r, s) => Ret (send_edit uri (map (fun y => TextEdit (sym_range y) []) (sym_by_name r name)) s)
          end
      end
  | LabelCreate a =>
      match one_arg a with
      | None => next s []
      | Some (uri, name) =>
          letr x := results en uri s in
          match x with
          | None => next s []
          | Some (r, s) =>
              let t := [c_cr; c_lf] ++ name ++ bs ":" ++ [c_cr; c_lf] in
              let n := Z.of_nat (length (r_lines r)) in
              Ret (send_edit uri [TextEdit (Range n 0 n (Z.of_nat (length t))) t] s)
          end
      end
  | UnknownCommand name => next s [Fail id (bs "unknown command: " ++ name)]
  end.

(* lsp/lsp.go:287-292, 2014-2029 *)
Definition or_old {A} (o : option A) (old : A) : A := match o with Some a => a | None => old end.
Definition configure (o : option bool * option bool * option bool * option bool) (c : config) : config :=
  let '(a, b, d, e) := o in
  Config (or_old a (c_semantic c)) (or_old b (c_named c)) (or_old d (c_decoded c)) (or_old e (c_lens c)).

(* lsp/lsp.go:2058-2108 *)
Definition announce (c : config) : capabilities :=
  Capabilities (c_semantic c) (c_named c || c_decoded c) true.

(* lsp/lsp.go:786-2116 *)
Definition handle (en : lenv) (s : server) (m : message) : res (server * list output) :=
  match m with
  | Response => next s []
  | Call id c =>
      match c with
      | Initialized => next s []
      | Exit =>
          next (Server (s_id s) (s_config s) (s_docs s) (s_shutdown s) true
                  (if s_shutdown s then s_code s else 1)) []
      | DidOpen p =>
          match p with
          | BadParams => next s []
          | NilParams | Params None => Panic
          | Params (Some (uri, t)) => next (put_doc uri (LDoc t None) s) []
          end
      | DidChange p =>
          match p with
          | BadParams => next s []
          | NilParams => Panic
          | Params (_, []) => next s []
          | Params (None, _) => Panic
          | Params (Some uri, chs) => letr s := change_doc uri chs s in next s []
          end
      | DidSave _ => next s []
      | _ =>
          if s_shutdown s then next s []
          else
            match c with
            | Shutdown =>
                next (Server (s_id s) (s_config s) (s_docs s) true (s_exit s) (s_code s)) [Reply id AShutdown]
            | DidClose p =>
                match p with
                | BadParams => next s []
                | NilParams | Params None => Panic
                | Params (Some uri) => next (set_docs (remove_doc uri (s_docs s)) s) []
                end
            | ExecuteCommand p =>
                match p with
                | BadParams => next s []
                | NilParams => Panic
                | Params c => execute en id c s
                end
            | Query p =>
                match p with
                | BadParams => next s []
                | NilParams => Panic
                | Params (uri, q) =>
                    letr x := results en uri s in
                    match x, get_doc uri s with
                    | Some (r, s'), Some d =>
                        letr a := answer_query en (s_config s) uri (d_text d) r q in
                        next s' [Reply id a]
                    | _, _ => next s []
                    end
                end
            | DocumentSymbol p =>
                match p with
                | BadParams => next s []
                | NilParams | Params None => Panic
                | Params (Some uri) =>
                    letr x := results en uri s in
                    match x with
                    | Some (r, s') => next s' [Reply id (ADocumentSymbol (map (fun y => (sy_name y, sym_range y)) (r_syms r)))]
                    | None => next s []
                    end
                end
            | Diagnostic p =>
                match p with
                | BadParams => next s []
                | NilParams | Params None => Panic
                | Params (Some uri) =>
                    letr x := results en uri s in
                    match x with
                    | Some (r, s') => next s' [Reply id (ADiagnostic (r_diag r))]
                    | None => next s [Reply id (ADiagnostic [])]
                    end
                end
            | Initialize p =>
                match p with
                | BadParams => next s []
                | NilParams | Params None => next s [Reply id (AInitialize (announce (s_config s)))]
                | Params (Some o) =>
                    let cf := configure o (s_config s) in
                    next (Server (s_id s) cf (s_docs s) (s_shutdown s) (s_exit s) (s_code s)) [Reply id (AInitialize (announce cf))]
                end
            | _ => next s []
            end
      end
  end.

(* lsp/lsp.go:2163-2215 Run, over what arrives: a message, or a header or body that is not one
   (which is only traced).  The end of the list is the end of the input. *)
Inductive event : Type := Garbage | Message (m : message).
Fixpoint run (en : lenv) (s : server) (es : list event) : res (server * list output) :=
  if s_exit s then Ret (s, [])
  else
    match es with
    | [] => Ret (s, [])
    | Garbage :: r => run en s r
    | Message m :: r =>
        letr x := handle en s m in
        letr y := run en (fst x) r in
        Ret (fst y, snd x ++ snd y)
    end.
