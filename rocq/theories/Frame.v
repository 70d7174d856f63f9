(* How the language server and the debug adapter take messages off their input and put them on their
   output: lsp/lsp.go:2118-2149 write and 2163-2215 Run, dbg/dbg.go:742-773 and 787-839 likewise.

   net/textproto, net/http, bufio, io and strconv follow the Go standard library of the version in go.mod
   (1.19).  Simplifications: the whole input is a byte string; reading fails at its end only; a header is
   kept as the list of its fields; of the memory only the limit of make is modelled. *)
From Verif Require Import Base Strconv Codec Query Lsp Dbg.

Definition c_cr : ascii := ascii_of_nat 13.
Definition c_lf : ascii := ascii_of_nat 10.
Definition c_ht : ascii := ascii_of_nat 9.
Definition blank (c : ascii) : bool := Ascii.eqb c " " || Ascii.eqb c c_ht.

(* bytes.Cut: before and after the first x (net/textproto/reader.go ReadMIMEHeader, bufio ReadSlice;
   called from lsp/lsp.go:2171) *)
Fixpoint cut (x : ascii) (s : str) : option (str * str) :=
  match s with
  | [] => None
  | c :: r =>
      if Ascii.eqb c x then Some ([], r)
      else match cut x r with Some (a, b) => Some (c :: a, b) | None => None end
  end.

(* the line without a carriage return before its line feed (bufio.Reader.ReadLine; lsp/lsp.go:2171) *)
Fixpoint drop_cr (l : str) : str :=
  match l with
  | [] => []
  | [c] => if Ascii.eqb c c_cr then [] else [c]
  | c :: r => c :: drop_cr r
  end.

(* textproto.Reader.readLineSlice: a line and what follows it, or the end of the input (lsp/lsp.go:2171) *)
Definition read_line (s : str) : option (str * str) :=
  match s with
  | [] => None
  | _ => match cut c_lf s with Some (l, r) => Some (drop_cr l, r) | None => Some (s, []) end
  end.

(* textproto.trim, strings.TrimLeft for blanks and textproto.Reader.skipSpace (lsp/lsp.go:2171) *)
Fixpoint trim_left (s : str) : str :=
  match s with c :: r => if blank c then trim_left r else s | [] => [] end.
Definition trim (s : str) : str := rev (trim_left (rev (trim_left s))).

(* textproto.Reader.readContinuedLineSlice, the loop over the lines that start with a blank
   (lsp/lsp.go:2171).  The fuel is at least the length of the input. *)
Fixpoint continued (fuel : nat) (acc s : str) : str * str :=
  match fuel with
  | 0 => (acc, s)
  | S fuel =>
      match s with
      | c :: _ =>
          if blank c then
            match read_line (trim_left s) with
            | Some (l, r) => continued fuel (acc ++ " "%char :: trim l) r
            | None => (acc, [])
            end
          else (acc, s)
      | [] => (acc, [])
      end
  end.

(* textproto.validHeaderFieldByte (lsp/lsp.go:2171) *)
Definition field_byte (c : ascii) : bool :=
  in_chars "a" "z" c || in_chars "A" "Z" c || in_chars "0" "9" c ||
  existsb (Ascii.eqb c) (bs "!#$%&'*+-.^_`|~").
(* textproto.canonicalMIMEHeaderKey (lsp/lsp.go:2171, 2178) *)
Definition upper_char (c : ascii) : ascii := if in_chars "a" "z" c then ascii_of_N (byte c - 32) else c.
Definition lower_char (c : ascii) : ascii := if in_chars "A" "Z" c then ascii_of_N (byte c + 32) else c.
Fixpoint canon (up : bool) (s : str) : str :=
  match s with
  | [] => []
  | c :: r => (if up then upper_char c else lower_char c) :: canon (Ascii.eqb c "-") r
  end.
Definition canonical (k : str) : str := if forallb field_byte k then canon true k else k.

(* textproto.Reader.ReadMIMEHeader (lsp/lsp.go:2171, dbg/dbg.go:795): the header, an error or the end of
   the input, and what has not been read *)
Inductive header : Type := Header (fs : list (str * str)) | BadHeader | NoHeader.
Fixpoint read_fields (fuel : nat) (s : str) (fs : list (str * str)) : res (header * str) :=
  match fuel with
  | 0 => OutOfFuel
  | S fuel =>
      match read_line s with
      | None => Ret (NoHeader, [])
      | Some ([], r) => Ret (Header fs, r)
      | Some (l, r) =>
          match cut ":" l with
          | None => Ret (BadHeader, r)
          | Some _ =>
              let (kv, r) := continued (length r) (trim l) r in
              match cut ":" kv with
              | None => Ret (BadHeader, r)
              | Some (k, v) =>
                  read_fields fuel r (match canonical k with [] => fs | k => fs ++ [(k, trim_left v)] end)
              end
          end
      end
  end.
Definition read_header (s : str) : res (header * str) :=
  match s with
  | c :: _ =>
      if blank c then Ret (match read_line s with Some (_, r) => (BadHeader, r) | None => (NoHeader, []) end)
      else read_fields (S (length s)) s []
  | [] => Ret (NoHeader, [])
  end.

(* http.Header.Get (lsp/lsp.go:2178, dbg/dbg.go:802) *)
Definition get_field (k : str) (fs : list (str * str)) : str :=
  match find (fun f => seqb (fst f) (canonical k)) fs with Some (_, v) => v | None => [] end.

(* make([]byte, n) panics on a negative or a too large n (lsp/lsp.go:2183, dbg/dbg.go:807); the limit is
   that of linux/amd64 *)
Definition max_alloc : Z := 2 ^ 48.

(* the beginning of the loop (lsp/lsp.go:2170-2187, dbg/dbg.go:794-811): a body, a failure that is traced,
   or the end of the input *)
Inductive reading : Type := Body (b : str) | Failed | Ended.
Definition read_message (s : str) : res (reading * str) :=
  letr h := read_header s in
  match h with
  | (NoHeader, r) => Ret (Ended, r)
  | (BadHeader, r) => Ret (Failed, r)
  | (Header fs, r) =>
      match atoi (get_field (bs "Content-Length") fs) with
      | None => Ret (Failed, r)
      | Some n =>
          if (n <? 0)%Z || (max_alloc <? n)%Z then Panic
          else if (n <=? Z.of_nat (length r))%Z then Ret (Body (firstn (Z.to_nat n) r), skipn (Z.to_nat n) r)
          else Ret (match r with [] => Ended | _ => Failed end, [])
      end
  end.

(* the loop as far as the input is concerned (lsp/lsp.go:2169-2212, dbg/dbg.go:793-836): the bodies in
   turn, and how it ends *)
Fixpoint receive (fuel : nat) (s : str) : list str * res unit :=
  match fuel with
  | 0 => ([], OutOfFuel)
  | S fuel =>
      match read_message s with
      | Ret (Body b, r) => let (l, e) := receive fuel r in (b :: l, e)
      | Ret (Failed, r) => receive fuel r
      | Ret (Ended, _) => ([], Ret tt)
      | Panic => ([], Panic)
      | OutOfFuel => ([], OutOfFuel)
      end
  end.
Definition received (s : str) : list str * res unit := receive (S (length s)) s.

(* write (lsp/lsp.go:2126-2142, dbg/dbg.go:750-766): http.Header.Write, an empty line and the body *)
Definition write_body (b : str) : str :=
  bs "Content-Length: " ++ dec (N.of_nat (length b)) ++ [c_cr; c_lf] ++ [c_cr; c_lf] ++ b.

(* lsp/lsp.go:2163-2215 Run, from the bytes that arrive to the bytes that are sent; decode and encode stand
   for json.Unmarshal and json.Marshal.  A message that has been handled has been read completely, so that
   reading ahead makes no difference; nothing is read after exit. *)
Definition serve (en : lenv) (decode : str -> event) (encode : output -> str) (s : server) (input : str)
  : res (server * str) :=
  let (bodies, e) := received input in
  letr x := run en s (map decode bodies) in
  letr _ := if s_exit (fst x) then Ret tt else e in
  Ret (fst x, concat (map (fun o => write_body (encode o)) (snd x))).

(* dbg/dbg.go:787-839 Run likewise; l.exit is never set.  What is sent before a crash is kept. *)
Definition debug_serve (en : Process.env) (pick : list nat -> nat) (fuel : nat) (decode : str -> dmessage)
  (encode : dout -> str) (s : session) (input : str) : str * res session :=
  let (bodies, e) := received input in
  let (o, x) := converse en pick fuel s (map decode bodies) in
  (concat (map (fun d => write_body (encode d)) o), letr y := x in letr _ := e in Ret y).
