(* cmd/tealsarif/main.go:78-122: which files the scanner scans, and under which names.

   The file system is a tree.  Whatever is not a directory by its own entry (a symbolic link is not) is a
   file with what os.ReadFile makes of it.  The library: os.Stat, filepath.WalkDir, os.ReadDir,
   filepath.Ext and url.URL.String of Go 1.19, on a system whose separator is the slash.
   Simplification: the argument is given as the elements of its clean absolute path. *)
From Verif Require Import Base Strconv Literals Process Sarif.

(* a file and its content, None when it cannot be read; a directory: the entries that os.ReadDir lists and
   those it does not because of an error (all of them if the directory cannot be opened) *)
Inductive node : Type :=
| File (content : option str)
| Dir (listed unlisted : list (str * node)).

(* filepath.Ext of a path whose last element is s: from the last dot *)
Fixpoint ext (s : str) : str :=
  match s with
  | [] => []
  | c :: r => if Ascii.eqb c "." && negb (existsb (Ascii.eqb ".") r) then s else ext r
  end.

(* the order of strings in Go: by bytes *)
Fixpoint leb_str (a b : str) : bool :=
  match a, b with
  | [], _ => true
  | _ :: _, [] => false
  | x :: a, y :: b => (byte x <? byte y)%N || ((byte x =? byte y)%N && leb_str a b)
  end.
(* os.ReadDir sorts the entries by name *)
Fixpoint insert {A} (e : str * A) (l : list (str * A)) : list (str * A) :=
  match l with
  | [] => [e]
  | f :: r => if leb_str (fst e) (fst f) then e :: l else f :: insert e r
  end.
Definition sort {A} (l : list (str * A)) : list (str * A) := fold_right insert [] l.

(* cmd/tealsarif/main.go:84-91: the files that WalkDir with this function collects, below path.  An error
   of os.ReadDir is ignored: the function returns nil, upon which WalkDir goes on with what was listed *)
Fixpoint walk (path : list str) (n : node) : list (list str * option str) :=
  match n with
  | File c => if seqb (ext (last path [])) (bs ".teal") then [(path, c)] else []
  | Dir l _ => concat (map snd (sort (map (fun e => (fst e, walk (path ++ [fst e]) (snd e))) l)))
  end.

(* what the argument names: nothing, a file or directory, or a symbolic link to one *)
Inductive target : Type := Missing | Itself (n : node) | LinkTo (n : node).
(* cmd/tealsarif/main.go:78-100; os.Stat follows a link, WalkDir does not.  None: the scan ends with an error *)
Definition scanned (path : list str) (t : target) : option (list (list str * option str)) :=
  match t with
  | Missing => None
  | Itself (File c) | LinkTo (File c) => Some [(path, c)]
  | Itself n => Some (walk path n)
  | LinkTo (Dir _ _) => Some (walk path (File None))
  end.

(* net/url escape of a path: the bytes that stay *)
Definition url_plain (c : ascii) : bool :=
  in_chars "a" "z" c || in_chars "A" "Z" c || in_chars "0" "9" c || existsb (Ascii.eqb c) (bs "-_.~$&+,/:;=@").
Definition upper_hex (d : N) : ascii := ascii_of_N (if (d <? 10)%N then 48 + d else 55 + d)%N.
Definition url_escape (s : str) : str :=
  flat_map (fun c => if url_plain c then [c] else ["%"%char; upper_hex (byte c / 16); upper_hex (byte c mod 16)]) s.
(* cmd/tealsarif/main.go:110-120: the uri of a file *)
Definition file_uri (path : list str) : str := bs "file://" ++ url_escape (flat_map (fun e => "/"%char :: e) path).

(* cmd/tealsarif/main.go:36-163 run *)
Definition scan_path (en : env) (path : list str) (t : target) : res (option report) :=
  match scanned path t with
  | None => Ret None
  | Some fs => scan en (map (fun f => (file_uri (fst f), snd f)) fs)
  end.
