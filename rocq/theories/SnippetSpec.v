(* What an editor makes of a snippet, and the code the two snippets stand for.  Snippets are written in
   the language of the Language Server Protocol: $1, ${1} and ${1:text} are places to fill in, the ones
   with the same number together, and the text is what stands there until something is typed. *)
From Verif Require Import Base LexSpec Expr Linter Fields Literals Codec OpTable Print Process ProcessSpec RoundTripSpec VmSpec RealSpec.
From Verif Require Flow LintSpec.

Inductive place : Set :=
| Outside
| Dollar
| Number (n : nat) (braced : bool)
| Default (n : nat) (text : str).

Definition digit (c : ascii) : option nat :=
  if (48 <=? byte c)%N && (byte c <=? 57)%N then Some (N.to_nat (byte c - 48)) else None.

Section Expand.
(* what is typed into the places; None: the text of the place stays *)
Variable typed : nat -> option str.
Definition put (n : nat) (text : str) : str := match typed n with Some s => s | None => text end.

Fixpoint expand (p : place) (s : str) : str :=
  match s with
  | [] => match p with Number n false => put n [] | _ => [] end
  | c :: r =>
      match p with
      | Outside => if Ascii.eqb c "$" then expand Dollar r else c :: expand Outside r
      | Dollar =>
          if Ascii.eqb c "{" then expand (Number 0 true) r
          else match digit c with Some d => expand (Number d false) r | None => "$"%char :: c :: expand Outside r end
      | Number n braced =>
          match digit c with
          | Some d => expand (Number (10 * n + d) braced) r
          | None =>
              if braced then
                if Ascii.eqb c "}" then put n [] ++ expand Outside r else expand (Default n []) r
              else put n [] ++ (if Ascii.eqb c "$" then expand Dollar r else c :: expand Outside r)
          end
      | Default n t => if Ascii.eqb c "}" then put n t ++ expand Outside r else expand (Default n (t ++ [c])) r
      end
  end.
Definition inserted (s : str) : str := expand Outside s.
End Expand.

(* the names chosen for the calls of an application, in the order of langspec.json, the name of the code
   behind them, and the rest of the text *)
Record soc_choice := Soc { sc_noop : str; sc_optin : str; sc_closeout : str; sc_clear : str; sc_update : str; sc_delete : str; sc_then : str }.
Definition soc_typed (c : soc_choice) (rest : str) (n : nat) : option str :=
  match n with
  | 1 => Some (sc_noop c) | 2 => Some (sc_optin c) | 3 => Some (sc_closeout c) | 4 => Some (sc_clear c)
  | 5 => Some (sc_update c) | 6 => Some (sc_delete c) | 8 => Some (sc_then c) | 9 => Some rest | _ => None
  end.
Definition soc_calls (c : soc_choice) : list str :=
  [sc_noop c; sc_optin c; sc_closeout c; sc_clear c; sc_update c; sc_delete c].
Definition soc_names (c : soc_choice) : list str := soc_calls c ++ [sc_then c].
Definition soc_default : soc_choice :=
  Soc (bs "noop") (bs "optin") (bs "closeout") (bs "clearstate") (bs "updateapplication") (bs "deleteapplication") (bs "then").

(* a name that may stand before a colon and behind an opcode *)
Definition label_word (n : str) : Prop := is_word n = true.

(* the program: look at the kind of the call, go to the code for it, and from there to the end *)
Definition on_completion : N := 25.
Definition soc_listing (c : soc_choice) : listing :=
  [TxnExpr on_completion; SwitchExpr (soc_calls c);
   LabelExpr (sc_noop c); BExpr (sc_then c); EmptyExpr;
   LabelExpr (sc_optin c); BExpr (sc_then c); EmptyExpr;
   LabelExpr (sc_closeout c); BExpr (sc_then c); EmptyExpr;
   LabelExpr (sc_clear c); BExpr (sc_then c); EmptyExpr;
   LabelExpr (sc_update c); BExpr (sc_then c); EmptyExpr;
   LabelExpr (sc_delete c); EmptyExpr;
   LabelExpr (sc_then c)].

(* the subroutine: its name, the numbers of its arguments and results, and a line of code *)
Record func_choice := Func { fc_name : str; fc_args : N; fc_results : N; fc_line : list str }.
Definition func_typed (c : func_choice) (n : nat) : option str :=
  match n with
  | 1 => Some (fc_name c) | 2 => Some (dec (fc_args c)) | 3 => Some (dec (fc_results c)) | 4 => Some (join (fc_line c)) | _ => None
  end.
Definition func_listing (c : func_choice) (body : expr) : listing :=
  [LabelExpr (fc_name c); EmptyExpr; ProtoExpr (fc_args c) (fc_results c); body; RetSubExpr].

(* the line of code in the middle: none, or an instruction of version v that names no label and goes on
   with the next line *)
Inductive body_line (en : env) (v : N) : list str -> expr -> Prop :=
| body_none : body_line en v [] EmptyExpr
| body_op w args p e : Forall (fun x => one_token x = true) (w :: args) ->
    label_name w = None -> ops_get w = Some p -> assemble en v p args = Some (e, []) ->
    (0 < min_version ModeApp p <= v)%N -> (0 < min_version ModeSig p <= v)%N ->
    ~ LintSpec.unconditional e -> (forall m, ~ Flow.names e m) -> (forall m, e <> LabelExpr m) -> (forall x, e <> PragmaExpr x) ->
    body_line en v (w :: args) e.

(* an instruction put before line k would not be dead *)
Definition alive_at (l : listing) (k : nat) : Prop :=
  ~ exists j e, j < k /\ nth_error l j = Some e /\ LintSpec.unconditional e /\
      forall x m, j < x < k -> Flow.defines l x m -> ~ Flow.used l m.

(* n instructions of an execution *)
Inductive steps (w : world) (l : listing) : nat -> real_state -> real_state -> Prop :=
| steps_0 s : steps w l 0 s s
| steps_S n s s1 s2 e : nth_error l (c_line s) = Some e -> instruction w l e s s1 -> steps w l n s1 s2 -> steps w l (S n) s s2.

(* the transaction is a call of kind n *)
Definition call_kind (w : world) (n : N) : Prop :=
  forall res, w_op w (TxnExpr on_completion) [] res <-> res = [CInt n].
