(* Property C112: what is said about a field. *)
From Verif Require Import Base LexSpec Lexer Expr Codec Fields OpTable Process ProcessSpec Query Semantics Lsp AnswerSpec AnswerProofs FieldDocs NotedSpec NotedProofs PropProcess.

(* what a hover shows, when it is about a field *)
Definition shows (src : str) (l ch : Z) : option str :=
  match process env0 src with
  | Ret r => match doc_at r l ch with Ret (FieldDoc k f) => Some (hover_text k f) | _ => None end
  | _ => None
  end.
Definition complaints (src : str) : option nat := match process env0 src with Ret r => Some (length (r_diag r)) | _ => None end.

(* The restrictions in the texts are not all enforced: a field of applications may be read in a logic signature, and the effects
   of a transaction may be read with txn in version 5. *)
Definition sig_round : str := lines ["#pragma version 5"; "//#pragma mode logicsig"; "global Round"; "return"].
Definition app_logs : str := lines ["#pragma version 5"; "txn NumLogs"; "return"].
Theorem C112_refuted :
  (shows sig_round 2 8 = Some (bs "Round = 6" ++ [c_cr; c_lf] ++ bs "Current round number. Application mode only.") /\ complaints sig_round = Some 0) /\
  (shows app_logs 1 5 = Some (bs "NumLogs = 59" ++ [c_cr; c_lf] ++ bs "Number of Logs (only with `itxn` in v5). Application mode only") /\ complaints app_logs = Some 0).
Proof. vm_compute. repeat split. Qed.
Print Assumptions C112_refuted.

(* The note of a field says that it is for applications only exactly when it is. *)
Theorem C112_noted k sp f s : field_table k = Some sp -> nth_error sp (N.to_nat f) = Some s ->
  (mentions (bs "Application mode only") (note k f) <-> app_only k (f_name s)).
Proof. exact (noted k sp f s). Qed.
Print Assumptions C112_noted.
Example C112_noted_ex : note IGlobal 12 = bs "The remaining cost that can be spent by opcodes in this program." /\
  note IGlobal 13 = bs "The application ID of the application that called this application. 0 if this application is at the top-level. Application mode only." /\
  app_only IGlobal (bs "CallerApplicationID") /\ ~ app_only IGlobal (bs "OpcodeBudget") /\ ~ app_only IAppParams (bs "Round").
Proof. split; [vm_compute; reflexivity|]. split; [vm_compute; reflexivity|]. cbn. intuition discriminate. Qed.

(* Hovering over an operand spelled as a completion offers it shows the label, the value and the text of the offer. *)
Theorem C112_alike r r' a x sp p t : documented (oa_type a) sp -> In x (arg_vals r a) ->
  on_operand r' p a t -> tok_v t = av_name x -> (0 <= ps_line p)%Z ->
  exists f d, In (Item (av_name x) (Some d) (note (oa_type a) f)) (items r a) /\
    doc_at r' (ps_line p) (ps_char p) = Ret (FieldDoc (oa_type a) f) /\
    hover_text (oa_type a) f = av_name x ++ d ++ [c_cr; c_lf] ++ note (oa_type a) f.
Proof. exact (shown_alike r r' a x sp p t). Qed.
Print Assumptions C112_alike.
Definition held : op_arg := OpArg "f" IAssetHolding false false.
Example C112_alike_ex : match process env0 (lines ["#pragma version 2"; "asset_holding_get AssetFrozen"]) with
  | Ret r => items r held = [Item (bs "AssetBalance") (Some (bs " = 0")) (bs "Amount of the asset unit held by this account");
                             Item (bs "AssetFrozen") (Some (bs " = 1")) (bs "Is the asset frozen or not")] /\
             match doc_at r 1 20 with Ret (FieldDoc k f) => hover_text k f = bs "AssetFrozen = 1" ++ [c_cr; c_lf] ++ bs "Is the asset frozen or not" | _ => False end
  | _ => False end.
Proof. vm_compute. split; reflexivity. Qed.

(* Texts of different fields differ. *)
Theorem C112_tells k sp k' sp' f s f' s' : field_table k = Some sp -> nth_error sp (N.to_nat f) = Some s ->
  field_table k' = Some sp' -> nth_error sp' (N.to_nat f') = Some s' ->
  hover_text k f = hover_text k' f' -> f_name s = f_name s' /\ f = f'.
Proof. exact (hover_tells k sp k' sp' f s f' s'). Qed.
Print Assumptions C112_tells.
Example C112_tells_ex : hover_text IAppParams 0 <> hover_text IAssetParams 0 /\ hover_text IAppParams 0 = bs "AppApprovalProgram = 0" ++ [c_cr; c_lf] ++ bs "Bytecode of Approval Program".
Proof. vm_compute. split; [discriminate|reflexivity]. Qed.
