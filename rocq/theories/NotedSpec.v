(* What may be said about a field: that only applications have it, and from which version on. *)
From Verif Require Import Base Fields OpTable Query.

(* a text mentions a phrase *)
Definition mentions (w s : str) : Prop := exists a b, s = a ++ w ++ b.

(* the effects of a transaction and the values of a running application, by the documents of the AVM *)
Definition effects : list str := [bs "Logs"; bs "NumLogs"; bs "CreatedAssetID"; bs "CreatedApplicationID"; bs "LastLog"].
Definition of_the_application : list str :=
  [bs "Round"; bs "LatestTimestamp"; bs "CurrentApplicationID"; bs "CreatorAddress"; bs "CurrentApplicationAddress";
   bs "CallerApplicationID"; bs "CallerApplicationAddress"].
Definition app_only (k : imm) (name : str) : Prop :=
  match k with
  | ITxnField | ITxnaField | IItxnField => In name effects
  | IGlobal => In name of_the_application
  | _ => False
  end.
