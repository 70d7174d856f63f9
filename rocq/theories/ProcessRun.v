(* every opcode of the table is of one of the kinds of ProcessProofs *)
From Verif Require Import Base LexSpec Lexer Expr Linter Fields Strconv Literals LiteralsProofs Codec OpTable Process ProcessSpec ProcessProofs.
From Coq Require Import ZifyBool ZifyNat ZifyN.

(* every opcode is of one of the three kinds *)
Definition label_kind (n : string) (p : prog) : Prop :=
  if one_of branch_names (bs n) then labelled false p
  else if one_of table_names (bs n) then labelled true p
  else plain p.

Lemma ops_label_kinds : Forall (fun x => label_kind (fst x) (snd x)) ops_list.
Proof.
  unfold ops_list.
  repeat (constructor; [cbv beta iota delta [label_kind one_of branch_names table_names existsb fst snd];
    match goal with |- if ?b then _ else _ => let b' := eval vm_compute in b in change b with b' end; cbv iota;
    try match goal with |- if ?b then _ else _ => let b' := eval vm_compute in b in change b with b' end; cbv iota;
    match goal with
    | |- labelled _ ?p => unfold p; cbn [labelled]; split; [reflexivity|]; cbv beta; intros x; eexists; split; [reflexivity|split; reflexivity]
    | |- plain ?p => try unfold p; cbn [plain];
        repeat (first [ split; [discriminate|] | split; [reflexivity|reflexivity] | intros ?x; cbn [plain]
                      | match goal with |- plain (match ?x with _ => _ end) => destruct x end; cbn [plain]
                      | match goal with |- plain (if ?x then _ else _) => destruct x end; cbn [plain] ])
    end|]).
  constructor.
Qed.
