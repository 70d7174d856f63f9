(** Common vocabulary of the model: Go strings, run-time panics, slices. *)
From Coq Require Export Ascii String.
From Coq Require Export List Arith NArith ZArith Bool Lia.
Export ListNotations.
#[global] Open Scope string_scope.
#[global] Open Scope nat_scope.
#[global] Open Scope list_scope.

(** A Go [string] or [[]byte]: a list of bytes. *)
Definition str := list ascii.

Definition bs (s : string) : str := list_ascii_of_string s.
Coercion bs : string >-> str.

Definition byte (c : ascii) : N := N_of_ascii c.

(** Result of running a piece of Go code: a value, a run-time panic, or a loop
    that did not finish within the fuel given to the model. *)
Inductive res (A : Type) : Type :=
| Ret (a : A)
| Panic
| OutOfFuel.
Arguments Ret {A} a.
Arguments Panic {A}.
Arguments OutOfFuel {A}.

Definition bindr {A B : Type} (x : res A) (f : A -> res B) : res B :=
  match x with
  | Ret a => f a
  | Panic => Panic
  | OutOfFuel => OutOfFuel
  end.
Notation "'letr' x := e 'in' f" := (bindr e (fun x => f))
  (at level 200, x pattern, e at level 100, f at level 200, right associativity).

Definition mapr {A B} (f : A -> B) (x : res A) : res B :=
  match x with Ret a => Ret (f a) | Panic => Panic | OutOfFuel => OutOfFuel end.

(** Byte string equality ([==] on Go strings). *)
Fixpoint seqb (x y : str) : bool :=
  match x, y with
  | [], [] => true
  | a :: x', c :: y' => Ascii.eqb a c && seqb x' y'
  | _, _ => false
  end.

Lemma seqb_spec x y : reflect (x = y) (seqb x y).
Proof.
  revert y; induction x as [|a x IH]; intros [|c y]; cbn [seqb]; try (constructor; congruence).
  destruct (Ascii.eqb_spec a c) as [->|Hn]; cbn [andb].
  - destruct (IH y) as [->|Hn]; constructor; congruence.
  - constructor; congruence.
Qed.

Lemma seqb_refl x : seqb x x = true.
Proof. destruct (seqb_spec x x); congruence. Qed.

Lemma seqb_eq x y : seqb x y = true <-> x = y.
Proof. destruct (seqb_spec x y); split; congruence. Qed.

Lemma seqb_neq x y : seqb x y = false <-> x <> y.
Proof. destruct (seqb_spec x y); split; congruence. Qed.

Lemma seqb_sym x y : seqb x y = seqb y x.
Proof. destruct (seqb_spec x y), (seqb_spec y x); congruence. Qed.

Definition str_dec (x y : str) : {x = y} + {x <> y} := list_eq_dec ascii_dec x y.

(** [mem x l]: Go's idiom of a map used as a set of strings. *)
Definition mem (x : str) (l : list str) : bool := existsb (seqb x) l.

Lemma mem_In x l : mem x l = true <-> In x l.
Proof.
  unfold mem; rewrite existsb_exists; split.
  - intros [y [Hy He]]. apply seqb_eq in He. subst; exact Hy.
  - intros H; exists x; split; [exact H | apply seqb_refl].
Qed.

Lemma mem_not_In x l : mem x l = false <-> ~ In x l.
Proof. rewrite <- mem_In. destruct (mem x l); split; congruence. Qed.

(** Go slice expression [s[lo:hi]] on a value whose capacity is its length:
    panics unless [lo <= hi <= len(s)]. *)
Definition slice {A} (s : list A) (lo hi : nat) : res (list A) :=
  if (lo <=? hi) && (hi <=? length s)
  then Ret (firstn (hi - lo) (skipn lo s))
  else Panic.

(** Go index expression [s[i]]: panics when out of range. *)
Definition index {A} (s : list A) (i : nat) : res A :=
  match nth_error s i with Some x => Ret x | None => Panic end.

(** [s[i] = f(s[i])] for [i] in range; identity otherwise (callers guard). *)
Fixpoint upd_nth {A} (i : nat) (f : A -> A) (s : list A) : list A :=
  match s, i with
  | [], _ => []
  | x :: s', 0 => f x :: s'
  | x :: s', S i' => x :: upd_nth i' f s'
  end.

Lemma upd_nth_length {A} i (f : A -> A) s : length (upd_nth i f s) = length s.
Proof. revert i; induction s as [|x s IH]; intros [|i]; cbn; congruence. Qed.

Lemma nth_upd_nth_same {A} i (f : A -> A) s :
  nth_error (upd_nth i f s) i = option_map f (nth_error s i).
Proof. revert i; induction s as [|x s IH]; intros [|i]; cbn; auto. Qed.

Lemma nth_upd_nth_other {A} i j (f : A -> A) s :
  i <> j -> nth_error (upd_nth i f s) j = nth_error s j.
Proof.
  revert i j; induction s as [|x s IH]; intros [|i] [|j] H; cbn; auto; try lia.
Qed.
