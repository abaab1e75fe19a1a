(** * Results of C++ functions

    [Ok a]   normal return with value [a];
    [Exc]    a C++ exception leaves the function ([gthrow], [throw]);
    [UB]     undefined behaviour: access outside an array, dereferencing a null or
             past-the-end pointer, or an Eigen/[assert] precondition violated (these
             checks are compiled out in release builds). *)
From Coq Require Import List Arith Lia.
Import ListNotations.

Inductive outcome (A : Type) : Type :=
| Ok (a : A)
| Exc
| UB.
Arguments Ok {A} a.
Arguments Exc {A}.
Arguments UB {A}.

Definition obind {A B} (x : outcome A) (f : A -> outcome B) : outcome B :=
  match x with Ok a => f a | Exc => Exc | UB => UB end.

Definition omap {A B} (f : A -> B) (x : outcome A) : outcome B :=
  match x with Ok a => Ok (f a) | Exc => Exc | UB => UB end.

(** Run an action on every element of a list, left to right, stopping at the first
    exception or undefined behaviour. *)
Fixpoint omapM {A B} (f : A -> outcome B) (l : list A) : outcome (list B) :=
  match l with
  | [] => Ok []
  | x :: xs => obind (f x) (fun y => obind (omapM f xs) (fun ys => Ok (y :: ys)))
  end.

(** Reading element [i] of an array ([operator[]] of std::vector / Eigen::VectorXd):
    reading outside the array is undefined behaviour. *)
Definition get {A} (l : list A) (i : nat) : outcome A :=
  match nth_error l i with Some a => Ok a | None => UB end.

Lemma get_Ok {A} (l : list A) i a : get l i = Ok a <-> nth_error l i = Some a.
Proof. unfold get. destruct (nth_error l i); split; intro H; congruence. Qed.

Lemma obind_Ok {A B} (x : outcome A) (f : A -> outcome B) b :
  obind x f = Ok b <-> exists a, x = Ok a /\ f a = Ok b.
Proof.
  destruct x; simpl; split.
  - intro H; eauto.
  - intros [a' [E H]]; congruence.
  - discriminate.
  - intros [a' [E H]]; congruence.
  - discriminate.
  - intros [a' [E H]]; congruence.
Qed.
