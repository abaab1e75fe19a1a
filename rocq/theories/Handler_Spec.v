(** * What filling a matrix should mean *)
From Coq Require Import Reals List Arith.
From Verif Require Import Base Handler_Model.
Import ListNotations.
Local Open Scope R_scope.

(** The sum of the contributions to one position. *)
Definition total (ts : list contribution) (r c : nat) : R :=
  fold_right Rplus 0
    (map snd (filter (fun t => (Nat.eqb (fst (fst t)) r && Nat.eqb (snd (fst t)) c)%bool) ts)).
(** The same for the transposed matrix. *)
Definition expected (transposed : bool) (ts : list contribution) (r c : nat) : R :=
  if transposed then total ts c r else total ts r c.

Definition positions (ts : list contribution) : list (nat * nat) := map fst ts.
(** All positions lie in a matrix with the given numbers of rows and columns (of the
    contributions, i.e. before transposition). *)
Definition fits (rows cols : nat) (ts : list contribution) : Prop :=
  Forall (fun t : contribution => (fst (fst t) < rows /\ snd (fst t) < cols)%nat) ts.

(** A well-formed compressed matrix: no free slots, every position at most once. *)
Definition compressed (m : smatrix) : Prop :=
  Forall (fun c => col_free c = [] /\ NoDup (map fst (col_entries c))) (m_cols m).
