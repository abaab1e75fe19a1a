(** * Specification: constraint times as a sublist of the state times *)
From Coq Require Import List Arith Reals.
Import ListNotations.
Open Scope R_scope.

(** [idx] lists positions in the state grid, strictly increasing and after the initial time. *)
Definition positions_after_start (size : nat) (idx : list nat) : Prop :=
  (forall k i, nth_error idx k = Some i -> (1 <= i < size)%nat) /\
  (forall k i i', nth_error idx k = Some i -> nth_error idx (S k) = Some i' -> (i < i')%nat).

(** [times] are the state times at the positions [idx]. *)
Definition times_at (state : list R) (idx : list nat) (times : list R) : Prop :=
  length times = length idx /\
  forall k i, nth_error idx k = Some i -> nth_error times k = nth_error state i.

(** Neighbouring positions are at most [gap] apart. *)
Definition gaps_at_most (gap : nat) (idx : list nat) : Prop :=
  forall k i i', nth_error idx k = Some i -> nth_error idx (S k) = Some i' -> (i' - i <= gap)%nat.
