(** * Specification of a damped Newton iteration

    Written without reference to the solver's loops: a predicate saying which sequences of
    states are damped Newton iterations. *)
From Coq Require Import Reals ZArith List.
From Verif Require Import Interp_Model Newton_Model.
Import ListNotations.
Local Open Scope R_scope.

(** [a] is a number and at most [b]. *)
Definition at_most (a : xdouble) (b : R) : Prop :=
  match a with Fin x => x <= b | NInf => True | PInf => False | NaN => False end.

Definition above (a : xdouble) (b : xdouble) : Prop :=
  match a, b with
  | Fin x, Fin y => y < x
  | PInf, Fin _ | PInf, NInf | Fin _, NInf => True
  | _, _ => False
  end.

Section Path.
Variable N : nsystem.
Notation V := (ns_vec N).

(** The Newton correction at [x] with the factorised matrix [lu], and the size of the
    correction that the same matrix would give at [y]. *)
Definition correction (lu : ns_lu N) (x : V) : V :=
  ns_neg N (ns_linsolve N lu (ns_eval N x)).
Definition correction_norm (lu : ns_lu N) (y : V) : xdouble :=
  ns_norm N (correction lu y).

(** The step sizes that are tried: 1, 1/2, 1/4, ..., 2^-1074 (the smallest positive double),
    and then zero. *)
Definition stepsize (k : nat) : R := if (k <=? 1074)%nat then (/ 2) ^ k else 0.

(** The trial point for the step size number k and the monotonicity test it has to pass. *)
Definition trial (lu : ns_lu N) (x : V) (k : nat) : V :=
  ns_move N x (stepsize k) (correction lu x).
Definition too_long (lu : ns_lu N) (x : V) (k : nat) : Prop :=
  above (correction_norm lu (trial lu x k))
        (xscale (1 - / 2 * stepsize k) (correction_norm lu x)).

(** [y] is the damped Newton step from [x]: the longest of the steps above whose
    trial point passes the test. *)
Definition damped_step (lu : ns_lu N) (x y : V) : Prop :=
  exists k, y = trial lu x k /\ ~ too_long lu x k /\ forall j, (j < k)%nat -> too_long lu x j.

(** [states] is a Newton iteration starting at [x0]: consecutive states are damped steps with
    the matrix at the current state ([full]) or at [x0], and every state but the last has a
    residual above the tolerance. *)
Definition newton_iteration (full : bool) (tol : R) (states : list V) : Prop :=
  exists x0, nth_error states 0 = Some x0 /\
  forall i x y, nth_error states i = Some x -> nth_error states (S i) = Some y ->
    above (ns_norm N (ns_eval N x)) (Fin tol) /\
    exists lu, ns_factor N (if full then x else x0) = Some lu /\ damped_step lu x y.

(** No residual evaluates to NaN. *)
Definition residual_never_nan : Prop := forall x, ns_norm N (ns_eval N x) <> NaN.

End Path.
