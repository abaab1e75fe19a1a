(** * Specification vocabulary for interpolation and time grids (independent of the model) *)
From Coq Require Import List Arith Reals Sorted.
Import ListNotations.
Open Scope R_scope.

(** Strictly increasing list of points. *)
Definition increasing (l : list R) : Prop := StronglySorted Rlt l.

(** Value of component [k] of the row stored for point [i] in a row-major table with
    rows of length [m]. *)
Definition entry (table : list R) (m i k : nat) : R := nth (i * m + k) table 0.

(** [y] is the value at [t] of the piecewise linear function through the points
    [(pts[i], f i)], continued constantly by at most [tol] beyond both ends. *)
Definition piecewise_linear (tol : R) (pts : list R) (f : nat -> R) (t y : R) : Prop :=
  (exists i, nth_error pts i = Some t /\ y = f i) \/
  (exists i a b, nth_error pts i = Some a /\ nth_error pts (S i) = Some b /\
     a < t < b /\ y = f i + (f (S i) - f i) * ((t - a) / (b - a))) \/
  (exists a, nth_error pts 0 = Some a /\ a - tol <= t < a /\ y = f 0%nat) \/
  (exists n b, nth_error pts n = Some b /\ length pts = S n /\ b < t <= b + tol /\ y = f n).

(** [t] is covered by the points up to the tolerance. *)
Definition covered (tol : R) (pts : list R) (t : R) : Prop :=
  exists a b, nth_error pts 0 = Some a /\ nth_error pts (length pts - 1) = Some b /\
    a - tol <= t <= b + tol.

(** [t] lies inside the span of the points. *)
Definition inside (pts : list R) (t : R) : Prop :=
  exists a b, nth_error pts 0 = Some a /\ nth_error pts (length pts - 1) = Some b /\ a <= t <= b.

(** [g] is the equidistant grid with [n] intervals from [a] to [b]. *)
Definition equidistant_grid (a b : R) (n : nat) (g : list R) : Prop :=
  length g = S n /\
  forall i, (i <= n)%nat -> nth_error g i = Some (a + INR i * ((b - a) / INR n)).

(** Sum of [f 0 .. f (n-1)]. *)
Fixpoint Rsum (n : nat) (f : nat -> R) : R :=
  match n with O => 0 | S k => Rsum k f + f k end.

(** Trapezoidal rule on the points for values [f i] at point [i]. *)
Definition trapezoid (pts : list R) (f : nat -> R) : R :=
  Rsum (length pts - 1) (fun i => (nth (S i) pts 0 - nth i pts 0) * ((f i + f (S i)) / 2)).

(** The tolerance 1e-10 of the code. *)
Definition tolerance : R := / 10 ^ 10.

(** What the derivative computation does with a pair (upper index, weight): everything to
    the upper point if the weight is one, otherwise a split between the upper point and its
    predecessor. *)
Definition weighted (u : nat) (la : R) (f : nat -> R) : R :=
  if Req_EM_T la 1 then f u else la * f u + (1 - la) * f (u - 1)%nat.

(** The first grid covers the second one. *)
Definition inside_span (coarse fine : list R) : Prop :=
  exists a b a' b', nth_error coarse 0 = Some a /\ nth_error coarse (length coarse - 1) = Some b /\
    nth_error fine 0 = Some a' /\ nth_error fine (length fine - 1) = Some b' /\ a <= a' /\ b' <= b.


(** Every row of a table has its place in the flat list of values. *)
Definition table_of (pts : list R) (m : nat) (table : list R) : Prop :=
  length table = (length pts * m)%nat.
