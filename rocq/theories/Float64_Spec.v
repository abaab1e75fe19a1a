(** What is expected of the time grids and of the interpolation, stated with real numbers.
    [value x] is the real number a finite double stands for. *)
From Coq Require Import ZArith List Reals Sorting.
From Flocq Require Import Core IEEE754.BinarySingleNaN.
From Verif Require Import Base Float64_Model.
Import ListNotations.
Local Open Scope R_scope.

Definition finite (x : double) : Prop := is_finite x = true.
Definition value (x : double) : R := B2R x.

(** The roundoff 2^-53 of double arithmetic. *)
Definition roundoff : R := / 9007199254740992.

Definition all_finite (l : list double) : Prop := Forall finite l.
Definition increasing (l : list double) : Prop := StronglySorted Rlt (map value l).
Definition bounded_by (b : R) (l : list double) : Prop := Forall (fun x => Rabs (value x) <= b) l.

(** The data of an interpolating vector: as many rows as points, rows of the same length, all
    entries finite and none of astronomical size. *)
Definition huge : R := bpow radix2 1000.
Record proper (width : nat) (points : list double) (rows : list (list double)) : Prop := {
  points_finite : all_finite points;
  points_bounded : bounded_by huge points;
  points_increasing : increasing points;
  rows_number : length rows = length points;
  rows_width : Forall (fun r => length r = width) rows;
  rows_finite : Forall all_finite rows;
  rows_bounded : Forall (bounded_by huge) rows
}.

(** A vector given on the two points [a] and [b] only can be evaluated at [t]. *)
Definition usable (a b t : double) : Prop :=
  forall ra rb, exists r, eval64 [a; b] [ra; rb] t = Ok r.

(** [w] lies between the entries of two neighbouring rows, up to rounding. *)
Definition between_up_to_rounding (a b w : R) : Prop :=
  let slack := 8 * roundoff * Rmax (Rabs a) (Rabs b) + bpow radix2 (-1000) in
  Rmin a b - slack <= w <= Rmax a b + slack.

(** The smallest number of steps of at most [desired] that cover the interval. *)
Definition steps_needed (tstart tend desired : R) : Z := Zceil ((tend - tstart) / desired).

(** A span of time that is neither astronomically small nor large. *)
Definition ordinary_span (tstart tend : double) : Prop :=
  finite (dminus tend tstart) /\
  bpow radix2 (-900) <= value (dminus tend tstart) <= bpow radix2 900.
