(** * Specification: which entries the constraint Jacobian may have *)
From Coq Require Import List Arith Reals.
Import ListNotations.
Open Scope R_scope.

(** The constraint at constraint time number [i] may depend on the control at control point
    number [j]: the first control point influences everything, control point [j] influences
    the interpolated control only at times later than its predecessor. *)
Definition may_depend (constrainttimes controltimes : list R) (i j : nat) : Prop :=
  (i < length constrainttimes)%nat /\ (j < length controltimes)%nat /\
  (j = 0%nat \/ exists s u, nth_error constrainttimes i = Some s /\
                 nth_error controltimes (j - 1) = Some u /\ u < s).

(** Rows are ordered by constraint time (blocks of [bh] rows), columns by control point
    (blocks of [bw] columns). *)
Definition structural_entry (bh bw : nat) (constrainttimes controltimes : list R) (row col : nat) : Prop :=
  exists i r j c, row = (i * bh + r)%nat /\ (r < bh)%nat /\ col = (j * bw + c)%nat /\ (c < bw)%nat /\
    may_depend constrainttimes controltimes i j.

Definition nondecreasing (l : list R) : Prop :=
  forall i j a b, (i <= j)%nat -> nth_error l i = Some a -> nth_error l j = Some b -> a <= b.
