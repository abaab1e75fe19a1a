(** * Specification: data of an optimal control problem that belong together *)
From Coq Require Import List Arith Reals.
From Verif Require Import Interp_Model Interp_Spec Ctimes_Spec Jac_Spec Iface_Model.
Import ListNotations.
Open Scope R_scope.

(** The state times lie in the span of the control times (up to the tolerance at the end). *)
Definition controlled (ct st : list R) : Prop :=
  ct <> [] /\ st <> [] /\ forall t, In t st -> nth 0 ct 0 <= t < last ct 0 + tolerance.

(** Constraint times are state times after the initial one, in order. *)
Definition constraint_times_of (st cons : list R) : Prop :=
  exists idx, positions_after_start (length st) idx /\ times_at st idx cons.

Definition same_grid (m : nat) (pts : list R) (vs : list ivec) : Prop :=
  forall v, In v vs -> iinner v = m /\ ipoints v = pts.

(** The vectors have the sizes of the problem; the grids are sorted and fit together. *)
Definition fits (nx nu ng : nat) (st ct cons x0 : list R) (iv : init_values) : Prop :=
  length x0 = nx /\
  (exists p, same_grid nu p [initial_controls iv; lower_bounds iv; upper_bounds iv]) /\
  (exists q, same_grid ng q [constraint_lower_bounds iv; constraint_upper_bounds iv]) /\
  nondecreasing st /\ nondecreasing ct /\ nondecreasing cons /\
  controlled ct st /\ constraint_times_of st cons.
