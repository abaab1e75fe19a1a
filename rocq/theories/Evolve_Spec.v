(** * Specification of retries, simulation and saved values *)
From Coq Require Import Reals ZArith List Bool.
From Verif Require Import Base Interp_Model Newton_Model Newton_Spec Evolve_Model.
Import ListNotations.
Local Open Scope R_scope.

(** ** Retries *)

(** Largest number of solver calls for one time step. *)
Definition attempt_bound (simplified : bool) (retries : Z) : Z :=
  if (retries <? 0)%Z then 1
  else if simplified then (2 * retries + 2)%Z else (retries + 2)%Z.

(** Whether attempt number [i] (counted from 0) uses a fresh Jacobian in every iteration:
    always without simplification, else after the first attempt and [retries] retries. *)
Definition uses_full (simplified : bool) (retries : Z) (i : nat) : bool :=
  if simplified then ((0 <=? retries)%Z && (retries <? Z.of_nat i)%Z)%bool else true.

Definition failed {V} (r : nresult (V * solution)) : Prop :=
  exists y sol, r = Some (Ok (y, sol)) /\ success sol = false.

Section Retries.
Context {V E : Type}.
Variable prepare : E -> outcome E.
Variable solver : E -> bool -> V -> nresult (V * solution).

(** The log of one time step started with guess [x] and problem state [e] is in order:
    before every attempt the problem is prepared anew, every attempt starts at [x], and all
    attempts but the last failed. *)
Record well_behaved (simplified : bool) (retries : Z) (x : V) (e : E)
    (log : list (attempt V E)) : Prop := {
  wb_bound : (Z.of_nat (length log) <= attempt_bound simplified retries)%Z;
  wb_first : forall a, nth_error log 0 = Some a -> prepare e = Ok (at_env a);
  wb_next : forall i a b, nth_error log i = Some a -> nth_error log (S i) = Some b ->
    prepare (at_env a) = Ok (at_env b) /\ failed (at_result a);
  wb_start : forall i a, nth_error log i = Some a ->
    at_start a = x /\ at_full a = uses_full simplified retries i /\
    at_result a = solver (at_env a) (at_full a) x }.
End Retries.

(** ** Simulation *)
Section Simulation.
Variable P : problem.
Notation V := (pr_vec P).
Notation E := (pr_env P).

(** [y] is what the Newton solver accepted for the step from ([t0], [x]) to [t1] after the
    problem was prepared for that step; [e] is the prepared problem. *)
Definition accepted (cfg : nsettings) (fuel : nat) (controls : ivec)
    (t0 t1 : R) (x y : V) (e : E) : Prop :=
  exists c e0 full sol,
    (iinner controls = 0%nat /\ c = [] \/ (0 < iinner controls)%nat /\ interp_at controls t1 = Ok c) /\
    pr_prepare P e0 t0 t1 x c = Ok e /\
    solve (system_of P e t0 t1 x c) fuel cfg full x = Some (Ok (y, sol)) /\
    success sol = true.

(** The residual of the step's equations is within the tolerance. *)
Definition equations_hold (tol : R) (controls : ivec) (t0 t1 : R) (x y : V) (e : E) : Prop :=
  exists c,
    (iinner controls = 0%nat /\ c = [] \/ (0 < iinner controls)%nat /\ interp_at controls t1 = Ok c) /\
    at_most (pr_norm P (pr_eval P e t0 t1 x c y)) tol.

(** Consecutive (time, state) pairs of a simulation. *)
Definition consecutive (points : list R) (rows : list V) (i : nat) (t0 t1 : R) (x y : V) : Prop :=
  nth_error points i = Some t0 /\ nth_error points (S i) = Some t1 /\
  nth_error rows i = Some x /\ nth_error rows (S i) = Some y.

(** Moving by zero times a Newton correction gives the state itself, or not a number (if the
    correction is infinite). *)
Definition zero_step_ends : Prop :=
  forall e t0 t1 x c lu z,
    pr_move P z 0 (correction (system_of P e t0 t1 x c) lu z) = z \/
    correction_norm (system_of P e t0 t1 x c) lu
      (pr_move P z 0 (correction (system_of P e t0 t1 x c) lu z)) = NaN.

Definition never_nan : Prop := forall e t0 t1 x c y, pr_norm P (pr_eval P e t0 t1 x c y) <> NaN.
End Simulation.
