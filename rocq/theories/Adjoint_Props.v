(** * Properties C09 - C11: derivatives computed by the adjoint sweep *)
From Coq Require Import List Arith Reals ZArith.
From Coquelicot Require Import Coquelicot.
From Verif Require Import Base Interp_Model Interp_Spec Jac_Model Ctimes_Model
  Adjoint_Model Adjoint_Spec Adjoint_Proofs4.
Import ListNotations.
Open Scope R_scope.

(** C09.  Along every differentiable family [W s] of control tables, with states [X s] solving
    the time step equations, the objective is a function of [s] whose derivative at 0 is the
    inner product of the computed gradient with the velocity [W'] of the controls. *)
Theorem C09_objective_gradient : forall p solve l st ct cons W W' X G J,
  increasing st -> (2 <= length st)%nat -> increasing ct ->
  make_data (ng p) (nu p) cons ct = Some (Ok l) -> ctor_time_checks st ct cons = Ok tt ->
  solver_correct (nx p) solve -> smooth_family p st ct W W' X ->
  right_derivatives p st (mk_ivec ct (nu p) (W 0)) (mk_ivec st (nx p) (X 0)) ->
  compute_derivatives p solve l st ct cons (mk_ivec ct (nu p) (W 0)) (mk_ivec st (nx p) (X 0))
    = Ok (Some (G, J)) ->
  exists f, (forall s, evaluate_objective p st (mk_ivec ct (nu p) (W s)) (mk_ivec st (nx p) (X s)) = Ok (f s)) /\
    is_derive f 0 (Rsum (length ct) (fun j => Rsum (nu p) (fun k => G j k * W' j k))).
Proof. exact objective_gradient_right. Qed.
Print Assumptions C09_objective_gradient.

(** C10.  The same for constraint number [r] at constraint time number [q]; row [q * ng + r] of
    the matrix described by the supplied indices and the computed values (see C07). *)
Theorem C10_constraint_jacobian : forall p solve l st ct cons W W' X G J,
  increasing st -> (2 <= length st)%nat -> increasing ct ->
  make_data (ng p) (nu p) cons ct = Some (Ok l) -> ctor_time_checks st ct cons = Ok tt ->
  solver_correct (nx p) solve -> smooth_family p st ct W W' X ->
  right_derivatives p st (mk_ivec ct (nu p) (W 0)) (mk_ivec st (nx p) (X 0)) ->
  compute_derivatives p solve l st ct cons (mk_ivec ct (nu p) (W 0)) (mk_ivec st (nx p) (X 0))
    = Ok (Some (G, J)) ->
  forall q r, (q < length cons)%nat -> (r < ng p)%nat ->
  exists g, (forall s, evaluate_constraint_row p cons (mk_ivec ct (nu p) (W s)) (mk_ivec st (nx p) (X s)) q = Ok (g s)) /\
    is_derive (fun s => g s r) 0
      (Rsum (length ct) (fun j => Rsum (nu p) (fun k =>
         whole_matrix l J (q * ng p + r) (j * nu p + k) * W' j k))).
Proof. exact constraint_jacobian_right. Qed.
Print Assumptions C10_constraint_jacobian.

(** A nonlinear problem (x_new = x_old * u) with two time steps, two control points and two
    constraint times that meets all hypotheses of C09 and C10. *)
Example C09_example : exists l G J,
  increasing toy_st /\ (2 <= length toy_st)%nat /\ increasing toy_ct /\
  make_data (ng toy) (nu toy) [1; 2] toy_ct = Some (Ok l) /\ ctor_time_checks toy_st toy_ct [1; 2] = Ok tt /\
  solver_correct (nx toy) toy_solve /\ smooth_family toy toy_st toy_ct toy_W toy_W' toy_X /\
  right_derivatives toy toy_st (mk_ivec toy_ct (nu toy) (toy_W 0)) (mk_ivec toy_st (nx toy) (toy_X 0)) /\
  compute_derivatives toy toy_solve l toy_st toy_ct [1; 2]
    (mk_ivec toy_ct (nu toy) (toy_W 0)) (mk_ivec toy_st (nx toy) (toy_X 0)) = Ok (Some (G, J)).
Proof. exact toy_instance. Qed.

(** C11.  Full statement: for every set-up accepted by the constructor the derivative
    computation performs no undefined access.  It is false: with three state times and the
    setting "every second" the only constraint time is the last state time, and the next step
    of the sweep reads the constraint times at index -1. *)
Theorem C11_reads_inside_refuted : exists p solve l st ct setting cons W X,
  increasing st /\ (2 <= length st)%nat /\ increasing ct /\
  nth 0 ct 0 = nth 0 st 0 /\ last ct 0 = last st 0 /\
  select_constraint_times st setting = Ok cons /\
  make_data (ng p) (nu p) cons ct = Some (Ok l) /\ ctor_time_checks st ct cons = Ok tt /\
  table_of ct (nu p) W /\ table_of st (nx p) X /\ solver_correct (nx p) solve /\
  compute_derivatives p solve l st ct cons (mk_ivec ct (nu p) W) (mk_ivec st (nx p) X) = UB.
Proof. exact read_outside. Qed.
Print Assumptions C11_reads_inside_refuted.

(** What holds instead: the computation is safe if there are no constraints or the first
    constraint time is the time of the first step ... *)
Theorem C11_reads_inside_partial : forall p solve l st ct cons W X,
  increasing st -> (2 <= length st)%nat -> increasing ct ->
  make_data (ng p) (nu p) cons ct = Some (Ok l) -> ctor_time_checks st ct cons = Ok tt ->
  last st 0 < last ct 0 + tolerance ->
  table_of ct (nu p) W -> table_of st (nx p) X ->
  (ng p = 0%nat \/ nth_error cons 0 = nth_error st 1) ->
  exists r, compute_derivatives p solve l st ct cons (mk_ivec ct (nu p) W) (mk_ivec st (nx p) X) = Ok r /\
    (solver_accepts p solve st (mk_ivec ct (nu p) W) (mk_ivec st (nx p) X) -> r <> None).
Proof. exact derivatives_computed. Qed.
Print Assumptions C11_reads_inside_partial.

(** ... and in all other cases it reads outside whenever no linear system fails before. *)
Theorem C11_all_other_setups_read_outside : forall p solve l st ct cons W X,
  increasing st -> (2 <= length st)%nat -> increasing ct ->
  make_data (ng p) (nu p) cons ct = Some (Ok l) -> ctor_time_checks st ct cons = Ok tt ->
  last st 0 < last ct 0 + tolerance ->
  table_of ct (nu p) W -> table_of st (nx p) X ->
  (0 < ng p)%nat -> nth_error cons 0 <> nth_error st 1 ->
  solver_accepts p solve st (mk_ivec ct (nu p) W) (mk_ivec st (nx p) X) ->
  compute_derivatives p solve l st ct cons (mk_ivec ct (nu p) W) (mk_ivec st (nx p) X) = UB.
Proof. exact derivatives_read_outside. Qed.
Print Assumptions C11_all_other_setups_read_outside.

(** The set-ups of both kinds exist: [toy] with constraint times [1; 2] (C09_example) and with
    [2] (C11_reads_inside_refuted). *)
Example C11_example : nth_error [1; 2] 0 = nth_error toy_st 1 /\
  solver_accepts toy toy_solve toy_st (mk_ivec toy_ct 1 (toy_W 0)) (mk_ivec toy_st 1 (toy_X 0)).
Proof. split; [reflexivity|apply toy_accepts]. Qed.
