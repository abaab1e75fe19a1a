(** * Property C84: the derivatives computed for a network problem *)
From Coq Require Import Reals List Arith.
From Coquelicot Require Import Coquelicot.
From Verif Require Import Base Interp_Model Calc Net_Model Net_Spec Cost_Spec Interp_Spec Jac_Model Ctimes_Model
  Adjoint_Model Adjoint_Spec Adjoint_Proofs4 Whole_Model Whole_Spec Whole_Proofs3 Whole_Proofs4.
Import ListNotations.
Local Open Scope R_scope.

(** The objective passed to the solver is the integrated compression cost, and the computed gradient
    is its derivative with respect to the control table while the states follow the equations of the
    network. *)
Theorem C84_objective :
  forall N sinks st ct W W' X solve l cons G J,
    increasing st -> (2 <= length st)%nat -> increasing ct ->
    regular_trajectory N st (X 0) -> constrained_nodes N sinks -> network_family N st ct W W' X ->
    make_data (length sinks) (number_of_controls N) cons ct = Some (Ok l) -> ctor_time_checks st ct cons = Ok tt ->
    solver_correct (number_of_states N) solve ->
    compute_derivatives (network_problem N sinks) solve l st ct cons
      (mk_ivec ct (number_of_controls N) (W 0)) (mk_ivec st (number_of_states N) (X 0)) = Ok (Some (G, J)) ->
    exists U, (forall s i t, nth_error st i = Some t -> control_at ct (number_of_controls N) (W s) t (U s i)) /\
      (forall s, evaluate_objective (network_problem N sinks) st
         (mk_ivec ct (number_of_controls N) (W s)) (mk_ivec st (number_of_states N) (X s)) = Ok (total_cost N st (U s))) /\
      is_derive (fun s => total_cost N st (U s)) 0
        (Rsum (length ct) (fun j => Rsum (number_of_controls N) (fun k => G j k * W' j k))).
Proof.
  intros N sinks st ct W W' X solve l cons G J H1 H2 H3 H4 H5 H6 H7 H8 H9 H10.
  apply (whole_objective N sinks st ct W W' X H1 H3 H4 H5 H6 solve l cons G J); assumption.
Qed.
Print Assumptions C84_objective.

(** The same for the constraint of sink number [r] at constraint time number [q]: the constrained
    quantity is the first variable at an end of an edge at the sink (its pressure in bar, or the
    density if the edge is a pipe, see C52), and the row of the computed matrix is its derivative. *)
Theorem C84_constraint :
  forall N sinks st ct W W' X solve l cons G J,
    increasing st -> (2 <= length st)%nat -> increasing ct ->
    regular_trajectory N st (X 0) -> constrained_nodes N sinks -> network_family N st ct W W' X ->
    make_data (length sinks) (number_of_controls N) cons ct = Some (Ok l) -> ctor_time_checks st ct cons = Ok tt ->
    solver_correct (number_of_states N) solve ->
    compute_derivatives (network_problem N sinks) solve l st ct cons
      (mk_ivec ct (number_of_controls N) (W 0)) (mk_ivec st (number_of_states N) (X 0)) = Ok (Some (G, J)) ->
    forall q r i j t, nth_error cons q = Some t -> nth_error st i = Some t -> nth_error sinks r = Some j ->
    exists ie e d, nth_error (edges N) ie = Some e /\ carries_gas e = true /\ touches e d j /\
      (forall s, exists g, evaluate_constraint_row (network_problem N sinks) cons
           (mk_ivec ct (number_of_controls N) (W s)) (mk_ivec st (number_of_states N) (X s)) q = Ok g /\
         g r = entry (X s) (number_of_states N) i (end_position N ie d)) /\
      is_derive (fun s => entry (X s) (number_of_states N) i (end_position N ie d)) 0
        (Rsum (length ct) (fun j => Rsum (number_of_controls N) (fun k =>
           whole_matrix l J (q * length sinks + r) (j * number_of_controls N + k) * W' j k))).
Proof.
  intros N sinks st ct W W' X solve l cons G J H1 H2 H3 H4 H5 H6 H7 H8 H9 H10 q r i j t Hq Hi Hr.
  apply (whole_constraint N sinks st ct W W' X H1 H3 H4 H5 H6 solve l cons G J) with (t := t); assumption.
Qed.
Print Assumptions C84_constraint.

(** A pressure node, a compressor and a sink with a constraint; two time steps, two control points. *)
Example C84_case : exists l G J,
  increasing toy_st /\ (2 <= length toy_st)%nat /\ increasing toy_ct /\
  regular_trajectory small_net toy_st (small_X 0) /\ constrained_nodes small_net [1%nat] /\
  network_family small_net toy_st toy_ct toy_W toy_W' small_X /\
  make_data 1 (number_of_controls small_net) [1; 2] toy_ct = Some (Ok l) /\ ctor_time_checks toy_st toy_ct [1; 2] = Ok tt /\
  solver_correct (number_of_states small_net) small_solve /\
  compute_derivatives (network_problem small_net [1%nat]) small_solve l toy_st toy_ct [1; 2]
    (mk_ivec toy_ct (number_of_controls small_net) (toy_W 0)) (mk_ivec toy_st (number_of_states small_net) (small_X 0)) = Ok (Some (G, J)).
Proof. exact small_instance. Qed.
