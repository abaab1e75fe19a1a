(** * C09, C10, C84 for states that depend continuously on the controls

    The theorems of Adjoint_Props.v and Whole_Props.v assume that the states depend differentiably on the
    parameter.  Here continuity at the parameter is enough; in exchange the linear solver has to accept every right
    hand side along the trajectory (as a solver does that has factorised the matrix). *)
From Coq Require Import List Arith Reals.
From Coquelicot Require Import Coquelicot.
From Verif Require Import Base Interp_Model Interp_Spec Jac_Model Ctimes_Model Net_Model Net_Spec Adjoint_Model Adjoint_Spec
  Adjoint_Proofs3 Adjoint_Proofs4 Adjoint_Props Whole_Model Whole_Spec Whole_Proofs4 Whole_Props Implicit_Spec Implicit_Proofs2 Implicit_Proofs3.
From Verif Require Import Interp_Spec Adjoint_Model.
Import ListNotations.
Open Scope R_scope.

(** The states are then differentiable. *)
Theorem C09_states_differentiable : forall p solve l st ct cons W W' X r,
  increasing st -> increasing ct -> solver_correct (nx p) solve -> continuous_family p st ct W W' X ->
  right_derivatives p st (mk_ivec ct (nu p) (W 0)) (mk_ivec st (nx p) (X 0)) ->
  solver_accepts p solve st (mk_ivec ct (nu p) (W 0)) (mk_ivec st (nx p) (X 0)) ->
  compute_derivatives p solve l st ct cons (mk_ivec ct (nu p) (W 0)) (mk_ivec st (nx p) (X 0)) = Ok r ->
  forall i k, (i < length st)%nat -> (k < nx p)%nat -> ex_derive (fun s => entry (X s) (nx p) i k) 0.
Proof.
  intros p solve l st ct cons W W' X r H1 H2 H3 H4 H5 H6 H7 i k Hi Hk. destruct (compute_derivatives_pairs _ _ _ _ _ _ _ _ _ H7) as [pairs Hp].
  apply (continuous_row p solve st ct pairs W W' X); auto.
Qed.
Print Assumptions C09_states_differentiable.

Theorem C09_objective_gradient_continuous : forall p solve l st ct cons W W' X G J,
  increasing st -> (2 <= length st)%nat -> increasing ct ->
  make_data (ng p) (nu p) cons ct = Some (Ok l) -> ctor_time_checks st ct cons = Ok tt ->
  solver_correct (nx p) solve -> continuous_family p st ct W W' X ->
  right_derivatives p st (mk_ivec ct (nu p) (W 0)) (mk_ivec st (nx p) (X 0)) ->
  solver_accepts p solve st (mk_ivec ct (nu p) (W 0)) (mk_ivec st (nx p) (X 0)) ->
  compute_derivatives p solve l st ct cons (mk_ivec ct (nu p) (W 0)) (mk_ivec st (nx p) (X 0))
    = Ok (Some (G, J)) ->
  exists f, (forall s, evaluate_objective p st (mk_ivec ct (nu p) (W s)) (mk_ivec st (nx p) (X s)) = Ok (f s)) /\
    is_derive f 0 (Rsum (length ct) (fun j => Rsum (nu p) (fun k => G j k * W' j k))).
Proof.
  intros p solve l st ct cons W W' X G J H1 H2 H3 H4 H5 H6 H7 H8 H9 H10. destruct (compute_derivatives_pairs _ _ _ _ _ _ _ _ _ H10) as [pairs Hp].
  apply (C09_objective_gradient p solve l st ct cons W W' X G J); auto. apply (continuous_is_smooth p solve st ct pairs W W' X); auto.
Qed.
Print Assumptions C09_objective_gradient_continuous.

Theorem C10_constraint_jacobian_continuous : forall p solve l st ct cons W W' X G J,
  increasing st -> (2 <= length st)%nat -> increasing ct ->
  make_data (ng p) (nu p) cons ct = Some (Ok l) -> ctor_time_checks st ct cons = Ok tt ->
  solver_correct (nx p) solve -> continuous_family p st ct W W' X ->
  right_derivatives p st (mk_ivec ct (nu p) (W 0)) (mk_ivec st (nx p) (X 0)) ->
  solver_accepts p solve st (mk_ivec ct (nu p) (W 0)) (mk_ivec st (nx p) (X 0)) ->
  compute_derivatives p solve l st ct cons (mk_ivec ct (nu p) (W 0)) (mk_ivec st (nx p) (X 0))
    = Ok (Some (G, J)) ->
  forall q r, (q < length cons)%nat -> (r < ng p)%nat ->
  exists g, (forall s, evaluate_constraint_row p cons (mk_ivec ct (nu p) (W s)) (mk_ivec st (nx p) (X s)) q = Ok (g s)) /\
    is_derive (fun s => g s r) 0
      (Rsum (length ct) (fun j => Rsum (nu p) (fun k =>
         whole_matrix l J (q * ng p + r) (j * nu p + k) * W' j k))).
Proof.
  intros p solve l st ct cons W W' X G J H1 H2 H3 H4 H5 H6 H7 H8 H9 H10. destruct (compute_derivatives_pairs _ _ _ _ _ _ _ _ _ H10) as [pairs Hp].
  apply (C10_constraint_jacobian p solve l st ct cons W W' X G J); auto. apply (continuous_is_smooth p solve st ct pairs W W' X); auto.
Qed.
Print Assumptions C10_constraint_jacobian_continuous.

Theorem C84_objective_continuous :
  forall N sinks st ct W W' X solve l cons G J,
    increasing st -> (2 <= length st)%nat -> increasing ct ->
    regular_trajectory N st (X 0) -> constrained_nodes N sinks -> continuous_network_family N st ct W W' X ->
    make_data (length sinks) (number_of_controls N) cons ct = Some (Ok l) -> ctor_time_checks st ct cons = Ok tt ->
    solver_correct (number_of_states N) solve ->
    solver_accepts (network_problem N sinks) solve st (mk_ivec ct (number_of_controls N) (W 0)) (mk_ivec st (number_of_states N) (X 0)) ->
    compute_derivatives (network_problem N sinks) solve l st ct cons
      (mk_ivec ct (number_of_controls N) (W 0)) (mk_ivec st (number_of_states N) (X 0)) = Ok (Some (G, J)) ->
    exists U, (forall s i t, nth_error st i = Some t -> control_at ct (number_of_controls N) (W s) t (U s i)) /\
      (forall s, evaluate_objective (network_problem N sinks) st
         (mk_ivec ct (number_of_controls N) (W s)) (mk_ivec st (number_of_states N) (X s)) = Ok (total_cost N st (U s))) /\
      is_derive (fun s => total_cost N st (U s)) 0
        (Rsum (length ct) (fun j => Rsum (number_of_controls N) (fun k => G j k * W' j k))).
Proof.
  intros N sinks st ct W W' X solve l cons G J H1 H2 H3 H4 H5 H6 H7 H8 H9 H10 H11. destruct (compute_derivatives_pairs _ _ _ _ _ _ _ _ _ H11) as [pairs Hp].
  apply (C84_objective N sinks st ct W W' X solve l cons G J); auto. apply (continuous_network N sinks st ct W W' X H1 H3 H4 H5 H6 solve pairs); auto.
Qed.
Print Assumptions C84_objective_continuous.

Theorem C84_constraint_continuous :
  forall N sinks st ct W W' X solve l cons G J,
    increasing st -> (2 <= length st)%nat -> increasing ct ->
    regular_trajectory N st (X 0) -> constrained_nodes N sinks -> continuous_network_family N st ct W W' X ->
    make_data (length sinks) (number_of_controls N) cons ct = Some (Ok l) -> ctor_time_checks st ct cons = Ok tt ->
    solver_correct (number_of_states N) solve ->
    solver_accepts (network_problem N sinks) solve st (mk_ivec ct (number_of_controls N) (W 0)) (mk_ivec st (number_of_states N) (X 0)) ->
    compute_derivatives (network_problem N sinks) solve l st ct cons
      (mk_ivec ct (number_of_controls N) (W 0)) (mk_ivec st (number_of_states N) (X 0)) = Ok (Some (G, J)) ->
    forall q r i j t, nth_error cons q = Some t -> nth_error st i = Some t -> nth_error sinks r = Some j ->
    exists ie e d, nth_error (edges N) ie = Some e /\ carries_gas e = true /\ touches e d j /\
      (forall s, exists g, evaluate_constraint_row (network_problem N sinks) cons
           (mk_ivec ct (number_of_controls N) (W s)) (mk_ivec st (number_of_states N) (X s)) q = Ok g /\
         g r = entry (X s) (number_of_states N) i (end_position N ie d)) /\
      is_derive (fun s => entry (X s) (number_of_states N) i (end_position N ie d)) 0
        (Rsum (length ct) (fun j => Rsum (number_of_controls N) (fun k =>
           whole_matrix l J (q * length sinks + r) (j * number_of_controls N + k) * W' j k))).
Proof.
  intros N sinks st ct W W' X solve l cons G J H1 H2 H3 H4 H5 H6 H7 H8 H9 H10 H11. destruct (compute_derivatives_pairs _ _ _ _ _ _ _ _ _ H11) as [pairs Hp].
  apply (C84_constraint N sinks st ct W W' X solve l cons G J); auto. apply (continuous_network N sinks st ct W W' X H1 H3 H4 H5 H6 solve pairs); auto.
Qed.
Print Assumptions C84_constraint_continuous.

(** Every differentiable family is a continuous one, so the cases C09_example and C84_case are cases of these
    theorems too; their solvers accept every right hand side. *)
Lemma smooth_is_continuous p st ct W W' X : smooth_family p st ct W W' X -> continuous_family p st ct W W' X.
Proof.
  intros [A B C D E F]. constructor; auto. intros i k Hi Hk. apply (ex_derive_continuous (fun s => entry (X s) (nx p) i k)). auto.
Qed.
Lemma network_is_continuous N st ct W W' X : network_family N st ct W W' X -> continuous_network_family N st ct W W' X.
Proof.
  intros [A B C D E F]. constructor; auto. intros i k Hi Hk. apply (ex_derive_continuous (fun s => entry (X s) (number_of_states N) i k)). auto.
Qed.
Example C09_continuous_case : continuous_family toy toy_st toy_ct toy_W toy_W' toy_X /\
  solver_accepts toy toy_solve toy_st (mk_ivec toy_ct (nu toy) (toy_W 0)) (mk_ivec toy_st (nx toy) (toy_X 0)).
Proof. split; [|apply toy_accepts]. apply smooth_is_continuous. destruct C09_example as (l & G & J & H). apply H. Qed.
Example C84_continuous_case : continuous_network_family small_net toy_st toy_ct toy_W toy_W' small_X /\
  solver_accepts (network_problem small_net [1%nat]) small_solve toy_st
    (mk_ivec toy_ct (number_of_controls small_net) (toy_W 0)) (mk_ivec toy_st (number_of_states small_net) (small_X 0)).
Proof. split; [|apply small_accepts]. apply network_is_continuous. destruct C84_case as (l & G & J & H). apply H. Qed.
