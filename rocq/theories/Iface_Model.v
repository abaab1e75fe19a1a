(** * Model of the construction of ImplicitOptimizer and of what IpoptWrapper tells Ipopt about the problem

    Doubles are [R]; Eigen::Index values are [nat] (no overflow of 64 bit integers). *)
From Coq Require Import List Arith Reals ZArith Bool.
From Verif Require Import Base Interp_Model Ctimes_Model Jac_Model.
Import ListNotations.
Open Scope R_scope.

(** Initialvalues, src/IpoptWrapper/Initialvalues.cpp:21-31: copies of the five vectors. *)
Record init_values : Type := mk_init {
  initial_controls : ivec;
  lower_bounds : ivec;
  upper_bounds : ivec;
  constraint_lower_bounds : ivec;
  constraint_upper_bounds : ivec
}.

(** Members of ImplicitOptimizer that are set by the constructor and never changed,
    src/IpoptWrapper/include/ImplicitOptimizer.hpp:151-175; [o_nx], [o_nu] and [o_ng] are the numbers
    the problem returns from get_number_of_states, get_number_of_controls_per_timepoint and
    get_number_of_constraints_per_timepoint. *)
Record optimizer : Type := mk_optimizer {
  o_nx : nat; o_nu : nat; o_ng : nat;
  state_timepoints : list R;
  control_timepoints : list R;
  constraint_timepoints : list R;
  initial_state : list R;
  init : init_values;
  index_lambda_pairs : list (nat * R);
  integral_weights : list R;
  constraint_jacobian : layout
}.

(** have_same_structure, src/Auxillary/InterpolatingVector/InterpolatingVector.cpp:363-378. *)
Definition have_same_structure (a b : ivec) : bool :=
  if negb (iinner a =? iinner b)%nat then false
  else if negb (length (ipoints a) =? length (ipoints b))%nat then false
  else forallb (fun '(x, y) => Reqb x y) (combine (ipoints a) (ipoints b)).

(** compute_index_lambda_vector, src/Optimization_helpers/Optimization_helpers.cpp:59-70, with the
    assertion of compute_index_lambda that the points are sorted (line 31), which
    [Interp_Model.compute_index_lambda] leaves out. *)
Definition index_lambda_vector (coarse fine : list R) : outcome (list (nat * R)) :=
  omapM (fun t => if is_sorted coarse then compute_index_lambda coarse t else UB) fine.

(** make_objective_function_coefficients, src/IpoptWrapper/ImplicitOptimizer.cpp:32-51, with its assertion. *)
Definition weights (points : list R) : outcome (list R) :=
  match points with [] => UB | _ => Ok (quadrature_weights points) end.

(** The constructor ImplicitOptimizer::ImplicitOptimizer, ImplicitOptimizer.cpp:53-171.  The members
    are initialized in the order of their declaration (ImplicitOptimizer.hpp:151-175), before the
    checks in the body: index_lambda_pairs and integral_weights with assertions, then
    objective_gradient, whose constructor asserts that the control times are sorted
    (InterpolatingVector.cpp:152-166), then the Jacobian and its accessor (the same layout).  The
    loop of make_data ends (lemma make_data_total), so the case [None] does not occur. *)
Definition optimizer_ctor (nx nu ng : nat) (st ct cons x0 : list R) (iv : init_values) : outcome optimizer :=
  obind (index_lambda_vector ct st) (fun pairs =>
  obind (weights st) (fun ws =>
  if negb (is_sorted ct) then UB else
  match make_data ng nu cons ct with
  | Some (Ok l) =>
      if negb (nu =? iinner (initial_controls iv))%nat then Exc else
      if negb (have_same_structure (initial_controls iv) (lower_bounds iv)) then Exc else
      if negb (have_same_structure (lower_bounds iv) (upper_bounds iv)) then Exc else
      if negb (have_same_structure (constraint_lower_bounds iv) (constraint_upper_bounds iv)) then Exc else
      if negb (ng =? iinner (constraint_lower_bounds iv))%nat then Exc else
      if negb (nx =? length x0)%nat then Exc else
      obind (ctor_time_checks st ct cons) (fun _ =>
      Ok (mk_optimizer nx nu ng st ct cons x0 iv pairs ws l))
  | Some Exc => Exc
  | Some UB | None => UB
  end)).

(** get_total_no_controls, get_total_no_constraints, get_no_nnz_in_jacobian, ImplicitOptimizer.cpp:186-194. *)
Definition get_total_no_controls (o : optimizer) : nat := (o_nu o * length (control_timepoints o))%nat.
Definition get_total_no_constraints (o : optimizer) : nat := (o_ng o * length (constraint_timepoints o))%nat.
Definition get_no_nnz_in_jacobian (o : optimizer) : nat := nonZeros (constraint_jacobian o).

(** InterpolatingVector::construct_and_interpolate_from, InterpolatingVector.cpp:435-442: the new vector
    holds uninitialized values before interpolate_from.  Its constructor asserts that the points
    are sorted (lines 152-166). *)
Definition construct_and_interpolate_from (uninit : nat -> R) (points : list R) (inner : nat) (values : ivec) : outcome ivec :=
  if negb (is_sorted points) then UB
  else interpolate_from (mk_ivec points inner (map uninit (seq 0 (inner * length points)))) values.

(** get_initial_controls, get_lower_bounds, get_upper_bounds, get_constraint_lower_bounds,
    get_constraint_upper_bounds, ImplicitOptimizer.cpp:437-478 ([init] is never deleted). *)
Definition get_initial_controls (uninit : nat -> R) (o : optimizer) : outcome (list R) :=
  omap ivalues (construct_and_interpolate_from uninit (control_timepoints o) (o_nu o) (initial_controls (init o))).
Definition get_lower_bounds (uninit : nat -> R) (o : optimizer) : outcome (list R) :=
  omap ivalues (construct_and_interpolate_from uninit (control_timepoints o) (o_nu o) (lower_bounds (init o))).
Definition get_upper_bounds (uninit : nat -> R) (o : optimizer) : outcome (list R) :=
  omap ivalues (construct_and_interpolate_from uninit (control_timepoints o) (o_nu o) (upper_bounds (init o))).
Definition get_constraint_lower_bounds (uninit : nat -> R) (o : optimizer) : outcome (list R) :=
  omap ivalues (construct_and_interpolate_from uninit (constraint_timepoints o) (o_ng o) (constraint_lower_bounds (init o))).
Definition get_constraint_upper_bounds (uninit : nat -> R) (o : optimizer) : outcome (list R) :=
  omap ivalues (construct_and_interpolate_from uninit (constraint_timepoints o) (o_ng o) (constraint_upper_bounds (init o))).

(** std::numeric_limits<Ipopt::Index>::max() for a 32 bit int. *)
Definition index_max : Z := 2147483647.

(** IpoptWrapper::get_nlp_info, src/IpoptWrapper/Wrapper.cpp:35-67: n, m and nnz_jac_g, or false. *)
Definition get_nlp_info (o : optimizer) : option (nat * nat * nat) :=
  if (index_max <? Z.of_nat (get_total_no_controls o))%Z then None
  else if (index_max <? Z.of_nat (get_total_no_constraints o))%Z then None
  else if (index_max <? Z.of_nat (get_no_nnz_in_jacobian o))%Z then None
  else Some (get_total_no_controls o, get_total_no_constraints o, get_no_nnz_in_jacobian o).

(** Assigning a vector to an Eigen::Map over an array of length [n]: another length violates a
    precondition. *)
Definition assign_map (n : nat) (v : list R) : outcome (list R) := if (length v =? n)%nat then Ok v else UB.

(** IpoptWrapper::get_bounds_info, Wrapper.cpp:68-85: the arrays x_l, x_u, g_l, g_u afterwards. *)
Definition get_bounds_info (uninit : nat -> R) (o : optimizer) (n m : nat)
  : outcome (list R * list R * list R * list R) :=
  if negb (m =? get_total_no_constraints o)%nat then UB else
  obind (get_lower_bounds uninit o) (fun l => obind (assign_map n l) (fun x_l =>
  obind (get_upper_bounds uninit o) (fun u => obind (assign_map n u) (fun x_u =>
  obind (get_constraint_lower_bounds uninit o) (fun cl => obind (assign_map m cl) (fun g_l =>
  obind (get_constraint_upper_bounds uninit o) (fun cu => obind (assign_map m cu) (fun g_u =>
  Ok (x_l, x_u, g_l, g_u))))))))).

(** IpoptWrapper::get_starting_point, Wrapper.cpp:86-99, called with init_x and without init_z and
    init_lambda: the array x afterwards. *)
Definition get_starting_point (uninit : nat -> R) (o : optimizer) (n : nat) : outcome (list R) :=
  obind (get_initial_controls uninit o) (assign_map n).

(** The index arrays of IpoptWrapper::eval_jac_g with values == nullptr, Wrapper.cpp:134-147, and
    ImplicitOptimizer.cpp:179-184 with ConstraintJacobian.cpp:191-214: the rows and columns as int.
    Converting a number beyond the range of int gives another number (modulo 2^32). *)
Definition to_int (n : nat) : Z :=
  let r := (Z.of_nat n mod 4294967296)%Z in if (r <=? index_max)%Z then r else (r - 4294967296)%Z.
Definition jacobian_structure (o : optimizer) (nele_jac : nat) : outcome (list (Z * Z)) :=
  if negb (nele_jac =? nonZeros (constraint_jacobian o))%nat then UB
  else Ok (map (fun '(r, c) => (to_int r, to_int c)) (supply_indices (constraint_jacobian o))).
