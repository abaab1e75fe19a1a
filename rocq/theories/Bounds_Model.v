(** * Model of reading the bounds of constraints and of the boundary values of sinks:
    SimpleConstraintcomponent.cpp, Flowboundarynode.cpp *)
From Coq Require Import Reals List Bool Arith String.
From Verif Require Import Base Interp_Model Json_Model Defaults_Model Controls_Model.
Import ListNotations.
Local Open Scope string_scope.
Local Open Scope list_scope.

(** ** Constraints *)

(** A component with constraints: id(), get_constraint_startindex() and
    needed_number_of_constraints_per_time_point().  The start index is unsigned here: -1, "not yet
    set", makes the getter throw (Constraintcomponent.cpp:28-37) and does not occur after
    set_constraint_indices. *)
Record constraint_component := mkConstraint { kc_id : string; kc_start : nat; kc_count : nat }.

(** set_simple_constraint_values,
    src/Model/Networkproblem/Componentclasses/SimpleConstraintcomponent.cpp:21-42: the same text as
    set_simple_control_values but for the start index, so the loop of Controls_Model.v is used. *)
Definition set_simple_constraint_values (uninit : nat -> R) (start : nat) (full_constraint_vector : ivec)
    (initial_json initial_schema : json) : outcome ivec :=
  obind (construct_from_json uninit initial_json initial_schema) (fun initialvalues =>
  set_loop start initialvalues (ipoints full_constraint_vector) 0 full_constraint_vector).

(** ConstraintSink::set_constraint_lower_bounds, src/Model/Networkproblem/Gas/ConstraintSink.cpp:60-66,
    and set_constraint_upper_bounds, lines 68-74, with get_constraint_schema, lines 24-26 (one
    constraint, lines 76-79).  Here for components with any number of constraints. *)
Definition component_lower_bounds (uninit : nat -> R) (c : constraint_component) (v : ivec) (j : json) : outcome ivec :=
  set_simple_constraint_values uninit (kc_start c) v j (make_boundary_schema (kc_count c)).
Definition component_upper_bounds (uninit : nat -> R) (c : constraint_component) (v : ivec) (j : json) : outcome ivec :=
  set_simple_constraint_values uninit (kc_start c) v j (make_boundary_schema (kc_count c)).

(** Networkproblem::set_constraint_lower_bounds, src/Model/Networkproblem/Networkproblem.cpp:510-537.
    The calls are those of [distribute] in Json_Model.v. *)
Definition set_constraint_lower_bounds (uninit : nat -> R) (components : list constraint_component) (v : ivec) (j : json) : outcome ivec :=
  obind (distribute (map kc_id components) j) (fun calls =>
  ofold (fun v call => obind (get components (fst call)) (fun c => component_lower_bounds uninit c v (snd call))) calls v).
(** Networkproblem::set_constraint_upper_bounds, Networkproblem.cpp:539-567. *)
Definition set_constraint_upper_bounds (uninit : nat -> R) (components : list constraint_component) (v : ivec) (j : json) : outcome ivec :=
  obind (distribute (map kc_id components) j) (fun calls =>
  ofold (fun v call => obind (get components (fst call)) (fun c => component_upper_bounds uninit c v (snd call))) calls v).

(** Networkproblem::set_constraint_indices, Networkproblem.cpp:499-508, with
    SimpleConstraintcomponent::set_constraint_indices, SimpleConstraintcomponent.cpp:44-51. *)
Fixpoint set_constraint_indices (next_free_index : nat) (components : list constraint_component)
  : list constraint_component * nat :=
  match components with
  | [] => ([], next_free_index)
  | c :: rest =>
      let constraint_afterindex := (next_free_index + kc_count c)%nat in
      let r := set_constraint_indices constraint_afterindex rest in
      (mkConstraint (kc_id c) next_free_index (kc_count c) :: fst r, snd r)
  end.

(** ** The bounds of an optimization *)

(** initialize_bounds, src/Optimization_helpers/Optimization_helpers.cpp:72-88: the four vectors in the
    order of the calls.  set_lower_bounds and set_upper_bounds of a network,
    Networkproblem.cpp:331-380, have the text of set_initial_controls (Controls_Model.v). *)
Definition initialize_bounds (uninit : nat -> R) (controls : list control_component) (constraints : list constraint_component)
    (lower upper constraint_lower constraint_upper : ivec) (lower_json upper_json constraint_lower_json constraint_upper_json : json)
  : outcome (ivec * ivec * ivec * ivec) :=
  obind (set_initial_controls uninit controls lower lower_json) (fun a =>
  obind (set_initial_controls uninit controls upper upper_json) (fun b =>
  obind (set_constraint_lower_bounds uninit constraints constraint_lower constraint_lower_json) (fun c =>
  obind (set_constraint_upper_bounds uninit constraints constraint_upper constraint_upper_json) (fun d =>
  Ok (a, b, c, d))))).

(** ** Sinks *)

(** The inner loop of revert_boundary_conditions,
    src/Model/Networkproblem/Gas/Flowboundarynode.cpp:35-38: get<double>() throws unless the value
    is a number. *)
Definition negate_value (value_json : json) : outcome json :=
  obind (get_double value_json) (fun old_value => Ok (JNum (- old_value))).
Definition negate_values (values : json) : outcome json :=
  omap (with_elems values) (omapM negate_value (elems values)).
(** One round of the outer loop, Flowboundarynode.cpp:34; datum["values"] is a mutable access. *)
Definition negate_datum (datum : json) : outcome json :=
  obind (at_mut datum "values") (fun dv =>
  obind (negate_values (snd dv)) (assign (fst dv) "values")).
(** revert_boundary_conditions, Flowboundarynode.cpp:25-42.  The message of the exception reads data["id"], which
    is undefined behaviour if there is no id. *)
Definition revert_boundary_conditions (data : json) : outcome json :=
  if contains data "boundary_values"
  then obind (at_mut data "boundary_values") (fun rb =>
       obind (at_mut (snd rb) "data") (fun bd =>
       obind (omapM negate_datum (elems (snd bd))) (fun es =>
       obind (assign (fst bd) "data" (with_elems (snd bd) es)) (assign (fst rb) "boundary_values"))))
  else obind (at_const data "id") (fun _ => Exc).

(** Flowboundarynode::Flowboundarynode, Flowboundarynode.cpp:47-50: the member boundaryvalue, with
    get_boundary_schema, lines 43-45.  A Source is a Flowboundarynode
    (src/Model/Networkproblem/Gas/include/Source.hpp:22-28). *)
Definition source_values (uninit : nat -> R) (data : json) : outcome ivec :=
  obind (at_const data "boundary_values") (fun b => construct_from_json uninit b (make_boundary_schema 1)).
(** Sink::Sink, src/Model/Networkproblem/Gas/Sink.cpp:24-25, and ConstraintSink::ConstraintSink,
    ConstraintSink.cpp:29-30. *)
Definition sink_values (uninit : nat -> R) (data : json) : outcome ivec :=
  obind (revert_boundary_conditions data) (source_values uninit).
