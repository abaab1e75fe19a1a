(** * Model of the construction of an optimization problem from the input files: the part of
    grazer::run before the optimizer is called *)
From Coq Require Import Reals ZArith List Bool Arith String.
From Verif Require Import Base Interp_Model Json_Model Defaults_Model Controls_Model Calc Euler_Model Newton_Model Evolve_Model
  Net_Model Bounds_Model States_Model Factory_Model Sim_Model Ctimes_Model Iface_Model Input_Model.
From Verif Require Seed_Model Run_Model.
Import ListNotations.
Local Open Scope string_scope.
Local Open Scope list_scope.

(** The number n, src/Grazer/commands.cpp:153-162 (the replacement of numbers that are not positive
    is part of [select_constraint_times] in Ctimes_Model.v).  The kinds of numbers of the library are not
    distinguished here: is_number_integer() holds for a number whose value is an integer.  (In
    the program it does not hold for numbers written like 3.0.)  A number outside the range of
    Eigen::Index is undefined. *)
Definition constraints_every (all_json : json) : outcome Z :=
  if contains all_json "constraint_settings" then
    obind (at_const all_json "constraint_settings") (fun constraint_settings =>
    if contains constraint_settings "evaluate_constraints_every_n" then
      obind (at_const constraint_settings "evaluate_constraints_every_n") (fun v =>
      match v with
      | JNum x =>
          let n := Seed_Model.truncate x in
          if Reqb (IZR n) x then if ((- 2 ^ 63 <=? n) && (n <? 2 ^ 63))%Z%bool then Ok n else UB
          else Ok 1%Z
      | _ => Ok 1%Z
      end)
    else Ok 1%Z)
  else Ok 1%Z.

(** The components with constraints: the ConstraintSinks are the only ones, Networkproblem.cpp:145-148 and
    164-167. *)
Definition constraint_components_of (nodes : list made_node) : list constraint_component :=
  flat_map (fun m => if String.eqb (mn_type m) "ConstraintSink" then [mkConstraint (mn_id m) 0 1] else []) nodes.
(** Their positions among the nodes. *)
Definition constraint_nodes (nodes : list made_node) : list nat :=
  map fst (filter (fun jm => String.eqb (mn_type (snd jm)) "ConstraintSink") (combine (seq 0 (List.length nodes)) nodes)).

(** InterpolatingVector(points, inner_length), src/Auxillary/InterpolatingVector/InterpolatingVector.cpp:152-166 and
    397-402: the values are not initialized. *)
Definition new_vector (uninit : nat -> R) (points : list R) (inner_length : nat) : outcome ivec :=
  if is_sorted points then Ok (mk_ivec points inner_length (map uninit (seq 0 (inner_length * List.length points)))) else UB.

(** grazer::run with optimization, commands.cpp:70-108 and 153-223: the prepared run and the
    optimizer.  [read] gives the contents of the files.  The model reads problem_data.json a second time
    for the settings of the constraints; the program uses the json it has, in which at most the
    keys simulation_settings and problem_data were added. *)
Definition prepare_optimization (uninit : nat -> R) (read : string -> outcome json) (directory : string)
  : outcome (prepared * optimizer) :=
  obind (prepare_run uninit read directory) (fun p =>
  obind (read (directory ++ "/problem_data.json")%string) (fun all_json =>
  obind (constraints_every all_json) (fun n =>
  obind (select_constraint_times (pp_points p) n) (fun constraint_timepoints =>
  obind (read (directory ++ "/lower_bounds.json")%string) (fun lower_bounds_json =>
  obind (read (directory ++ "/upper_bounds.json")%string) (fun upper_bounds_json =>
  obind (read (directory ++ "/constraint_lower_bounds.json")%string) (fun constraint_lower_bounds_json =>
  obind (read (directory ++ "/constraint_upper_bounds.json")%string) (fun constraint_upper_bounds_json =>
  let control_timepoints := ipoints (pp_controls p) in
  let (controls, nu) := set_control_indices 0 (control_components_of (pp_edges p)) in
  let (constraints, ng) := set_constraint_indices 0 (constraint_components_of (pp_nodes p)) in
  obind (new_vector uninit control_timepoints nu) (fun lower_bounds =>
  obind (new_vector uninit control_timepoints nu) (fun upper_bounds =>
  obind (new_vector uninit constraint_timepoints ng) (fun constraint_lower_bounds =>
  obind (new_vector uninit constraint_timepoints ng) (fun constraint_upper_bounds =>
  obind (initialize_bounds uninit controls constraints lower_bounds upper_bounds constraint_lower_bounds constraint_upper_bounds
           lower_bounds_json upper_bounds_json constraint_lower_bounds_json constraint_upper_bounds_json) (fun b =>
  let '(lower, upper, constraint_lower, constraint_upper) := b in
  omap (pair p) (optimizer_ctor (pp_number p) nu ng (pp_points p) control_timepoints constraint_timepoints (pp_initial p)
    (mk_init (pp_controls p) lower upper constraint_lower constraint_upper))))))))))))))).
