(** * Model of the result files of an optimization: grazer::run from the call of the optimizer on *)
From Coq Require Import Reals List Arith String.
From Verif Require Import Base Interp_Model Json_Model Controls_Model Calc Net_Model Bounds_Model States_Model Adjoint_Model Iface_Model Input_Model Setup_Model Answer_Model.
From Verif Require Optim_Model Run_Model.
Import ListNotations.
Local Open Scope string_scope.
Local Open Scope list_scope.

(** The points of time and states handed to json_save, src/Grazer/commands.cpp:275-279 (the loop first collects,
    here; the calls of json_save are in States_Model.states_file). *)
Definition solution_rows (count : nat) (state_solution : ivec) : outcome (list (R * list R)) :=
  omapM (fun index => obind (get (ipoints state_solution) index) (fun t => omap (pair t) (vector_at_index state_solution index))) (seq 0 count).

Section Program.
Context {LU : Type}.
Variables (factor : unit -> R -> R -> vec -> list R -> vec -> option LU) (linsolve : LU -> vec -> vec) (solve : solver_type).
Variables (fuel sfuel : nat) (uninit : nat -> R).
(** Behaviour of Ipopt for the problem it is given, see [Run_Model.ipopt]. *)
Variable ipopt : forall p o, Run_Model.ipopt (network_backend factor linsolve solve fuel sfuel p o).
(** The values of the derivatives before they are computed (uninitialised memory). *)
Variable unset : (nat -> Adjoint_Model.vec) * (nat -> R).

(** grazer::run with optimization, commands.cpp:70-108 and 153-321: what is printed, and the
    contents of controls.json and states.json.  The cache is empty at the beginning
    (src/Optimization_helpers/include/ControlStateCache.hpp:65).  The files themselves, lines 283-285, 291-294 and 310-313, are in
    Run_Model.v; the density of the Jacobian, lines 228-245, is not modelled. *)
Definition run_optimization (read : string -> outcome json) (directory : string) : outcome (list Run_Model.line * json * json) :=
  obind (prepare_optimization uninit read directory) (fun '(p, o) =>
  let '(o1, w, printed, _) := Run_Model.optimize (ipopt p o) (Optim_Model.fresh (B:=network_backend factor linsolve solve fuel sfuel p o) [] unset tt) in
  obind (Run_Model.report o1 w (ivalues (constraint_lower_bounds (init o))) (ivalues (constraint_upper_bounds (init o)))) (fun '(reported, ipoptcontrols, states) =>
  let state_solution := mk_ivec (state_timepoints o) (o_nx o) states in
  let control_solution := mk_ivec (control_timepoints o) (o_nu o) ipoptcontrols in
  obind (solution_rows (List.length (pp_points p)) state_solution) (fun saved =>
  obind (save_controls_to_json (fst (set_control_indices 0 (control_components_of (pp_edges p)))) control_solution JNull) (fun control_output_json =>
  obind (states_file (map (fun c => (c, JNull)) (pp_states p)) saved) (fun states_output_json =>
  Ok ((printed ++ reported ++ [Run_Model.Can_be_found]), control_output_json, states_output_json)))))).
End Program.
