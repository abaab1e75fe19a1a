(** * Model of the callbacks for the problem of the input files

    Optim_Model.v models the callbacks for an arbitrary simulator and arbitrary evaluations.  Here
    these are the ones of grazer::run: the time evolution of the network (Evolve_Model.v with
    Sim_Model.v), and the loops of ImplicitOptimizer.cpp (Adjoint_Model.v with Whole_Model.v). *)
From Coq Require Import Reals List Arith.
From Verif Require Import Base Interp_Model Calc Net_Model Jac_Model Adjoint_Model Input_Model Iface_Model Setup_Model.
From Verif Require Newton_Model Evolve_Model Sim_Model Whole_Model Optim_Model.
Import ListNotations.
Local Open Scope R_scope.

(** The values of saved_states, one row after the other
    (src/Auxillary/InterpolatingVector/InterpolatingVector.cpp:302-315). *)
Definition states_table (n : nat) (rows : list vec) : list R := flat_map (row_of_state n) rows.
(** The mapped controls, src/IpoptWrapper/ImplicitOptimizer.cpp:224-226. *)
Definition mapped_controls (o : optimizer) (c : list R) : ivec := mk_ivec (control_timepoints o) (o_nu o) c.

Section Backend.
Context {LU : Type}.
Variables (factor : unit -> R -> R -> vec -> list R -> vec -> option LU) (linsolve : LU -> vec -> vec) (solve : solver_type).
Variables (fuel sfuel : nat) (p : prepared) (o : optimizer).
Let N := network_of (pp_nodes p) (pp_edges p).
Let sinks := constraint_nodes (pp_nodes p).

(** The call of evolver->simulate in refresh_cache, src/Optimization_helpers/ControlStateCache.cpp:33-50.
    The evolver is the one made from the settings of the simulation, src/Grazer/commands.cpp:78-79 and 215-216.
    Factorisation and solution of linear systems are arbitrary functions of their arguments. *)
Definition simulation (c : list R) : Newton_Model.nresult (list vec) :=
  fst (Evolve_Model.simulate (Sim_Model.network_problem unit LU (o_nx o) (fun _ => N) (fun e _ _ _ _ => Ok e) factor linsolve)
         fuel sfuel (pp_settings p) (mapped_controls o c) (state_timepoints o) (vec_of (initial_state o)) tt).
(** An exception is caught there, ControlStateCache.cpp:42-45. *)
Definition simulated (c : list R) : option (list R) :=
  match simulation c with Some (Ok rows) => Some (states_table (o_nx o) rows) | _ => None end.

Definition number_or_zero (r : outcome R) : R := match r with Ok x => x | _ => 0 end.
(** evaluate_constraints, ImplicitOptimizer.cpp:330-343: the values of all constraint times. *)
Definition constraint_values (c table : list R) : list R :=
  flat_map (fun q => match evaluate_constraint_row (Whole_Model.network_problem N sinks) (constraint_timepoints o) (mapped_controls o c)
                             (mk_ivec (state_timepoints o) (o_nx o) table) q with
                     | Ok g => map g (seq 0 (o_ng o)) | _ => [] end)
           (seq 0 (List.length (constraint_timepoints o))).
(** compute_derivatives, ImplicitOptimizer.cpp:487-656, and whether it returned true. *)
Definition derivatives (c table : list R) : outcome (option ((nat -> vec) * (nat -> R))) :=
  compute_derivatives (Whole_Model.network_problem N sinks) solve (constraint_jacobian o) (state_timepoints o) (control_timepoints o)
    (constraint_timepoints o) (mapped_controls o c) (mk_ivec (state_timepoints o) (o_nx o) table).

(** The states are the table of values.  The problem has no mutable state that matters (networks
    without stochastic nodes).  If a simulation is undefined, here it counts as failed, and so does an undefined computation of derivatives; see
    C98_answers and C11. *)
Definition network_backend : Optim_Model.backend :=
  Optim_Model.mk_backend (list R) (list R) ((nat -> vec) * (nat -> R)) unit
    (fun e c => (e, simulated c))
    (fun e c table => (e, match derivatives c table with Ok (Some d) => (true, d) | _ => (false, (fun _ _ => 0, fun _ => 0)) end))
    (fun c table => number_or_zero (evaluate_integral (cost (Whole_Model.network_problem N sinks)) (state_timepoints o) (mapped_controls o c)
                                      (mk_ivec (state_timepoints o) (o_nx o) table)))
    (fun c table => number_or_zero (evaluate_integral (penalty (Whole_Model.network_problem N sinks)) (state_timepoints o) (mapped_controls o c)
                                      (mk_ivec (state_timepoints o) (o_nx o) table)))
    constraint_values
    (* gradient = objective_gradient, lines 355-361 and 387: row by row *)
    (fun d => flat_map (fun j => map (fst d j) (seq 0 (o_nu o))) (seq 0 (List.length (control_timepoints o))))
    (* constraintjacobian_accessor = constraint_jacobian, lines 395-402 and 427 *)
    (fun d => map (snd d) (seq 0 (nonZeros (constraint_jacobian o)))).
End Backend.
