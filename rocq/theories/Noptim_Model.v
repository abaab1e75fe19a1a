(** * Model of the callbacks for a problem with stochastic power nodes

    As Answer_Model.v, but the network may have nodes of type StochasticPQnode (Noise_Model.v).  Their
    mutable part is part of the problem, which ControlStateCache passes to every simulation: each
    simulation goes on with the random numbers where the one before stopped. *)
From Coq Require Import Reals List Arith String.
From Verif Require Import Base Interp_Model Calc Net_Model Adjoint_Model Input_Model Iface_Model Setup_Model Answer_Model Stoch_Model Noise_Model.
From Verif Require Newton_Model Evolve_Model Sim_Model Optim_Model.
Import ListNotations.
Local Open Scope R_scope.

Section Backend.
Context {G LU : Type}.
Variables (sampling : G -> stream) (nan : R) (factor : list drawn -> R -> R -> vec -> list R -> vec -> option LU) (linsolve : LU -> vec -> vec).
Variables (solve : solver_type) (fuel sfuel : nat) (cfg : Evolve_Model.tsettings) (nodes : list (noisy_node G)) (edges : list made_edge) (o : optimizer).

(** The call of evolver->simulate in refresh_cache, src/Optimization_helpers/ControlStateCache.cpp:33-50,
    with the problem as it is then; prepare_timestep is called in every attempt of a step,
    src/Model/Timeevolution/Timeevolver.cpp:146. *)
Definition noisy_simulation (e : list drawn) (c : list R) : Newton_Model.nresult (list vec) * list drawn :=
  Evolve_Model.simulate (noisy_problem sampling nan factor linsolve nodes edges (o_nx o))
    fuel sfuel cfg (mapped_controls o c) (state_timepoints o) (vec_of (initial_state o)) e.

(** The problem with the mean powers; costs, constraints and derivatives do not see the drawn powers
    (src/Model/Networkproblem/Power/StochasticPQnode.cpp has no derivatives of its own). *)
Definition mean_backend : Optim_Model.backend :=
  network_backend (LU := LU) (fun _ _ _ _ _ _ => None) linsolve solve fuel sfuel
    (mkPrepared cfg (map nn_node nodes) edges [] (o_nx o) (state_timepoints o) (initial_state o) (initial_controls (init o))) o.
Definition noisy_backend : Optim_Model.backend :=
  Optim_Model.mk_backend (list R) (list R) ((nat -> vec) * (nat -> R)) (list drawn)
    (fun e c => match noisy_simulation e c with
                | (Some (Ok rows), e') => (e', Some (states_table (o_nx o) rows))
                | (_, e') => (e', None)
                end)
    (fun e c table => (e, snd (Optim_Model.derive mean_backend tt c table)))
    (Optim_Model.b_cost mean_backend) (Optim_Model.b_penalty mean_backend) (Optim_Model.b_constr mean_backend)
    (Optim_Model.gradient_of mean_backend) (Optim_Model.jacobian_of mean_backend).
End Backend.
