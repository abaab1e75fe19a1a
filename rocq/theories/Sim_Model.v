(** * The network as the problem of the time evolution

    Networkproblem is the Controlcomponent that Timeevolver::simulate and Newtonsolver::solve
    work with (src/Grazer/commands.cpp:94-129; Timeevolver.cpp:66-182; Newtonsolver.cpp:63-163). *)
From Coq Require Import Reals List Arith.
From Verif Require Import Base Interp_Model Calc Newton_Model Evolve_Model Box_Model Net_Model.
Import ListNotations.
Local Open Scope R_scope.

(** Eigen's norm() of a vector with [n] entries. *)
Fixpoint sum_squares (n : nat) (r : vec) : R :=
  match n with O => 0 | S m => sum_squares m r + r m * r m end.
Definition euclidean_norm (n : nat) (r : vec) : R := sqrt (sum_squares n r).

(** The control vector handed to evaluate. *)
Definition control_vector (c : list R) : vec := fun k => nth k c 0.

(** [net e] is the network when its mutable part is [e]: a stochastic power node has the values
    of its last draw as boundary values.  [prepare] is prepare_timestep of all components
    (Networkproblem.cpp:249-262), which draws new values.  The evaluation of the Jacobian with
    its factorisation [factor] and the solution of linear systems [linsolve] are arbitrary.
    [n] is the number of states; rootvalues is a new vector for every evaluation (Newtonsolver.cpp:71, 125), of which all entries
    are written (C32).  If the evaluation throws, so does the simulation; the theorems exclude
    this by demanding boundary values at the points of the time grid (then the evaluation
    succeeds by C54), so that the value given here does not matter. *)
Definition network_problem (E LU : Type) (n : nat) (net : E -> network)
    (prepare : E -> R -> R -> vec -> list R -> outcome E)
    (factor : E -> R -> R -> vec -> list R -> vec -> option LU)
    (linsolve : LU -> vec -> vec) : problem := {|
  pr_vec := vec;
  pr_lu := LU;
  pr_env := E;
  pr_prepare := prepare;
  pr_eval := fun e t0 t1 last c x =>
    match evaluate (net e) t0 t1 last x (control_vector c) (fun _ => 0) with Ok r => r | _ => fun _ => 0 end;
  pr_factor := factor;
  pr_norm := fun r => Fin (euclidean_norm n r);
  pr_move := fun x l s k => x k + l * s k;
  pr_neg := fun s k => - s k;
  pr_linsolve := linsolve |}.
