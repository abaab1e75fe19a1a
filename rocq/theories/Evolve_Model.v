(** * Model of the time evolution (src/Model/Problemlayer/Timeevolver.cpp) and of the
    stochastic power node's state (src/Model/Networkproblem/Power/StochasticPQnode.cpp) *)
From Coq Require Import Reals ZArith List Bool.
From Verif Require Import Base Interp_Model Newton_Model.
Import ListNotations.
Local Open Scope R_scope.

(** ** The problem as seen by the time evolution.
    [pr_env] is the mutable part of the problem (values drawn by prepare_timestep, state of
    the random generators).  [pr_prepare e t0 t1 last control] is
    Controlcomponent::prepare_timestep, which may throw; [pr_eval e t0 t1 last control x] is
    evaluate; the others as in [nsystem]. *)
Record problem := {
  pr_vec : Type;
  pr_lu : Type;
  pr_env : Type;
  pr_prepare : pr_env -> R -> R -> pr_vec -> list R -> outcome pr_env;
  pr_eval : pr_env -> R -> R -> pr_vec -> list R -> pr_vec -> pr_vec;
  pr_factor : pr_env -> R -> R -> pr_vec -> list R -> pr_vec -> option pr_lu;
  pr_norm : pr_vec -> xdouble;
  pr_move : pr_vec -> R -> pr_vec -> pr_vec;
  pr_neg : pr_vec -> pr_vec;
  pr_linsolve : pr_lu -> pr_vec -> pr_vec }.

(** The non-linear system of one time step. *)
Definition system_of (P : problem) (e : pr_env P) (t0 t1 : R) (last : pr_vec P)
    (control : list R) : nsystem := {|
  ns_vec := pr_vec P;
  ns_lu := pr_lu P;
  ns_eval := pr_eval P e t0 t1 last control;
  ns_norm := pr_norm P;
  ns_move := pr_move P;
  ns_neg := pr_neg P;
  ns_factor := pr_factor P e t0 t1 last control;
  ns_linsolve := pr_linsolve P |}.

(** Timeevolver's settings, Timeevolver.cpp:59-64.  [retries] is an int; the arithmetic on it
    ([2 * retries], [++retry]) is modelled without overflow. *)
Record tsettings := { newton : nsettings; retries : Z; use_simplified_newton : bool }.

(** ** make_one_step, Timeevolver.cpp:125-182 *)

Section OneStep.
Context {V E : Type}.
(** [prepare] and [solver] are prepare_timestep and Newtonsolver::solve with the times, the
    last state and the control already filled in. *)
Variable prepare : E -> outcome E.
Variable solver : E -> bool -> V -> nresult (V * solution).

(** What a run did: one entry per call of the solver, with the problem's mutable part, the
    flag use_full_jacobian, the start value and the result. *)
Record attempt := { at_env : E; at_full : bool; at_start : V; at_result : nresult (V * solution) }.

(** The loop, Timeevolver.cpp:144-180.  [new_state_backup] is the start value of every attempt; [fuel]
    bounds the number of passes.  Result: the returned struct with the value of [new_state],
    the problem's mutable part afterwards, and the list of attempts. *)
Fixpoint attempts (fuel : nat) (cfg : tsettings) (backup : V) (retry : Z) (full : bool) (e : E)
  : nresult (V * solution) * E * list attempt :=
  match fuel with
  | O => (None, e, [])
  | S fuel' =>
      match prepare e with
      | Exc => (Some Exc, e, [])
      | UB => (Some UB, e, [])
      | Ok e' =>
          let r := solver e' full backup in
          let entry := {| at_env := e'; at_full := full; at_start := backup; at_result := r |} in
          match r with
          | Some (Ok (y, sol)) =>
              if success sol then (r, e', [entry])
              else
                let full' := if (use_simplified_newton cfg && (retry =? retries cfg)%Z)%bool
                             then true else full in
                if (2 * retries cfg <? retry)%Z then (Some Exc, e', [entry])
                else
                  let '(r', e'', log) := attempts fuel' cfg backup (retry + 1)%Z full' e' in
                  (r', e'', entry :: log)
          | _ => (r, e', [entry])
          end
      end
  end.

(** Lines 130-143. *)
Definition make_one_step (fuel : nat) (cfg : tsettings) (new_state : V) (e : E)
  : nresult (V * solution) * E * list attempt :=
  attempts fuel cfg new_state
    (if use_simplified_newton cfg then 0 else retries cfg)%Z
    (negb (use_simplified_newton cfg)) e.

End OneStep.
Arguments attempt : clear implicits.

(** ** simulate, Timeevolver.cpp:66-123 *)

(** The controls at a time, Timeevolver.cpp:80-84 and 105-107: an empty vector if there are none. *)
Definition current_controls (controls : ivec) (t : R) : outcome (list R) :=
  if (0 <? iinner controls)%nat then interp_at controls t else Ok [].

Section Simulate.
Variable P : problem.
Notation V := (pr_vec P).
Notation E := (pr_env P).
(** [fuel] for the solver's damping loop, [sfuel] for the attempts of one time step. *)
Variables fuel sfuel : nat.
Variable cfg : tsettings.
Variable controls : ivec.

(** One time step as simulate calls it. *)
Definition time_step (t0 t1 : R) (last new_state : V) (control : list R) (e : E)
  : nresult (V * solution) * E * list (attempt V E) :=
  make_one_step (fun e => pr_prepare P e t0 t1 last control)
    (fun e full x => solve (system_of P e t0 t1 last control) fuel (newton cfg) full x)
    sfuel cfg new_state e.

(** The loop, Timeevolver.cpp:103-121: the states written to the rows 1, 2, ... *)
Fixpoint simulate_loop (times : list R) (last_time : R) (last_state new_state : V) (e : E)
  : nresult (list V) * E :=
  match times with
  | [] => (Some (Ok []), e)
  | new_time :: times' =>
      match current_controls controls new_time with
      | Exc => (Some Exc, e)
      | UB => (Some UB, e)
      | Ok control =>
          match time_step last_time new_time last_state new_state control e with
          | (Some (Ok (y, sol)), e', _) =>
              if success sol then
                match simulate_loop times' new_time y y e' with
                | (Some (Ok rows), e'') => (Some (Ok (y :: rows)), e'')
                | r => r
                end
              else (Some Exc, e')
          | (Some Exc, e', _) => (Some Exc, e')
          | (Some UB, e', _) => (Some UB, e')
          | (None, e', _) => (None, e')
          end
      end
  end.

(** simulate.  [points] are the interpolation points of saved_states; the result are its rows.
    Reading point 0 or 1 of a shorter list is undefined.  Evaluating the Jacobian's structure
    (Timeevolver.cpp:92-93) is left out.  All states are assumed to have saved_states' inner length. *)
Definition simulate (points : list R) (initial : V) (e : E) : nresult (list V) * E :=
  match points with
  | t0 :: t1 :: rest =>
      match current_controls controls t1 with
      | Exc => (Some Exc, e)
      | UB => (Some UB, e)
      | Ok _ =>
          match simulate_loop (t1 :: rest) t0 initial initial e with
          | (Some (Ok rows), e') => (Some (Ok (initial :: rows)), e')
          | r => r
          end
      end
  | _ => (Some UB, e)
  end.

(** What grazer::run does after the simulation (src/Grazer/commands.cpp:122-129 and 275-279):
    one call of json_save per stored row, all with the problem as the simulation left it. *)
Definition save_all {S} (json_save : E -> R -> V -> S) (points : list R)
    (result : nresult (list V) * E) : nresult (list S) :=
  match result with
  | (Some (Ok rows), e) =>
      Some (Ok (map (fun '(t, x) => json_save e t x) (combine points rows)))
  | (Some Exc, _) => Some Exc
  | (Some UB, _) => Some UB
  | (None, _) => None
  end.

End Simulate.

(** ** StochasticPQnode (only the active power; the reactive power is treated alike) *)

Definition xsub (a b : xdouble) : xdouble :=
  match a, b with
  | NaN, _ | _, NaN => NaN
  | Fin x, Fin y => Fin (x - y)
  | PInf, PInf | NInf, NInf => NaN
  | PInf, _ => PInf
  | NInf, _ => NInf
  | Fin _, PInf => NInf
  | Fin _, NInf => PInf
  end.

(** The node's mutable part: current_P, signalling NaN before the first draw
    (include/StochasticPQnode.hpp:109), and the random generator. *)
Record stochastic_state (G : Type) := { current_P : xdouble; generator : G }.
Arguments current_P {G}.
Arguments generator {G}.
Arguments Build_stochastic_state {G}.

(** prepare_timestep, StochasticPQnode.cpp:89-107; [draw g last mean dt] is
    euler_maruyama_oup, [power x] is P(x). *)
Definition stochastic_prepare {V G} (draw : G -> xdouble -> R -> R -> xdouble * G) (mean : R -> R)
    (power : V -> xdouble) (s : stochastic_state G) (t0 t1 : R) (last : V)
  : stochastic_state G :=
  let '(p, g) := draw (generator s) (power last) (mean t1) (t1 - t0) in
  {| current_P := p; generator := g |}.

(** evaluate, StochasticPQnode.cpp:78-87. *)
Definition stochastic_residual {V G} (power : V -> xdouble) (s : stochastic_state G) (x : V)
  : xdouble := xsub (power x) (current_P s).

(** json_save, StochasticPQnode.cpp:150-168: the entries "time" and "P". *)
Definition stochastic_save {G V} (s : stochastic_state G) (t : R) (x : V) : R * xdouble :=
  (t, current_P s).

(** A network whose mutable part is that of one stochastic node.  The remaining equations,
    the derivative and the vector operations are arbitrary; the residual vector is made from
    the node's residual and the state by [assemble]. *)
Record stochastic_network := {
  sn_vec : Type; sn_lu : Type; sn_gen : Type;
  sn_draw : sn_gen -> xdouble -> R -> R -> xdouble * sn_gen;
  sn_mean : R -> R;
  sn_power : sn_vec -> xdouble;
  sn_assemble : R -> R -> sn_vec -> list R -> sn_vec -> xdouble -> sn_vec;
  sn_factor : R -> R -> sn_vec -> list R -> sn_vec -> option sn_lu;
  sn_norm : sn_vec -> xdouble;
  sn_move : sn_vec -> R -> sn_vec -> sn_vec;
  sn_neg : sn_vec -> sn_vec;
  sn_linsolve : sn_lu -> sn_vec -> sn_vec }.
Definition stochastic_problem (N : stochastic_network) : problem := {|
  pr_vec := sn_vec N; pr_lu := sn_lu N; pr_env := stochastic_state (sn_gen N);
  pr_prepare := fun e t0 t1 last _ =>
    Ok (stochastic_prepare (sn_draw N) (sn_mean N) (sn_power N) e t0 t1 last);
  pr_eval := fun e t0 t1 last c x =>
    sn_assemble N t0 t1 last c x (stochastic_residual (sn_power N) e x);
  pr_factor := fun _ t0 t1 last c x => sn_factor N t0 t1 last c x;
  pr_norm := sn_norm N; pr_move := sn_move N; pr_neg := sn_neg N;
  pr_linsolve := sn_linsolve N |}.
