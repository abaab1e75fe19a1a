(** * Only time differences matter (C113) *)
From Coq Require Import Reals ZArith Lra Lia List Arith Bool.
From Verif Require Import Base Interp_Model Calc Euler_Model Box_Model Net_Model Newton_Model Evolve_Model Sim_Model Input_Model.
From Verif Require Import Shift_Spec Shift_Proofs.
Import ListNotations.
Local Open Scope R_scope.

(** A table that is later by [s] has at [t + s] the value that the original has at [t], and throws there if that does. *)
Theorem C113_table : forall s v t, interp_at (later s v) (t + s) = interp_at v t.
Proof. exact interp_later. Qed.
Print Assumptions C113_table.
(** So the boundary conditions of the components are later, too. *)
Theorem C113_boundary : forall s v t, boundary_of (later s v) (t + s) = boundary_of v t.
Proof. intros. unfold boundary_of. rewrite interp_later. reflexivity. Qed.
Print Assumptions C113_boundary.

(** The time grid of start and end times that are later by [s] is the original grid later by [s]. *)
Theorem C113_grid : forall s tstart tend desired,
  state_grid (tstart + s) (tend + s) desired = omap (map (fun t => t + s)) (state_grid tstart tend desired).
Proof. exact grid_later. Qed.
Print Assumptions C113_grid.

(** The residual and all three Jacobians of the later network at the later times are those of the original. *)
Theorem C113_equations : forall s N N' t0 t1 last x c v, network_later s N N' ->
  number_of_states N' = number_of_states N /\
  evaluate N' (t0 + s) (t1 + s) last x c v = evaluate N t0 t1 last x c v /\
  d_evaluate_d_new_state N' (t0 + s) (t1 + s) last x c = d_evaluate_d_new_state N t0 t1 last x c /\
  d_evaluate_d_last_state N' (t0 + s) (t1 + s) last x c = d_evaluate_d_last_state N t0 t1 last x c /\
  d_evaluate_d_control N' (t0 + s) (t1 + s) last x c = d_evaluate_d_control N t0 t1 last x c.
Proof.
  intros s N N' t0 t1 last x c v H. split; [apply (later_number_of_states s N N' H)|].
  split; [apply (evaluate_later s N N' H)|]. split; [apply (d_new_later s N N' H)|]. split; [apply (d_last_later s N N' H)|apply (d_control_later s N N' H)].
Qed.
Print Assumptions C113_equations.

(** The factorisation is a function of the Jacobian. *)
Definition factor_jacobian {LU} (lu : list entry -> option LU) (N : network) (_ : unit) (t0 t1 : R) (last : vec) (c : list R) (x : vec) : option LU :=
  match d_evaluate_d_new_state N t0 t1 last x (control_vector c) with Ok ts => lu ts | _ => None end.
Definition plain_problem {LU} (lu : list entry -> option LU) linsolve (N : network) :=
  network_problem unit LU (number_of_states N) (fun _ => N) (fun e _ _ _ _ => Ok e) (factor_jacobian lu N) linsolve.
(** The simulation of the later network with later controls on the later grid gives exactly the same states (or fails in the same way),
    whatever the linear solver makes of the Jacobian. *)
Theorem C113_simulation : forall LU (lu : list entry -> option LU) linsolve fuel sfuel cfg s N N' controls points (initial : vec), network_later s N N' ->
  simulate (plain_problem lu linsolve N') fuel sfuel cfg (later s controls) (map (fun t => t + s) points) initial tt
  = simulate (plain_problem lu linsolve N) fuel sfuel cfg controls points initial tt.
Proof.
  intros LU lu linsolve fuel sfuel cfg s N N' controls points initial H. unfold plain_problem. rewrite (later_number_of_states s N N' H).
  apply (simulate_later unit LU s (fun _ => N) (fun _ => N') (fun e _ _ _ _ => Ok e) (fun e _ _ _ _ => Ok e) (factor_jacobian lu N) (factor_jacobian lu N') linsolve).
  - intro e. exact H.
  - reflexivity.
  - intros e t0 t1 last c x. unfold factor_jacobian. rewrite (d_new_later s N N' H). reflexivity.
Qed.
Print Assumptions C113_simulation.

(** With random draws, too, if the draws depend on time differences only. *)
Theorem C113_random : forall E LU n net net' prepare prepare' factor factor' (linsolve : LU -> vec -> vec) fuel sfuel cfg s controls points (initial : vec) (e : E),
  (forall e, network_later s (net e) (net' e)) ->
  (forall e t0 t1 last c, prepare' e (t0 + s) (t1 + s) last c = prepare e t0 t1 last c) ->
  (forall e t0 t1 last c x, factor' e (t0 + s) (t1 + s) last c x = factor e t0 t1 last c x) ->
  simulate (network_problem E LU n net' prepare' factor' linsolve) fuel sfuel cfg (later s controls) (map (fun t => t + s) points) initial e
  = simulate (network_problem E LU n net prepare factor linsolve) fuel sfuel cfg controls points initial e.
Proof. intros. apply simulate_later; assumption. Qed.
Print Assumptions C113_random.

(** The weights of the objective and the positions of the states' times between the control times are the same. *)
Theorem C113_optimization : forall s coarse fine,
  quadrature_weights (map (fun t => t + s) fine) = quadrature_weights fine /\
  compute_index_lambda_vector (map (fun t => t + s) coarse) (map (fun t => t + s) fine) = compute_index_lambda_vector coarse fine.
Proof. intros. split; [apply weights_later|apply index_vector_later]. Qed.
Print Assumptions C113_optimization.

(** A source and a pressure node with tables, joined by a pipe, moved to the next day. *)
Definition day : R := 86400.
Definition inflow : ivec := mk_ivec [0; 3600; 7200] 1 [10; 20; 10].
Definition pressure : ivec := mk_ivec [0; 7200] 1 [60; 61].
Definition today : network :=
  mkNet [Flownode false (boundary_of inflow); Pressurenode (boundary_of pressure)] [mkEdge 0 1 (EPipe 1 (1/1000) 500 5)].
Definition tomorrow : network :=
  mkNet [Flownode false (boundary_of (later day inflow)); Pressurenode (boundary_of (later day pressure))] [mkEdge 0 1 (EPipe 1 (1/1000) 500 5)].
Example C113_case : network_later day today tomorrow /\ ipoints (later day inflow) = [86400; 90000; 93600] /\
  interp_at (later day inflow) 88200 = interp_at inflow 1800 /\ interp_at inflow 1800 = Ok [15] /\ number_of_states today = 10%nat.
Proof.
  split; [split; [|reflexivity]; repeat constructor; intro t; apply C113_boundary|].
  split; [unfold later, day, inflow; cbn; repeat f_equal; lra|].
  split; [replace 88200 with (1800 + day) by (unfold day; lra); apply interp_later|]. split; [|reflexivity].
  unfold interp_at, inflow. cbn [ipoints last iinner ivalues length].
  assert (B : forall a b, a < b -> Rltb a b = true) by (intros a b Hab; unfold Rltb; destruct (Rlt_dec a b); [reflexivity|lra]).
  assert (B' : forall a b, b <= a -> Rltb a b = false) by (intros a b Hab; unfold Rltb; destruct (Rlt_dec a b); [lra|reflexivity]).
  assert (L : forall a b, b < a -> Rleb a b = false) by (intros a b Hab; unfold Rleb; destruct (Rle_dec a b); [lra|reflexivity]).
  rewrite (L 7200 1800), (L 1800 0) by lra. cbn [lower_bound]. rewrite (B 0 1800), (B' 3600 1800) by lra. cbn. repeat f_equal. lra.
Qed.
