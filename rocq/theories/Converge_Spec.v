(** * Convergence of Newton's method: assumptions in the style of Kantorovich

    Only the first [n] entries of a vector count. *)
From Coq Require Import Reals List Arith.
From Coquelicot Require Import Coquelicot.
From Verif Require Import Base Interp_Model Calc Newton_Model Net_Model Net_Spec.
Import ListNotations.
Local Open Scope R_scope.

(** Length of a vector and distance of two points. *)
Definition length_of (n : nat) (v : vec) : R := sqrt (vsum n (fun k => v k ^ 2)).
Definition distance (n : nat) (x y : vec) : R := length_of n (fun k => x k - y k).
(** Product of a matrix and a vector. *)
Definition times (n : nat) (A : mat) (v : vec) : vec := fun i => vsum n (fun k => A i k * v k).
(** The vector has [n] entries. *)
Definition has_size (n : nat) (v : vec) : Prop := forall k, (n <= k)%nat -> v k = 0.

(** [J] is the derivative of [F] at [x] in every direction. *)
Definition derivative_at (n : nat) (F : vec -> vec) (x : vec) (J : mat) : Prop :=
  forall h i, has_size n h -> (i < n)%nat ->
    is_derive (fun s : R => F (fun k => x k + s * h k) i) 0 (times n J h i).

(** [solution] solves linear systems with the matrix [A], with solutions at most [beta] times as
    long as the right hand side. *)
Definition solves (n : nat) (A : mat) (beta : R) (solution : vec -> vec) : Prop :=
  forall r, has_size n (solution r) /\ (forall i, (i < n)%nat -> times n A (solution r) i = r i) /\
    length_of n (solution r) <= beta * length_of n r.

(** In the ball of radius [radius] about [x0], [J] is the derivative of [F] and has the
    Lipschitz constant [L]. *)
Definition smooth_in_ball (n : nat) (F : vec -> vec) (J : vec -> mat) (x0 : vec) (radius L : R) : Prop :=
  (forall x, distance n x x0 <= radius -> derivative_at n F x (J x)) /\
  (forall x y v, distance n x x0 <= radius -> distance n y x0 <= radius ->
     distance n (times n (J x) v) (times n (J y) v) <= L * distance n x y * length_of n v).

(** Networks whose equations are linear: no pipes, no power flow. *)
Definition linear_network (N : network) : Prop :=
  (forall e, In e (edges N) -> match e_type e with EPipe _ _ _ _ | EGaspower _ _ => False | _ => True end) /\
  (forall t, In t (nodes N) -> match t with Powernode PQ _ _ _ _ | Powernode PV _ _ _ _ => False | _ => True end).

(** The non-linear system with the function [F] of [n] variables, a factorisation and a solver for
    linear equations, for Newtonsolver::solve. *)
Definition vector_system {LU : Type} (n : nat) (F : vec -> vec) (factor : vec -> option LU) (linsolve : LU -> vec -> vec) : nsystem := {|
  ns_vec := vec; ns_lu := LU; ns_eval := F; ns_norm := fun r => Fin (length_of n r);
  ns_move := fun x l s k => x k + l * s k; ns_neg := fun s k => - s k; ns_factor := factor; ns_linsolve := linsolve |}.

(** The residuals of the equations of a network in a time step as a function of the new state, and
    the matrix that the program computes. *)
Definition value (o : outcome vec) : vec := match o with Ok r => r | _ => fun _ => 0 end.
Definition step_residuals (N : network) (t0 t1 : R) (last c x : vec) : vec := value (evaluate N t0 t1 last x c (fun _ => 0)).
Definition step_matrix (N : network) (t0 t1 : R) (last c x : vec) : mat :=
  matrix_of (match d_evaluate_d_new_state N t0 t1 last x c with Ok ts => ts | _ => [] end).
