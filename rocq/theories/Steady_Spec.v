(** * Specification of steady states *)
From Coq Require Import Reals List Arith.
From Coquelicot Require Import Coquelicot.
From Verif Require Import Base Interp_Model Calc Euler_Model Euler_Spec Box_Model Net_Model Net_Spec.
Import ListNotations.
Local Open Scope R_scope.

(** A cell in which nothing changes: inflow, outflow and source are in balance. *)
Definition cell_steady (d k dx : R) (left right : vec) : Prop :=
  exists sl sr, source d k left = Ok sl /\ source d k right = Ok sr /\
  forall c, (c < 2)%nat -> flux d left c + dx * ((sl c + sr c) / 2) = flux d right c.

(** The equations of the network without change in time; [time] is the time of the boundary values.  The
    equations of the edges other than pipes do not contain the time. *)
Definition edge_steady (N : network) (i : nat) (e : edge) (x control : vec) : Prop :=
  let s := fst (edge_block N i) in
  match e_type e with
  | EPipe d k dx np => forall m, (m + 1 < np)%nat ->
      cell_steady d k dx (seg x (s + 2 * m)) (seg x (s + 2 * (m + 1)))
  | _ => edge_equation N i e 0 0 x x control
  end.
Definition steady_equations (N : network) (time : R) (x control : vec) : Prop :=
  (forall j t, nth_error (nodes N) j = Some t -> node_equation N j t time x) /\
  (forall i e, nth_error (edges N) i = Some e -> edge_steady N i e x control).

(** The gas is slower than sound: the square of the speed of sound is the derivative of the pressure
    with respect to the density. *)
Definition velocity (d : R) (u : vec) : R := rho_0 * u 1%nat / (circle_area (d / 2) * u 0%nat).
Definition subsonic (d : R) (u : vec) : Prop :=
  0 < u 0%nat /\ exists c2, is_derive p (u 0%nat) c2 /\ velocity d u * velocity d u < c2.

(** Gas at rest: everywhere the same pressure (in bar) and no flow, no boundary flow, no pressure change
    by controls, given pressures equal to that pressure.  Power nodes and gas power plants satisfy
    their equations. *)
Definition node_at_rest (N : network) (P : R) (j : nat) (t : nodetype) (time : R) (x : vec) : Prop :=
  match t with
  | Innode => True
  | Flownode _ b => exists v, b time = Ok v /\ v 0%nat = 0
  | Pressurenode b => exists v, b time = Ok v /\ v 0%nat = P
  | Powernode _ _ _ _ _ => node_equation N j t time x
  end.
Definition edge_at_rest (N : network) (P : R) (i : nat) (e : edge) (x control : vec) : Prop :=
  let s := fst (edge_block N i) in
  match e_type e with
  | EPipe _ _ _ np => forall m, (m < np)%nat -> p (x (s + 2 * m)%nat) = P * bar /\ x (s + 2 * m + 1)%nat = 0
  | EShortpipe => x s = P /\ x (s + 1)%nat = 0 /\ x (s + 2)%nat = P /\ x (s + 3)%nat = 0
  | ECompressor _ | EControlvalve =>
      x s = P /\ x (s + 1)%nat = 0 /\ x (s + 2)%nat = P /\ x (s + 3)%nat = 0 /\ control (fst (control_block N i)) = 0
  | EGaspower _ _ => x s = P /\ x (s + 1)%nat = 0 /\ edge_equation N i e 0 0 x x control
  | ELine _ _ => True
  end.
Definition at_rest (N : network) (P time : R) (x control : vec) : Prop :=
  (forall j t, nth_error (nodes N) j = Some t -> node_at_rest N P j t time x) /\
  (forall i e, nth_error (edges N) i = Some e -> edge_at_rest N P i e x control).
