(** * Specification: the derivative of an optimal control problem on a network

    Stated with the equations of the network (Net_Spec.v), the compression cost (Cost_Spec.v) and
    piecewise linear interpolation (Interp_Spec.v) only. *)
From Coq Require Import Reals List Arith.
From Coquelicot Require Import Coquelicot.
From Verif Require Import Base Calc Net_Model Net_Spec Cost_Spec Interp_Spec.
Import ListNotations.
Local Open Scope R_scope.

(** Row [i] of a table as a vector. *)
Definition row (table : list R) (m i : nat) : vec := fun k => if Nat.ltb k m then entry table m i k else 0.

(** [u] is the vector of controls at time [t]: the table interpolated between the points. *)
Definition control_at (ct : list R) (m : nat) (table : list R) (t : R) (u : vec) : Prop :=
  (forall k, (k < m)%nat -> piecewise_linear tolerance ct (fun j => entry table m j k) t (u k)) /\
  forall k, (m <= k)%nat -> u k = 0.

(** Tables of controls [W s] that depend differentiably on [s] (with derivative [W'] at 0) and
    tables of states [X s]: the states fulfil the equations of the network in every time step (for
    [s] near 0), start at a fixed state and depend differentiably on [s]. *)
Record network_family (N : network) (st ct : list R) (W : R -> list R) (W' : nat -> nat -> R)
    (X : R -> list R) : Prop := {
  nf_W_table : forall s, table_of ct (number_of_controls N) (W s);
  nf_X_table : forall s, table_of st (number_of_states N) (X s);
  nf_W_derive : forall j k, (j < length ct)%nat -> (k < number_of_controls N)%nat ->
    is_derive (fun s => entry (W s) (number_of_controls N) j k) 0 (W' j k);
  nf_X_derive : forall i k, (i < length st)%nat -> (k < number_of_states N)%nat ->
    ex_derive (fun s => entry (X s) (number_of_states N) i k) 0;
  nf_start : forall s k, (k < number_of_states N)%nat ->
    entry (X s) (number_of_states N) 0 k = entry (X 0) (number_of_states N) 0 k;
  nf_solves : locally 0 (fun s => forall i t0 t1 u,
    nth_error st i = Some t0 -> nth_error st (S i) = Some t1 ->
    control_at ct (number_of_controls N) (W s) t1 u ->
    network_equations N t0 t1 (row (X s) (number_of_states N) i) (row (X s) (number_of_states N) (S i)) u)
}.

(** The compression cost integrated over time by the trapezoidal rule; the cost at the initial time
    is left out. *)
Definition total_cost (N : network) (st : list R) (U : nat -> vec) : R :=
  trapezoid st (fun i => match i with O => 0 | _ => compression_cost N (U i) end).

(** The network can be evaluated and differentiated along the states [X]. *)
Definition regular_trajectory (N : network) (st : list R) (X : list R) : Prop :=
  well_formed N /\ pipes_ok N /\
  forall i t, nth_error st (S i) = Some t ->
    boundary_defined N t /\ regular_state N (row X (number_of_states N) (S i)).

(** Nodes with a constraint are gas nodes with an edge. *)
Definition constrained_nodes (N : network) (sinks : list nat) : Prop :=
  forall j, In j sinks -> is_gas_node N j /\ has_gas_edge N j.
