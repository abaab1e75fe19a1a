(** * Specification: the right answers for an optimal control problem on a network *)
From Coq Require Import Reals List Arith Bool.
From Coquelicot Require Import Coquelicot.
From Verif Require Import Base Calc Net_Model Net_Spec Sim_Spec Interp_Spec Whole_Spec.
Import ListNotations.
Local Open Scope R_scope.

(** [U k] are the controls at state time number [k] (after the start). *)
Definition controls_along (N : network) (st ct c : list R) (U : nat -> vec) : Prop :=
  forall k t, nth_error st (S k) = Some t -> control_at ct (number_of_controls N) c t (U (S k)).

(** A trajectory for the table of controls [c]: it starts at [x0] and satisfies the equations of the
    network in each time step up to [eps]. *)
Definition trajectory (N : network) (eps : R) (st ct x0 c : list R) (states : list vec) (U : nat -> vec) : Prop :=
  length states = length st /\ controls_along N st ct c U /\
  (forall x, nth_error states 0 = Some x -> forall k, (k < number_of_states N)%nat -> nth_error x0 k = Some (x k)) /\
  forall k t0 t1 u v, nth_error st k = Some t0 -> nth_error st (S k) = Some t1 ->
    nth_error states k = Some u -> nth_error states (S k) = Some v -> network_equations_within N eps t0 t1 u v (U (S k)).

(** The constrained variables: for every node with a constraint the first variable at an end of an
    edge at the node (see C52, C84). *)
Definition constrained_variables (N : network) (sinks variables : list nat) : Prop :=
  Forall2 (fun j position => exists ie e d, nth_error (edges N) ie = Some e /\ carries_gas e = true /\ touches e d j /\
             position = end_position N ie d) sinks variables.
(** Constraint number [r] of constraint time number [q] is the r-th of them at that time. *)
Definition constraints_right (variables : list nat) (st cons : list R) (states : list vec) (g : list R) : Prop :=
  length g = (length cons * length variables)%nat /\
  forall q r i t position x, nth_error cons q = Some t -> nth_error st i = Some t -> nth_error variables r = Some position ->
    nth_error states i = Some x -> nth_error g (q * length variables + r) = Some (x position).

(** Tables of controls that depend on a parameter and pass through [c], with the states that belong
    to them and pass through [states]. *)
Definition variation (N : network) (st ct c : list R) (states : list vec) (W : R -> list R) (W' : nat -> nat -> R) (X : R -> list R) : Prop :=
  network_family N st ct W W' X /\ regular_trajectory N st (X 0) /\ W 0 = c /\
  forall i x k, nth_error states i = Some x -> (k < number_of_states N)%nat -> entry (X 0) (number_of_states N) i k = x k.

(** The gradient: with it, the derivative of the cost along every variation is right. *)
Definition gradient_right (N : network) (st ct c : list R) (states : list vec) (g : list R) : Prop :=
  length g = (length ct * number_of_controls N)%nat /\
  forall W W' X, variation N st ct c states W W' X ->
    exists U, (forall s, controls_along N st ct (W s) (U s)) /\
      is_derive (fun s => total_cost N st (U s)) 0
        (Rsum (length ct) (fun j => Rsum (number_of_controls N) (fun k => entry g (number_of_controls N) j k * W' j k))).

(** A matrix given by its places and the values at these places, as Ipopt reads it. *)
Definition matrix_at (places : list (nat * nat)) (values : list R) (row col : nat) : R :=
  Rsum (length places) (fun pos =>
    match nth_error places pos with
    | Some (r, c) => if (Nat.eqb r row && Nat.eqb c col)%bool then nth pos values 0 else 0
    | None => 0
    end).
(** The Jacobian of the constraints. *)
Definition jacobian_right (N : network) (variables : list nat) (st ct cons c : list R) (states : list vec) (places : list (nat * nat)) (values : list R) : Prop :=
  length values = length places /\
  forall W W' X, variation N st ct c states W W' X ->
    forall q r i t position, nth_error cons q = Some t -> nth_error st i = Some t -> nth_error variables r = Some position ->
      is_derive (fun s => entry (X s) (number_of_states N) i position) 0
        (Rsum (length ct) (fun j => Rsum (number_of_controls N) (fun k =>
           matrix_at places values (q * length variables + r) (j * number_of_controls N + k) * W' j k))).
