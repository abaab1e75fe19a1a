(** * Specification: trajectories of a network with stochastic nodes for a table of controls *)
From Coq Require Import Reals List Arith String.
From Coquelicot Require Import Coquelicot.
From Verif Require Import Base Json_Model Calc Net_Model Net_Spec Sim_Spec Interp_Spec Whole_Spec Answer_Spec Noise_Spec.
Import ListNotations.
Local Open Scope R_scope.

(** The states start at [x0].  The equations of step [k] hold up to [eps] with the powers
    [powers k] of the stochastic nodes, which are ends of paths of their processes that start at the
    powers of the last state.  Node [j] has the samples [sample j]; step [k] uses the samples from
    number [first k j] up to before [next k j], and no sample is used twice. *)
Definition random_trajectory (ns : list (string * json)) (sample : nat -> nat -> R -> R -> R) (N : network) (eps : R)
    (st ct x0 c : list R) (states : list vec) (U : nat -> vec) (powers : nat -> nat -> R * R) (first next : nat -> nat -> nat) : Prop :=
  List.length states = List.length st /\ controls_along N st ct c U /\
  (forall x, nth_error states 0 = Some x -> forall k, (k < number_of_states N)%nat -> nth_error x0 k = Some (x k)) /\
  forall k t0 t1 u v, nth_error st k = Some t0 -> nth_error st (S k) = Some t1 ->
    nth_error states k = Some u -> nth_error states (S k) = Some v ->
    network_equations_within (with_powers ns (powers k) N) eps t0 t1 u v (U (S k)) /\
    forall j entry G B b, nth_error ns j = Some entry -> fst entry = stochastic_type ->
      nth_error (Net_Model.nodes N) j = Some (Powernode PQ false G B b) ->
      (first k j <= next k j <= first (S k) j)%nat /\
      exists mean, b t1 = Ok mean /\
        powers_drawn (snd entry) (sample j) (first k j) (next k j) (power N j G B u) (mean 0%nat, mean 1%nat) (t1 - t0) (powers k j).

(** ** Derivatives *)
(** For fixed random numbers the powers that node [j] draws in step [k] are some function [draw k j]
    of its powers in the last state. *)
Definition powers_from (N : network) (draw : nat -> nat -> R * R -> R * R) (k : nat) (x : vec) : nat -> R * R := fun j =>
  match nth_error (Net_Model.nodes N) j with
  | Some (Powernode _ _ G B _) => draw k j (power N j G B x)
  | _ => (0, 0)
  end.
(** Tables of controls [W s] that depend differentiably on [s] and pass through [c], with tables of
    states [X s] that depend differentiably on [s], start at a fixed state, pass through [states] and
    fulfil the equations of the network with the powers drawn in each step. *)
Definition random_variation (ns : list (string * json)) (draw : nat -> nat -> R * R -> R * R) (N : network) (st ct c : list R) (states : list vec)
    (W : R -> list R) (W' : nat -> nat -> R) (X : R -> list R) : Prop :=
  let n := number_of_states N in
  let m := number_of_controls N in
  (forall s, table_of ct m (W s)) /\ (forall s, table_of st n (X s)) /\
  (forall j k, (j < List.length ct)%nat -> (k < m)%nat -> is_derive (fun s => entry (W s) m j k) 0 (W' j k)) /\
  (forall i k, (i < List.length st)%nat -> (k < n)%nat -> ex_derive (fun s => entry (X s) n i k) 0) /\
  (forall s k, (k < n)%nat -> entry (X s) n 0 k = entry (X 0) n 0 k) /\
  locally 0 (fun s => forall i t0 t1 u, nth_error st i = Some t0 -> nth_error st (S i) = Some t1 -> control_at ct m (W s) t1 u ->
    network_equations (with_powers ns (powers_from N draw i (row (X s) n i)) N) t0 t1 (row (X s) n i) (row (X s) n (S i)) u) /\
  regular_trajectory N st (X 0) /\ W 0 = c /\
  forall i x k, nth_error states i = Some x -> (k < n)%nat -> entry (X 0) n i k = x k.

(** The gradient and the Jacobian, as in [gradient_right] and [jacobian_right]. *)
Definition random_gradient_right (ns : list (string * json)) (N : network) (st ct c : list R) (states : list vec) (g : list R) : Prop :=
  List.length g = (List.length ct * number_of_controls N)%nat /\
  forall draw W W' X, random_variation ns draw N st ct c states W W' X ->
    exists U, (forall s, controls_along N st ct (W s) (U s)) /\
      is_derive (fun s => total_cost N st (U s)) 0
        (Rsum (List.length ct) (fun j => Rsum (number_of_controls N) (fun k => entry g (number_of_controls N) j k * W' j k))).
Definition random_jacobian_right (ns : list (string * json)) (N : network) (variables : list nat) (st ct cons c : list R) (states : list vec)
    (places : list (nat * nat)) (values : list R) : Prop :=
  List.length values = List.length places /\
  forall draw W W' X, random_variation ns draw N st ct c states W W' X ->
    forall q r i t position, nth_error cons q = Some t -> nth_error st i = Some t -> nth_error variables r = Some position ->
      is_derive (fun s => entry (X s) (number_of_states N) i position) 0
        (Rsum (List.length ct) (fun j => Rsum (number_of_controls N) (fun k =>
           matrix_at places values (q * List.length variables + r) (j * number_of_controls N + k) * W' j k))).
