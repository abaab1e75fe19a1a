(** * Specification: other units for the power network *)
From Coq Require Import Reals List.
From Verif Require Import Base Calc Net_Model Net_Spec.
Import ListNotations.
Local Open Scope R_scope.

(** Voltages are multiplied by [u] and admittances by [w], so powers by [u * u * w]. *)
Definition values_times (f0 f1 : R) (o o' : outcome vec) : Prop :=
  match o, o' with
  | Ok v, Ok v' => v' 0%nat = f0 * v 0%nat /\ v' 1%nat = f1 * v 1%nat
  | Exc, Exc | UB, UB => True
  | _, _ => False
  end.
Definition power_factor (u w : R) : R := u * u * w.
Inductive node_units (u w : R) : nodetype -> nodetype -> Prop :=
| units_Innode : node_units u w Innode Innode
| units_Flownode : forall sink b, node_units u w (Flownode sink b) (Flownode sink b)
| units_Pressurenode : forall b, node_units u w (Pressurenode b) (Pressurenode b)
| units_PQ : forall external G B b b', (forall t, values_times (power_factor u w) (power_factor u w) (b t) (b' t)) ->
    node_units u w (Powernode PQ external G B b) (Powernode PQ external (w * G) (w * B) b')
| units_PV : forall external G B b b', (forall t, values_times (power_factor u w) u (b t) (b' t)) ->
    node_units u w (Powernode PV external G B b) (Powernode PV external (w * G) (w * B) b')
| units_Vphi : forall external G B b b', (forall t, values_times u 1 (b t) (b' t)) ->
    node_units u w (Powernode Vphi external G B b) (Powernode Vphi external (w * G) (w * B) b').
Definition edge_units (u w : R) (e : edge) : edge :=
  mkEdge (e_from e) (e_to e)
    match e_type e with
    | ELine G B => ELine (w * G) (w * B)
    | EGaspower g2p p2g => EGaspower (power_factor u w * g2p) (power_factor u w * p2g)
    | t => t
    end.
Definition network_units (u w : R) (N N' : network) : Prop :=
  Forall2 (node_units u w) (nodes N) (nodes N') /\ edges N' = map (edge_units u w) (edges N).

(** The same state in the other units: only voltages have another value. *)
Definition state_units (u : R) (N : network) (x x' : vec) : Prop :=
  (forall j, is_power_node N j ->
     x' (fst (node_block N j)) = u * x (fst (node_block N j)) /\
     x' (fst (node_block N j) + 1)%nat = x (fst (node_block N j) + 1)%nat) /\
  (forall i e k, nth_error (edges N) i = Some e -> (k < edge_states (e_type e))%nat ->
     x' (fst (edge_block N i) + k)%nat = x (fst (edge_block N i) + k)%nat).
