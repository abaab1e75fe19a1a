(** * Property C117: other units for the power network *)
From Coq Require Import Reals ZArith Lra Lia List Arith.
From Coquelicot Require Import Complex.
From Verif Require Import Base Calc Euler_Model Box_Model Net_Model Net_Spec Net_Props.
From Verif Require Import Unit_Spec Unit_Proofs Unit_Proofs2.
Import ListNotations.
Local Open Scope R_scope.

(** The network in the other units is one that can be solved, with as many variables in the same places. *)
Theorem C117_network : forall u w N N', well_formed N -> network_units u w N N' ->
  well_formed N' /\ (pipes_ok N -> pipes_ok N') /\ (forall t, boundary_defined N t -> boundary_defined N' t) /\
  number_of_states N' = number_of_states N /\
  (forall j, node_block N' j = node_block N j) /\ (forall i, edge_block N' i = edge_block N i).
Proof.
  intros u w N N' W H. split; [eapply units_well_formed; eassumption|]. split; [eapply units_pipes; eassumption|].
  split; [intro t; eapply units_boundary; eassumption|]. split; [eapply units_number; eassumption|].
  split; intro; [eapply units_node_block|eapply units_edge_block]; eassumption.
Qed.
Print Assumptions C117_network.

(** Every state can be expressed in the other units, and back. *)
Theorem C117_states : forall u N x, u <> 0 ->
  (exists x', state_units u N x x') /\ (forall x', state_units u N x x' -> state_units (/ u) N x' x).
Proof. intros u N x Hu. split; [exists (in_units u N x); apply in_units_state|]. intros x'. apply state_units_back. exact Hu. Qed.
Print Assumptions C117_states.

(** The equations hold in the one units exactly if they hold in the others. *)
Theorem C117_equations : forall u w N N' t0 t1 last last' x x' c,
  u <> 0 -> w <> 0 -> well_formed N -> network_units u w N N' -> state_units u N last last' -> state_units u N x x' ->
  (network_equations N' t0 t1 last' x' c <-> network_equations N t0 t1 last x c).
Proof. intros. apply (units_equations u w); assumption. Qed.
Print Assumptions C117_equations.

Theorem C117_residual : forall u w N N' t0 t1 last last' x x' c v,
  u <> 0 -> w <> 0 -> well_formed N -> pipes_ok N -> boundary_defined N t1 ->
  network_units u w N N' -> state_units u N last last' -> state_units u N x x' ->
  exists r r', evaluate N t0 t1 last x c v = Ok r /\ evaluate N' t0 t1 last' x' c v = Ok r' /\
    ((forall k, (k < number_of_states N)%nat -> r' k = 0) <-> (forall k, (k < number_of_states N)%nat -> r k = 0)).
Proof.
  intros u w N N' t0 t1 last last' x x' c v Hu Hw W HP HB H L X. destruct (C117_network u w N N' W H) as (W' & HP' & HB' & Hn & _).
  destruct (C54_solution N t0 t1 last x c v W HP HB) as (r & E & Z). destruct (C54_solution N' t0 t1 last' x' c v W' (HP' HP) (HB' t1 HB)) as (r' & E' & Z').
  rewrite Hn in Z'. exists r, r'. split; [exact E|]. split; [exact E'|]. rewrite Z, Z'. apply (C117_equations u w); assumption.
Qed.
Print Assumptions C117_residual.

(** A line with a load of 1/4; with doubled voltages and threefold admittances the load is 12 times as large. *)
Definition load_net : network :=
  mkNet [Powernode Vphi false 1 0 (fun _ => Ok (v2 1 0)); Powernode PQ false 1 0 (fun _ => Ok (v2 (- / 4) 0))] [mkEdge 0 1 (ELine (-1) 0)].
Definition load_state : vec := fun k => nth k [1; 0; / 2; 0] 0.
Definition load_net_units : network :=
  mkNet [Powernode Vphi false (3 * 1) (3 * 0) (fun _ => Ok (v2 2 0)); Powernode PQ false (3 * 1) (3 * 0) (fun _ => Ok (v2 (-3) 0))] [mkEdge 0 1 (ELine (3 * -1) (3 * 0))].
Definition load_state_units : vec := fun k => nth k [2; 0; 1; 0] 0.
Example C117_case :
  network_units 2 3 load_net load_net_units /\ state_units 2 load_net load_state load_state_units /\ well_formed load_net /\
  network_equations load_net 0 1 load_state load_state (fun _ => 0) /\
  network_equations load_net_units 0 1 load_state_units load_state_units (fun _ => 0).
Proof.
  assert (U : network_units 2 3 load_net load_net_units).
  { split; [|reflexivity]. repeat constructor; cbn; unfold power_factor; lra. }
  assert (X : state_units 2 load_net load_state load_state_units).
  { split.
    - intros [|[|j]] P; [split; cbn; lra|split; cbn; lra|destruct j; contradiction].
    - intros [|i] e k He Hk; [cbn in He; injection He as <-; cbn in Hk; lia|destruct i; discriminate]. }
  assert (W : well_formed load_net) by (unfold well_formed; cbn [load_net edges]; repeat constructor; cbn; auto; discriminate).
  assert (Q : network_equations load_net 0 1 load_state load_state (fun _ => 0)).
  { split.
    - intros [|[|j]] t H; cbn in H; [injection H as <-|injection H as <-|destruct j; discriminate]; eexists; (split; [reflexivity|]).
      + split; reflexivity.
      + unfold power, current, voltage. cbn. unfold load_state. cbn. rewrite cos_0, sin_0. unfold Cmult, Cplus, Cconj, RtoC. cbn. f_equal; field.
    - intros [|i] e H; cbn in H; [injection H as <-; exact Logic.I|destruct i; discriminate]. }
  split; [exact U|]. split; [exact X|]. split; [exact W|]. split; [exact Q|].
  apply (C117_equations 2 3 load_net load_net_units 0 1 load_state load_state_units load_state load_state_units (fun _ => 0)); try lra; assumption.
Qed.
