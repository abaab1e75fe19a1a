(** * Parts of gas networks (C110) *)
From Coq Require Import Reals ZArith Lra Lia List Arith Bool Sorted.
From Verif Require Import Base Interp_Model Calc Euler_Model Euler_Spec Box_Model
  Net_Model Net_Spec Net_Proofs8 Net_Props Newton_Model Evolve_Model Sim_Model Sim_Spec Sim_Proofs3 Sim_Props Mass_Spec Mass_Proofs Level_Spec Level_Props Part_Spec Part_Proofs Part_Proofs2.
Import ListNotations.
Local Open Scope R_scope.

(** ** C110: the gas in a part of a network changes by what is fed in, burnt, and crosses the border *)
Theorem C110_step : forall N part eps t0 t1 last x c,
  well_formed N -> pipes_ok N -> 0 <= eps -> t0 <= t1 ->
  network_equations_within N eps t0 t1 last x c ->
  Rabs (part_linepack N part x - part_linepack N part last
        - (t1 - t0) * (rho_0 * (part_supply N part t1 x + inflow N part x - part_burnt N part x)))
  <= part_error N part eps t0 t1.
Proof. exact part_balance. Qed.
Print Assumptions C110_step.

(** In every step of a finished simulation (with the network of that step, if there are stochastic nodes). *)
Theorem C110_simulation : forall E LU n net prepare factor linsolve fuel sfuel cfg controls points x e rows e' part,
  (forall e, well_formed (net e) /\ pipes_ok (net e) /\ number_of_states (net e) = n) ->
  (forall e t, In t points -> boundary_defined (net e) t) ->
  (0 <= maximal_iterations (newton cfg))%Z -> 0 <= tolerance (newton cfg) < 1000000 ->
  simulate (network_problem E LU n net prepare factor linsolve) fuel sfuel cfg controls points x e = (Some (Ok rows), e') ->
  forall i t0 t1 u v, nth_error points i = Some t0 -> nth_error points (S i) = Some t1 -> t0 <= t1 ->
    nth_error rows i = Some u -> nth_error rows (S i) = Some v ->
    exists e1, let N := net e1 in
      Rabs (part_linepack N part v - part_linepack N part u
            - (t1 - t0) * (rho_0 * (part_supply N part t1 v + inflow N part v - part_burnt N part v)))
      <= part_error N part (tolerance (newton cfg)) t0 t1.
Proof.
  intros E LU n net prepare factor linsolve fuel sfuel cfg controls points x e rows e' part HN HB Hm (Ht & Ht') H i t0 t1 u v P0 P1 L R0 R1.
  destruct (C90_simulation E LU n net prepare factor linsolve fuel sfuel cfg controls points x e rows e' HN HB Hm Ht' H) as (_ & _ & K).
  destruct (K i t0 t1 u v P0 P1 R0 R1) as (c & e0 & e1 & _ & _ & Q). exists e1. destruct (HN e1) as (W & HP & _).
  apply (part_balance (net e1) part _ t0 t1 u v (control_vector c)); auto.
Qed.
Print Assumptions C110_simulation.

Theorem C110_exact : forall N part t0 t1 last x c,
  well_formed N -> pipes_ok N -> t0 <= t1 -> boundary_defined N t1 ->
  network_equations N t0 t1 last x c ->
  part_linepack N part x = part_linepack N part last
    + (t1 - t0) * (rho_0 * (part_supply N part t1 x + inflow N part x - part_burnt N part x)).
Proof. intros N part t0 t1 last x c W. apply (part_exact N part W). Qed.
Print Assumptions C110_exact.

(** If one edge joins the part to the rest and the gas in the pipes of the part does not change (or there are none), what
    flows into the part through this edge is what the part consumes. *)
Theorem C110_bridge : forall N part t0 t1 last x c i e,
  well_formed N -> pipes_ok N -> t0 < t1 -> boundary_defined N t1 ->
  network_equations N t0 t1 last x c ->
  part_linepack N part x = part_linepack N part last -> only_border N part i e ->
  crossing N part x i e = part_burnt N part x - part_supply N part t1 x.
Proof.
  intros N part t0 t1 last x c i e W HP Ht HB H L U.
  pose proof (part_exact N part W t0 t1 last x c HP (Rlt_le _ _ Ht) HB H) as Q. rewrite (inflow_single N part i e x U), L in Q.
  pose proof rho_0_pos as R0.
  assert (Z : (t1 - t0) * rho_0 * (part_supply N part t1 x + crossing N part x i e - part_burnt N part x) = 0) by lra.
  apply Rmult_integral in Z. destruct Z as [Z|Z]; [|lra]. apply Rmult_integral in Z. lra.
Qed.
Print Assumptions C110_bridge.

(** Behind such an edge, in a part with neither nodes of given pressure nor power plants nor pipes, the flow does not depend on the
    controls, on the pressures or on the previous state. *)
Theorem C110_fixed_flow : forall N part t0 t1 last x c t0' last' x' c' i e,
  well_formed N -> pipes_ok N -> t0 < t1 -> t0' < t1 -> boundary_defined N t1 ->
  network_equations N t0 t1 last x c -> network_equations N t0' t1 last' x' c' ->
  only_border N part i e -> only_consumers N part ->
  (forall e, In e (edges N) -> inner part e = true -> match e_type e with EPipe _ _ _ _ => False | _ => True end) ->
  crossing N part x i e = crossing N part x' i e /\ crossing N part x i e = - part_supply N part t1 x.
Proof.
  intros N part t0 t1 last x c t0' last' x' c' i e W HP Ht Ht' HB H H' U C NP.
  assert (L : forall y z, part_linepack N part y = part_linepack N part z) by (intros; rewrite !no_pipes_linepack by exact NP; reflexivity).
  pose proof (C110_bridge N part t0 t1 last x c i e W HP Ht HB H (L _ _) U) as Q.
  pose proof (C110_bridge N part t0' t1 last' x' c' i e W HP Ht' HB H' (L _ _) U) as Q'.
  rewrite (consumers_burnt N part x C) in Q. rewrite (consumers_burnt N part x' C) in Q'. rewrite (consumers_supply N part t1 x' x C) in Q'. split; lra.
Qed.
Print Assumptions C110_fixed_flow.

(** Case: a compressor that supplies two sinks behind a junction.  The part consists of the junction and the sinks; through the
    compressor flows the sum of what they take. *)
Definition branches : network :=
  mkNet [Pressurenode (fun _ => Ok (v2 50 0)); Innode; Flownode true (fun _ => Ok (v2 10 0)); Flownode true (fun _ => Ok (v2 5 0))]
        [mkEdge 0 1 (ECompressor 1); mkEdge 1 2 EShortpipe; mkEdge 1 3 EControlvalve].
Definition branches_part (j : nat) : bool := (1 <=? j)%nat.
Definition branches_state : vec := fun k => nth k [50; 15; 60; 15; 60; 10; 60; 10; 60; 5; 57; 5] 0.
Definition branches_controls : vec := fun k => nth k [10; 3] 0.
Example C110_case :
  well_formed branches /\ pipes_ok branches /\ boundary_defined branches 1 /\
  network_equations branches 0 1 branches_state branches_state branches_controls /\
  only_border branches branches_part 0 (mkEdge 0 1 (ECompressor 1)) /\ only_consumers branches branches_part /\
  (forall e, In e (edges branches) -> inner branches_part e = true -> match e_type e with EPipe _ _ _ _ => False | _ => True end) /\
  crossing branches branches_part branches_state 0 (mkEdge 0 1 (ECompressor 1)) = 15.
Proof.
  split; [unfold well_formed; cbn; repeat constructor; cbn; auto; discriminate|].
  split; [unfold pipes_ok; cbn; repeat constructor|].
  split; [intro j; do 4 (destruct j as [|j]; [cbn; eauto|]); destruct j; exact Logic.I|].
  split.
  { split.
    - intros j t H. destruct j as [|[|[|[|j]]]]; [cbn in H; injection H as <-; cbn [node_equation]; intros _..|destruct j; discriminate].
      + eexists. split; [reflexivity|]. intros i e d H C T. do 3 (destruct i as [|i]; [cbn in H; injection H as <-; destruct d; cbn in T; try discriminate; cbn; lra|]). destruct i; discriminate.
      + split.
        * exists 60. intros i e d H C T. do 3 (destruct i as [|i]; [cbn in H; injection H as <-; destruct d; cbn in T; try discriminate; cbn; lra|]). destruct i; discriminate.
        * unfold net_outflow, flow_at. cbn. lra.
      + eexists. split; [reflexivity|]. split.
        * exists 60. intros i e d H C T. do 3 (destruct i as [|i]; [cbn in H; injection H as <-; destruct d; cbn in T; try discriminate; cbn; lra|]). destruct i; discriminate.
        * unfold net_outflow, flow_at. cbn. lra.
      + eexists. split; [reflexivity|]. split.
        * exists 57. intros i e d H C T. do 3 (destruct i as [|i]; [cbn in H; injection H as <-; destruct d; cbn in T; try discriminate; cbn; lra|]). destruct i; discriminate.
        * unfold net_outflow, flow_at. cbn. lra.
    - intros i e H. do 3 (destruct i as [|i]; [cbn in H; injection H as <-; cbn; lra|]). destruct i; discriminate. }
  split.
  { split; [reflexivity|]. intros i' e' H _ _ B. destruct i' as [|[|[|i']]]; cbn in H; [reflexivity|injection H as <-; cbn in B; congruence..|destruct i'; discriminate]. }
  split.
  { split; [intros j b H; do 4 (destruct j as [|j]; [cbn in H; try discriminate; reflexivity|]); destruct j; discriminate|].
    intros e [<-|[<-|[<-|[]]]] _; exact Logic.I. }
  split; [intros e [<-|[<-|[<-|[]]]] _; exact Logic.I|]. reflexivity.
Qed.
(** Case: the run of C91_case (a pipe in a steady state); the end of the pipe, as a part, takes what flows in. *)
Example C110_simulation_case :
  simulate (network_problem unit unit 4 (fun _ => steady_net) (fun e _ _ _ _ => Ok e) (fun _ _ _ _ _ _ => None) (fun _ b => b))
    1 1 sim_settings none [0; 1; 2] steady_state tt = (Some (Ok [steady_state; steady_state; steady_state]), tt) /\
  well_formed steady_net /\ pipes_ok steady_net /\ number_of_states steady_net = 4%nat /\ (forall t, boundary_defined steady_net t) /\
  0 < inflow steady_net (Nat.eqb 1) steady_state /\ 0 < part_linepack steady_net (fun _ => true) steady_state.
Proof.
  pose proof C91_case as (R & W & P & S & B & L & V).
  do 5 (split; [assumption|]). split.
  - unfold inflow, crossing, flow_at. cbn. cbn in V. lra.
  - unfold linepack in L. unfold part_linepack. cbn in L |- *. exact L.
Qed.
