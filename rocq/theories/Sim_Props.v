(** * Properties of whole simulations: C90, C91 *)
From Coq Require Import Reals ZArith Lra Lia List Arith Sorted.
From Verif Require Import Base Interp_Model Calc Euler_Model Newton_Model Newton_Spec Evolve_Model Evolve_Spec Evolve_Proofs
  Box_Model Net_Model Net_Spec Sim_Model Sim_Spec Sim_Proofs Sim_Proofs2 Sim_Proofs3 Mass_Spec Mass_Proofs Mass_Proofs2.
Import ListNotations.
Local Open Scope R_scope.

(** ** C90: a finished simulation of a network satisfies the equations of the network *)

(** The mutable part of the problem, here of any type [E], are the values drawn for stochastic
    power nodes; [e1] is the network as it was prepared for the step. *)
Theorem C90_simulation :
  forall E LU n net prepare factor linsolve fuel sfuel cfg controls points x e rows e',
    (forall e, well_formed (net e) /\ pipes_ok (net e) /\ number_of_states (net e) = n) ->
    (forall e t, In t points -> boundary_defined (net e) t) ->
    (0 <= maximal_iterations (newton cfg))%Z -> tolerance (newton cfg) < 1000000 ->
    simulate (network_problem E LU n net prepare factor linsolve) fuel sfuel cfg controls points x e
      = (Some (Ok rows), e') ->
    length rows = length points /\ nth_error rows 0 = Some x /\
    forall i t0 t1 u v,
      nth_error points i = Some t0 -> nth_error points (S i) = Some t1 ->
      nth_error rows i = Some u -> nth_error rows (S i) = Some v ->
      exists c e0 e1,
        (iinner controls = 0%nat /\ c = [] \/ (0 < iinner controls)%nat /\ interp_at controls t1 = Ok c) /\
        prepare e0 t0 t1 u c = Ok e1 /\
        network_equations_within (net e1) (tolerance (newton cfg)) t0 t1 u v (control_vector c).
Proof.
  intros E LU n net prepare factor linsolve fuel sfuel cfg controls points x e rows e' HN HB Hm Ht H.
  destruct (simulate_ok _ _ _ _ _ _ _ _ _ _ H) as [L [_ [Hx K]]]. split; [exact L|]. split; [exact Hx|].
  intros i t0 t1 u v P0 P1 R0 R1.
  destruct (K i t0 t1 u v ltac:(repeat split; assumption)) as [e1 [A _]].
  destruct (HN e1) as [W [HP Hn]].
  destruct (network_step_within E LU n net prepare factor linsolve cfg controls fuel t0 t1 u v e1 W HP Hn
    (HB e1 t1 (nth_error_In _ _ P1)) Hm Ht A) as [_ [c [e0 [Hc [Hp Q]]]]].
  exists c, e0, e1. auto.
Qed.
Print Assumptions C90_simulation.

(** The residual of one step, evaluated alone. *)
Theorem C90_residual :
  forall N eps t0 t1 last x c v,
    well_formed N -> pipes_ok N -> boundary_defined N t1 -> 0 <= eps ->
    exists r, evaluate N t0 t1 last x c v = Ok r /\
      (euclidean_norm (number_of_states N) r <= eps -> network_equations_within N eps t0 t1 last x c).
Proof.
  intros N eps t0 t1 last x c v W HP HB He.
  destruct (evaluate_small eps He N t0 t1 last x c v W HP HB) as [r [E K]]. exists r. split; [exact E|].
  intro Hr. apply K. intros i Hi. eapply Rle_trans; [apply (norm_entry _ r i Hi)|exact Hr].
Qed.
Print Assumptions C90_residual.

(** With tolerance zero these are the exact equations. *)
Theorem C90_exact :
  forall N t0 t1 last x c, well_formed N ->
    network_equations_within N 0 t0 t1 last x c -> network_equations N t0 t1 last x c.
Proof.
  assert (Z : forall a b, within 0 a b -> a = b).
  { intros a b H. unfold within in H. pose proof (Rabs_pos (a - b)). assert (E : Rabs (a - b) = 0) by lra.
    destruct (Req_dec (a - b) 0); [lra|]. apply Rabs_no_R0 in H1. contradiction. }
  intros N t0 t1 last x c W [HN HE]. split.
  - assert (CP : forall j, has_gas_edge N j -> close_pressures N j x (INR (gas_ends N j - 1) * 0) ->
      exists pr, equal_pressures N j x pr).
    { intros j [i [e [d [H1 [H2 H3]]]]] H. rewrite Rmult_0_r in H. exists (pressure_at N i e d x).
      intros i' e' d' H1' H2' H3'. apply Z. apply (H i' e' d' i e d); auto. }
    intros j t H. specialize (HN j t H). destruct t as [|sink b|b|k ext G B b]; cbn [node_equation node_equation_within] in *.
    + intro K. destruct (HN K). auto.
    + intro K. destruct (HN K) as [v [E [A B]]]. exists v. auto.
    + intro K. destruct (HN K) as [v [E A]]. exists v. split; [auto|]. intros i e d H1 H2 H3. apply Z, (A i e d); auto.
    + destruct HN as [v [E A]]. exists v. split; [auto|]. cbv zeta in *.
      destruct k; destruct A as [A1 A2]; apply Z in A1; apply Z in A2.
      * rewrite (surjective_pairing (power _ _ _ _ _)). congruence.
      * auto.
      * auto.
  - intros i e H. specialize (HE i e H). unfold edge_equation, edge_equation_within in *. cbv zeta in *.
    destruct (e_type e); try (destruct HE as [A B]; split; apply Z; assumption); try exact I.
    + intros m Hm. destruct (HE m Hm) as [sl [sr [E1 [E2 A]]]]. exists sl, sr. split; [auto|]. split; [auto|].
      intros c' Hc. apply Z. specialize (A c' Hc). rewrite Rmult_0_r in A. exact A.
    + destruct HE as [w [E A]]. exists w. split; [auto|]. destruct (nth_error (nodes N) (e_to e)) as [[| | |]|]; try contradiction.
      apply Z. exact A.
Qed.
Print Assumptions C90_exact.

(** The simulation of a network always ends. *)
Theorem C90_terminates :
  forall E LU n net prepare factor linsolve sfuel cfg controls points x e,
    (attempt_bound (use_simplified_newton cfg) (retries cfg) <= Z.of_nat sfuel)%Z ->
    fst (simulate (network_problem E LU n net prepare factor linsolve) 1075 sfuel cfg controls points x e) <> None.
Proof. intros. apply simulate_terminates; [apply network_zero_step|assumption]. Qed.
Print Assumptions C90_terminates.

(** A short pipe between a node whose pressure rises and a sink: two time steps, each with one
    Newton step. *)
Example C90_case :
  simulate rising_problem 1 1 sim_settings none [0; 1; 2] (rising_state 0) tt
  = (Some (Ok [rising_state 0; rising_state 1; rising_state 2]), tt) /\
  well_formed rising_net /\ pipes_ok rising_net /\ number_of_states rising_net = 4%nat /\
  forall t, boundary_defined rising_net t.
Proof.
  split; [exact rising_run|]. split; [exact rising_well_formed|]. split; [exact rising_pipes|].
  split; [reflexivity|exact rising_boundary].
Qed.

(** ** C91: the gas in the pipes changes by what enters and leaves the network *)
Theorem C91_step :
  forall N eps t0 t1 last x c,
    well_formed N -> pipes_ok N -> 0 <= eps -> t0 <= t1 ->
    network_equations_within N eps t0 t1 last x c ->
    Rabs (linepack N x - linepack N last - entered N t0 t1 x) <= mass_error N eps t0 t1.
Proof. exact mass_balance. Qed.
Print Assumptions C91_step.

(** Over a whole simulation of a network without stochastic nodes. *)
Theorem C91_simulation :
  forall LU n N factor linsolve fuel sfuel cfg controls points x rows e',
    well_formed N -> pipes_ok N -> number_of_states N = n ->
    (forall t, In t points -> boundary_defined N t) -> Sorted Rle points ->
    (0 <= maximal_iterations (newton cfg))%Z -> tolerance (newton cfg) < 1000000 ->
    simulate (network_problem unit LU n (fun _ => N) (fun e _ _ _ _ => Ok e) factor linsolve)
      fuel sfuel cfg controls points x tt = (Some (Ok rows), e') ->
    Rabs (linepack N (last rows x) - linepack N x - entered_all N points rows)
    <= tolerance (newton cfg) * (INR (length points - 1) * volume N
         + (last points 0 - hd 0 points) * (rho_0 * INR (flow_equations N + short_edges N))).
Proof. exact simulation_mass. Qed.
Print Assumptions C91_simulation.

(** With exact solutions the balance is exact. *)
Theorem C91_exact :
  forall N t0 t1 last x c,
    well_formed N -> pipes_ok N -> t0 <= t1 ->
    network_equations_within N 0 t0 t1 last x c ->
    linepack N x = linepack N last + (t1 - t0) * (rho_0 * (total_supply N t1 x - burnt N x)).
Proof.
  intros N t0 t1 last x c W HP Ht H.
  pose proof (mass_balance N 0 t0 t1 last x c W HP (Rle_refl 0) Ht H) as B. unfold mass_error, entered in B.
  rewrite Rmult_0_l in B. pose proof (Rabs_pos (linepack N x - linepack N last - (t1 - t0) * (rho_0 * (total_supply N t1 x - burnt N x)))) as P.
  assert (E : Rabs (linepack N x - linepack N last - (t1 - t0) * (rho_0 * (total_supply N t1 x - burnt N x))) = 0) by lra.
  destruct (Req_dec (linepack N x - linepack N last - (t1 - t0) * (rho_0 * (total_supply N t1 x - burnt N x))) 0) as [Q|Q]; [lra|].
  apply Rabs_no_R0 in Q. contradiction.
Qed.
Print Assumptions C91_exact.

(** A pipe with laminar flow in a steady state. *)
Example C91_case :
  simulate (network_problem unit unit 4 (fun _ => steady_net) (fun e _ _ _ _ => Ok e) (fun _ _ _ _ _ _ => None) (fun _ b => b))
    1 1 sim_settings none [0; 1; 2] steady_state tt = (Some (Ok [steady_state; steady_state; steady_state]), tt) /\
  well_formed steady_net /\ pipes_ok steady_net /\ number_of_states steady_net = 4%nat /\
  (forall t, boundary_defined steady_net t) /\ 0 < linepack steady_net steady_state /\ 0 < steady_state 1%nat.
Proof.
  split; [exact steady_run|]. split; [exact steady_well_formed|]. split; [exact steady_pipes|].
  split; [reflexivity|]. split; [exact steady_boundary|]. pose proof steady_length_pos. split.
  - cbn. unfold circle_area, Pi. lra.
  - cbn. unfold slow. lra.
Qed.
