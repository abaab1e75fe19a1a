(** * Loads that the lines of a power network cannot carry (C111) *)
From Coq Require Import Reals ZArith Lra Lia List Arith Bool.
From Coquelicot Require Import Complex.
From Verif Require Import Base Interp_Model Calc Euler_Model Euler_Spec Box_Model
  Net_Model Net_Spec Newton_Model Evolve_Model Sim_Model Sim_Spec Sim_Props Load_Spec Load_Proofs Load_Proofs2.
Import ListNotations.
Local Open Scope R_scope.

(** In every state of every network: the power at a node is within (voltage times what the lines bring) of what the node itself
    takes, and so never exceeds the limit of [carried]. *)
Theorem C111_limit : forall N j G B x,
  Cmod (Cminus (power N j G B x) (Cmult (Cconj (G, B)) (RtoC (magnitude N x j * magnitude N x j))))
    <= magnitude N x j * line_reach N (magnitude N x) j /\
  carried (G, B) (power N j G B x) (line_reach N (magnitude N x) j).
Proof. exact limit. Qed.
Print Assumptions C111_limit.

Theorem C111_overload : forall N eps t0 t1 last x c j,
  0 <= eps -> overloaded N eps t1 j -> ~ network_equations_within N eps t0 t1 last x c.
Proof. exact overload_unsolvable. Qed.
Print Assumptions C111_overload.

(** A simulation with an overloaded node at one of its times (after the first) does not end normally. *)
Theorem C111_simulation : forall E LU n net prepare factor linsolve fuel sfuel cfg controls points x e rows e' i t0 t1,
  (forall e, well_formed (net e) /\ pipes_ok (net e) /\ number_of_states (net e) = n) ->
  (forall e t, In t points -> boundary_defined (net e) t) ->
  (0 <= maximal_iterations (newton cfg))%Z -> 0 <= tolerance (newton cfg) < 1000000 ->
  nth_error points i = Some t0 -> nth_error points (S i) = Some t1 ->
  (forall e, exists j, overloaded (net e) (tolerance (newton cfg)) t1 j) ->
  simulate (network_problem E LU n net prepare factor linsolve) fuel sfuel cfg controls points x e <> (Some (Ok rows), e').
Proof.
  intros E LU n net prepare factor linsolve fuel sfuel cfg controls points x e rows e' i t0 t1 HN HB Hm (Ht & Ht') P0 P1 HO H.
  destruct (C90_simulation E LU n net prepare factor linsolve fuel sfuel cfg controls points x e rows e' HN HB Hm Ht' H) as (L & _ & K).
  assert (Hi : (S i < length points)%nat) by (apply nth_error_Some; congruence).
  destruct (nth_error rows i) as [u|] eqn:R0; [|apply nth_error_None in R0; lia].
  destruct (nth_error rows (S i)) as [v|] eqn:R1; [|apply nth_error_None in R1; lia].
  destruct (K i t0 t1 u v P0 P1 R0 R1) as (c & e0 & e1 & _ & _ & Q). destruct (HO e1) as (j & O).
  exact (overload_unsolvable (net e1) _ t0 t1 u v (control_vector c) j Ht O Q).
Qed.
Print Assumptions C111_simulation.

(** If all nodes with given power are joined only to nodes with given voltage and phase, the limit is exact: there is a solution
    if and only if every given power can be carried. *)
Theorem C111_star : forall N t0 t1 last c,
  well_formed N -> star_net N -> boundary_defined N t1 ->
  ((exists x, network_equations N t0 t1 last x c) <-> loads_carried N t1).
Proof.
  intros N t0 t1 last c W S HB. split.
  - intros (x & H). exact (star_necessary N t1 W S t0 last x c H).
  - intro L. destruct (star_sufficient N t1 W S HB (fun _ => true) t0 last c L) as (x & H & _). exists x. exact H.
Qed.
Print Assumptions C111_star.

(** In such networks there are two voltages for every prescribed power, and they can be chosen independently: the solver may
    find any of them. *)
Theorem C111_voltages : forall N t0 t1 last c,
  well_formed N -> star_net N -> boundary_defined N t1 ->
  (forall x j ext G B b v, network_equations N t0 t1 last x c -> nth_error (nodes N) j = Some (Powernode PQ ext G B b) -> b t1 = Ok v ->
     exists high, magnitude N x j * magnitude N x j = square_root high (G, B) (v 0%nat, v 1%nat) (Cmod (given_current N t1 j))) /\
  (loads_carried N t1 -> forall high : nat -> bool, exists x, network_equations N t0 t1 last x c /\
     forall j ext G B b v, nth_error (nodes N) j = Some (Powernode PQ ext G B b) -> b t1 = Ok v ->
       magnitude N x j * magnitude N x j = square_root (high j) (G, B) (v 0%nat, v 1%nat) (Cmod (given_current N t1 j))).
Proof.
  intros N t0 t1 last c W S HB. split.
  - intros x j ext G B b v H Hj Hb. destruct (star_roots N t1 W S t0 last x c j ext G B b v H Hj Hb) as [Q|Q]; [exists true|exists false]; exact Q.
  - intros L high. exact (star_sufficient N t1 W S HB high t0 last c L).
Qed.
Print Assumptions C111_voltages.

(** Case: a line of admittance 1 from a node with voltage 1 to a load; at most the power 1/4 can be taken. *)
Definition feeder (load : R) : network :=
  mkNet [Powernode Vphi false 1 0 (fun _ => Ok (v2 1 0)); Powernode PQ false 1 0 (fun _ => Ok (v2 (- load) 0))]
        [mkEdge 0 1 (ELine (-1) 0)].
Lemma mod_real a : 0 <= a -> Cmod (a, 0) = a.
Proof. intro H. change (a, 0) with (RtoC a). rewrite Cmod_R. apply Rabs_pos_eq, H. Qed.
Lemma mod_negative a : 0 <= a -> Cmod (- a, 0) = a.
Proof. intro H. change (- a, 0) with (RtoC (- a)). rewrite Cmod_R, Rabs_Ropp. apply Rabs_pos_eq, H. Qed.
Lemma feeder_star load : well_formed (feeder load) /\ star_net (feeder load) /\ forall t, boundary_defined (feeder load) t.
Proof.
  split; [repeat constructor; cbn; lia|]. split; [split|].
  - intros j Hj. destruct j as [|[|j]]; cbn; [exact Logic.I| |cbn in Hj; lia]. intro Q. injection Q. lra.
  - intros e [<-|[]]. split; [exists (-1), 0; reflexivity|]. intros (x1 & G1 & B1 & b1 & _ & _ & _ & _ & Q & _). discriminate.
  - intros t j. destruct j as [|[|j]]; cbn; eauto. destruct j; exact Logic.I.
Qed.
Example C111_case : forall load, 0 <= load ->
  ((exists x, network_equations (feeder load) 0 1 (fun _ => 0) x (fun _ => 0)) <-> load <= 1 / 4).
Proof.
  intros load H0. destruct (feeder_star load) as (W & S & B). rewrite (C111_star (feeder load) 0 1 (fun _ => 0) (fun _ => 0) W S (B 1)).
  assert (G : given_current (feeder load) 1 1 = RtoC (-1)).
  { unfold given_current, given_phasor. cbn. rewrite cos_0, sin_0. unfold Cplus, Cmult, RtoC. cbn [fst snd]. f_equal; ring. }
  assert (K : carried (1, 0) (- load, 0) (Cmod (given_current (feeder load) 1 1)) <-> load <= 1 / 4).
  { rewrite G. unfold carried. rewrite Cmod_R, mod_negative, mod_real by lra. cbn [fst snd]. rewrite Rabs_left by lra. split; intro; lra. }
  rewrite <- K. split; intro L.
  - exact (L 1%nat false 1 0 _ (v2 (- load) 0) eq_refl eq_refl).
  - intros j ext G' B' b v Hj Hb. destruct j as [|[|j]]; cbn in Hj; try discriminate; [|destruct j; discriminate].
    injection Hj as <- <- <- <-. injection Hb as <-. exact L.
Qed.
Example C111_overload_case : overloaded (feeder 1) (1 / 1000) 1 1.
Proof.
  exists false, 1, 0, (fun _ => Ok (v2 (- 1) 0)), (v2 (- 1) 0), (fun _ => 1). split; [reflexivity|]. split; [reflexivity|]. split.
  - intros e g b [<-|[]] _. split; intro E; [discriminate|]. exists 1. split; [reflexivity|]. rewrite Rabs_R1. lra.
  - unfold line_reach. cbn. change (-1, 0) with (RtoC (-1)). rewrite mod_real by lra. rewrite Cmod_R, Rabs_left by lra. lra.
Qed.
(** Taking 3/16, the load has the voltage 3/4 or 1/4. *)
Example C111_voltages_case :
  square_root true (1, 0) (- (3 / 16), 0) 1 = (3 / 4) * (3 / 4) /\ square_root false (1, 0) (- (3 / 16), 0) 1 = (1 / 4) * (1 / 4) /\
  loads_carried (feeder (3 / 16)) 1.
Proof.
  assert (Q : sqrt (5 / 8 * (5 / 8) - 4 * (3 / 16 * (3 / 16)) * (1 * 1)) = 1 / 2).
  { replace (5 / 8 * (5 / 8) - 4 * (3 / 16 * (3 / 16)) * (1 * 1)) with ((1 / 2) * (1 / 2)) by field. apply sqrt_square. lra. }
  split; [|split].
  1, 2: unfold square_root; cbv zeta; rewrite mod_negative, mod_real by lra; cbn [fst snd];
    replace (1 * 1 + 2 * (- (3 / 16) * 1 - 0 * 0)) with (5 / 8) by field; rewrite Q; field.
  destruct (feeder_star (3 / 16)) as (W & S & B). apply (proj1 (C111_star (feeder (3 / 16)) 0 1 (fun _ => 0) (fun _ => 0) W S (B 1))).
  apply C111_case; lra.
Qed.
