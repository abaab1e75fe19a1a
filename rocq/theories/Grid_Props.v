(** * Property C105: power networks as a whole *)
From Coq Require Import Reals Lra Lia List Arith Bool.
From Coquelicot Require Import Coquelicot Complex.
From Verif Require Import Base Interp_Model Calc Euler_Model Euler_Spec Box_Model Net_Model Net_Spec Net_Proofs Net_Proofs5 Net_Proofs6 Net_Proofs8 Net_Props
  Mass_Proofs Grid_Spec Grid_Proofs Grid_Proofs2.
Import ListNotations.
Local Open Scope R_scope.

(** The power fed in at all nodes together, as computed by P and Q, is what flows to the ground and what is used up in
    the lines. *)
Theorem C105_balance : forall N x, well_formed N ->
  (forall j, is_power_node N j ->
     P (power_of N j) x = Ok (fst (node_power N x j)) /\ Q (power_of N j) x = Ok (snd (node_power N x j))) /\
  fed_in fst N x = ground_power fst N x + line_power fst N x /\
  fed_in snd N x = - (ground_power snd N x + line_power snd N x).
Proof.
  intros N x W. split; [|split; [apply active_balance|apply reactive_balance]; exact W].
  intros j H. destruct (power_known N j W H) as (_ & l & Hl & _). rewrite (P_ok _ l), (Q_ok _ l) by exact Hl.
  unfold is_power_node, node_power in *. destruct (nth_error (nodes N) j) as [[|s b|b|k e G B b]|] eqn:E; try destruct H.
  rewrite (power_value N j k e G B b l x W E Hl). split; reflexivity.
Qed.
Print Assumptions C105_balance.

(** In a passive network more power is generated than consumed. *)
Theorem C105_losses : forall N x, well_formed N -> passive N -> 0 <= fed_in fst N x.
Proof. exact passive_loses. Qed.
Print Assumptions C105_losses.

(** In a solution the nodes with given voltage and phase deliver the losses and what the others consume. *)
Theorem C105_slack : forall N t0 t1 last x c, well_formed N -> network_equations N t0 t1 last x c ->
  slack_power N x = ground_power fst N x + line_power fst N x - given_power N t1.
Proof.
  intros N t0 t1 last x c W (Hn & _). rewrite <- (proj1 (proj2 (C105_balance N x W))). unfold slack_power, given_power, fed_in.
  rewrite <- rsum_minus. apply rsum_ext. intros j _. unfold node_power.
  destruct (nth_error (nodes N) j) as [[|s b|b|[] e G B b]|] eqn:E; cbn [RtoC fst]; try ring.
  - specialize (Hn j _ E). cbn [node_equation] in Hn. destruct Hn as (v & Ev & Hn). rewrite Ev, Hn. cbn [fst]. ring.
  - specialize (Hn j _ E). cbn [node_equation] in Hn. destruct Hn as (v & Ev & Hn & _). rewrite Ev, Hn. ring.
Qed.
Print Assumptions C105_slack.

(** Turning all phases of an island in which no phase is given changes no residual: with a solution all
    turned states are solutions. *)
Theorem C105_turned : forall N inside a t0 t1 last x y c v,
  well_formed N -> island N inside -> phase_free N inside -> turned N inside a x y ->
  evaluate N t0 t1 last y c v = evaluate N t0 t1 last x c v /\
  (pipes_ok N -> boundary_defined N t1 -> network_equations N t0 t1 last x c -> network_equations N t0 t1 last y c).
Proof.
  intros N inside a t0 t1 last x y c v W Isl Free T.
  assert (E : forall v, evaluate N t0 t1 last y c v = evaluate N t0 t1 last x c v)
    by (intro v'; apply (evaluate_turned N inside a x y W Isl T Free)).
  split; [apply E|]. intros HP HB H.
  destruct (C54_solution N t0 t1 last x c v W HP HB) as (r & Er & Hr).
  destruct (C54_solution N t0 t1 last y c v W HP HB) as (r' & Er' & Hr').
  rewrite E, Er in Er'. injection Er' as <-. apply Hr', Hr. exact H.
Qed.
Print Assumptions C105_turned.

(** For the same reason the matrix of the linear systems in Newton's method has no inverse (in all states: C105_always). *)
Theorem C105_singular : forall N inside t0 t1 last x c,
  well_formed N -> pipes_ok N -> boundary_defined N t1 -> regular_state N x ->
  island N inside -> phase_free N inside ->
  exists ts, d_evaluate_d_new_state N t0 t1 last x c = Ok ts /\ singular (number_of_states N) (matrix_of ts).
Proof. intros N inside. apply island_singular. Qed.
Print Assumptions C105_singular.

(** Case: a load that is supplied over a line; once by a node with given voltage and phase, once by a node with given
    power and voltage.  Setup rejects neither. *)
Definition supplied (supply : nodetype) : network :=
  mkNet [supply; Powernode PQ false 1 (-5) (fun _ => Ok (v2 (-9 / 100) (-45 / 100)))] [mkEdge 0 1 (ELine (-1) 5)].
Definition slack_net := supplied (Powernode Vphi false 1 (-5) (fun _ => Ok (v2 1 0))).
Definition free_net := supplied (Powernode PV false 1 (-5) (fun _ => Ok (v2 (1 / 10) 1))).
Definition supplied_state (a : R) : vec := fun k => nth k [1; a; 9 / 10; a] 0.

Lemma supplied_ok G B b k : let N := supplied (Powernode k false G B b) in
  setup_ok N = true /\ constructible N /\ well_formed N /\ pipes_ok N /\ forall x, regular_state N x.
Proof.
  intro N. split; [reflexivity|]. split; [repeat constructor|]; cbn; [discriminate|].
  split; [repeat constructor; discriminate|]. split; [repeat constructor|].
  intros x i e H. destruct i as [|i]; cbn in H; [injection H as <-; cbn; exact Logic.I|destruct i; discriminate].
Qed.
Example C105_case : well_formed slack_net /\ passive slack_net /\
  network_equations slack_net 0 1 (supplied_state 0) (supplied_state 0) (fun _ => 0) /\
  slack_power slack_net (supplied_state 0) = 1 / 10 /\ line_power fst slack_net (supplied_state 0) = 1 / 100.
Proof.
  assert (V0 : voltage slack_net 0 (supplied_state 0) = (1, 0))
    by (unfold voltage; cbn; rewrite cos_0, sin_0; f_equal; ring).
  assert (V1 : voltage slack_net 1 (supplied_state 0) = (9 / 10, 0))
    by (unfold voltage; cbn; rewrite cos_0, sin_0; f_equal; ring).
  split; [apply (supplied_ok 1 (-5) (fun _ => Ok (v2 1 0)) Vphi)|]. split.
  - split; [intros e g b [<-|[]] H; cbn in H; injection H as <- <-; lra|].
    intro j. destruct j as [|[|j]]; cbn; [lra|lra|]. unfold to_ground. destruct j; cbn; lra.
  - split.
    + split.
      * intros j t H. destruct j as [|[|j]]; cbn in H; [injection H as <-..|destruct j; discriminate]; cbn [node_equation].
        -- exists (v2 1 0). split; [reflexivity|]. cbn. auto.
        -- exists (v2 (-9 / 100) (-45 / 100)). split; [reflexivity|]. unfold power, current.
           cbn [slack_net supplied edges csum fold_right e_type e_from e_to Nat.eqb]. fold slack_net. rewrite V0, V1.
           unfold Cmult, Cconj, Cplus, RtoC. cbn. f_equal; field.
      * intros i e H. destruct i as [|i]; cbn in H; [injection H as <-; cbn; exact Logic.I|destruct i; discriminate].
    + split.
      * unfold slack_power, node_numbers. cbn [slack_net supplied nodes length seq rsum nth_error]. fold slack_net.
        unfold node_power. cbn [slack_net supplied nodes nth_error]. fold slack_net. unfold power, current.
        cbn [slack_net supplied edges csum fold_right e_type e_from e_to Nat.eqb]. fold slack_net. rewrite V0, V1.
        unfold Cmult, Cconj, Cplus, RtoC. cbn. field.
      * unfold line_power. cbn [slack_net supplied edges rsum e_type e_from e_to]. fold slack_net. rewrite V0, V1.
        unfold square, Cminus, Cplus, Copp. cbn. field.
Qed.
Example C105_island_case : setup_ok free_net = true /\ constructible free_net /\ well_formed free_net /\ pipes_ok free_net /\
  boundary_defined free_net 1 /\ (forall x, regular_state free_net x) /\ island free_net (fun _ => true) /\ phase_free free_net (fun _ => true) /\
  (forall a, turned free_net (fun _ => true) a (supplied_state 0) (supplied_state a)).
Proof.
  destruct (supplied_ok 1 (-5) (fun _ => Ok (v2 (1 / 10) 1)) PV) as (A1 & A2 & A3 & A4 & A5).
  split; [exact A1|]. split; [exact A2|]. split; [exact A3|]. split; [exact A4|]. split.
  - intro j. destruct j as [|[|j]]; cbn; eauto. destruct j; cbn; exact Logic.I.
  - split; [exact A5|]. split; [split; [reflexivity|exists 0%nat; split; [reflexivity|exact Logic.I]]|]. split.
    + intros j e G B b _ H. destruct j as [|[|j]]; cbn in H; try discriminate. destruct j; discriminate.
    + intro a. split.
      * intros j _ H. destruct j as [|[|j]]; cbn; [ring|ring|]. destruct j; destruct H.
      * intros k H. pose proof (H 0%nat eq_refl Logic.I) as H0. pose proof (H 1%nat eq_refl Logic.I) as H1. cbn in H0, H1.
        destruct k as [|[|[|[|k]]]]; try reflexivity; congruence.
Qed.
