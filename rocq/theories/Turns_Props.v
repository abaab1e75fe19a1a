(** * Property C122: voltages with the opposite sign, phases moved by turns *)
From Coq Require Import Reals ZArith Lra Lia List Arith.
From Coquelicot Require Import Complex.
From Verif Require Import Base Interp_Model Calc Euler_Model Box_Model Newton_Model Evolve_Model Net_Model Net_Spec Net_Props Sim_Model Steady_Spec Steady_Props Unit_Props.
From Verif Require Import Turns_Spec Turns_Proofs.
Import ListNotations.
Local Open Scope R_scope.

(** At nodes with given powers the phase may be moved by half turns if the sign of the voltage is changed for every odd number
    of them, at nodes with given power and voltage by whole turns: the residual is the same. *)
Theorem C122_residual : forall N m t0 t1 last x y c v,
  well_formed N -> allowed N m -> half_turned N m x y -> evaluate N t0 t1 last y c v = evaluate N t0 t1 last x c v.
Proof. intros N m t0 t1 last x y c v W A T. exact (evaluate_half N m x y T W A t0 t1 last c v). Qed.
Print Assumptions C122_residual.

(** So every solution yields others; of the last step any voltages may be moved, given or not. *)
Theorem C122_equations : forall N m m0 t0 t1 last last' x y c,
  well_formed N -> pipes_ok N -> boundary_defined N t1 -> allowed N m -> half_turned N m x y -> half_turned N m0 last last' ->
  (network_equations N t0 t1 last' y c <-> network_equations N t0 t1 last x c).
Proof.
  intros N m m0 t0 t1 last last' x y c W HP HB A T L.
  destruct (C54_solution N t0 t1 last x c (fun _ => 0) W HP HB) as (r & E & Z). destruct (C54_solution N t0 t1 last y c (fun _ => 0) W HP HB) as (r' & E' & Z').
  rewrite (C122_residual N m t0 t1 last x y c _ W A T), E in E'. injection E' as <-. rewrite <- Z, Z'. split; apply last_edges.
  - intros i e He. exact (turns_edges N (fun j => - m0 j)%Z last' last (half_back _ _ _ _ L) i e He).
  - intros i e He. exact (turns_edges N m0 last last' L i e He).
Qed.
Print Assumptions C122_equations.

(** Every state can be moved like this, and back; the complex voltages stay, and there is no other way to keep a voltage that is
    not zero. *)
Theorem C122_states : forall N m x,
  (exists y, half_turned N m x y) /\
  (forall y, half_turned N m x y -> half_turned N (fun j => - m j)%Z y x /\ forall j, is_power_node N j -> voltage N j y = voltage N j x).
Proof.
  intros N m x. split; [exists (turn_at N m x); apply turn_at_half|]. intros y T. split; [apply half_back; exact T|]. exact (voltage_same N m x y T).
Qed.
Print Assumptions C122_states.
Theorem C122_only : forall N x y j, voltage N j x <> RtoC 0 -> voltage N j y = voltage N j x ->
  let s := fst (node_block N j) in
  exists m : Z, y s = (if Z.even m then x s else - x s) /\ y (s + 1)%nat = x (s + 1)%nat + IZR m * PI.
Proof.
  intros N x y j Z E s. unfold voltage in *. fold s in Z, E. injection E as E1 E2. apply polar; [|exact E1|exact E2].
  intro V. apply Z. rewrite V. unfold RtoC. f_equal; ring.
Qed.
Print Assumptions C122_only.

(** Unless the phases of all power nodes are given, solutions are never unique: there are some with arbitrarily large phases. *)
Theorem C122_far : forall N t0 t1 last x c j k ext G B b bound,
  well_formed N -> pipes_ok N -> boundary_defined N t1 -> network_equations N t0 t1 last x c ->
  nth_error (nodes N) j = Some (Powernode k ext G B b) -> k <> Vphi ->
  exists y, network_equations N t0 t1 last y c /\ bound < y (fst (node_block N j) + 1)%nat /\
    (forall i e n, nth_error (edges N) i = Some e -> y (fst (edge_block N i) + n)%nat = x (fst (edge_block N i) + n)%nat).
Proof.
  intros N t0 t1 last x c j k ext G B b bound W HP HB H Hj Hk. set (s := fst (node_block N j)).
  set (n := up ((bound - x (s + 1)%nat) / (2 * PI))). set (m := fun j' => if Nat.eqb j' j then (2 * n)%Z else 0%Z).
  assert (A : allowed N m).
  { intro j'. unfold m. destruct (Nat.eqb_spec j' j) as [->|D].
    - rewrite Hj. destruct k; [exact Logic.I|apply Z.even_spec; exists n; reflexivity|congruence].
    - destruct (nth_error (nodes N) j') as [[| | |[] e' G' B' b']|]; auto. }
  pose proof (turn_at_half N m x) as T. set (y := turn_at N m x) in *. exists y. split; [|split].
  - apply (C122_equations N m (fun _ => 0%Z) t0 t1 last last x y c W HP HB A T); [|exact H].
    split; [intros j' _; split; [reflexivity|ring]|reflexivity].
  - assert (P : is_power_node N j) by (unfold is_power_node; rewrite Hj; exact Logic.I). unfold s. rewrite (proj2 (proj1 T j P)). fold s. unfold m. rewrite Nat.eqb_refl, mult_IZR.
    pose proof (proj1 (archimed ((bound - x (s + 1)%nat) / (2 * PI)))) as U. fold n in U. pose proof PI_RGT_0 as Pi.
    apply (Rmult_gt_compat_r (2 * PI)) in U; [|lra]. unfold Rdiv in U. rewrite Rmult_assoc, Rinv_l in U by lra. lra.
  - intros i e q He. apply (turns_edges N m x y T i e He). lia.
Qed.
Print Assumptions C122_far.

(** A simulation that starts at a state moved like this, where the original state is steady, ends normally and reports that state. *)
Theorem C122_simulation : forall LU N factor linsolve fuel sfuel cfg controls points m x y,
  well_formed N -> pipes_ok N -> 0 <= tolerance (newton cfg) -> (2 <= length points)%nat -> allowed N m -> half_turned N m x y ->
  (forall t, In t (tl points) -> boundary_defined N t /\
     exists c, (iinner controls = 0%nat /\ c = [] \/ (0 < iinner controls)%nat /\ interp_at controls t = Ok c) /\
       steady_equations N t x (control_vector c)) ->
  simulate (network_problem unit LU (number_of_states N) (fun _ => N) (fun e _ _ _ _ => Ok e) factor linsolve)
    fuel (S sfuel) cfg controls points y tt = (Some (Ok (map (fun _ => y) points)), tt).
Proof.
  intros LU N factor linsolve fuel sfuel cfg controls points m x y W HP Ht HL A T H. apply C104_stays; try assumption.
  intros t I. destruct (H t I) as (HB & c & Hc & S). split; [exact HB|]. exists c. split; [exact Hc|].
  assert (L : t - 1 < t) by lra. apply (proj1 (C104_step N (t - 1) t y (control_vector c) L)).
  apply (C122_equations N m m (t - 1) t x y x y _ W HP HB A T T). apply (C104_step N (t - 1) t x (control_vector c) L). exact S.
Qed.
Print Assumptions C122_simulation.

(** Refuted: a voltage that solves the equations is not negative. *)
Definition negative_state : vec := fun k => nth k [1; 0; - / 2; PI] 0.
Lemma negative_turned : half_turned load_net (fun j => if Nat.eqb j 1 then 1%Z else 0%Z) load_state negative_state.
Proof.
  split.
  - intros [|[|j]] P; [split; cbn; lra|split; cbn; lra|destruct j; contradiction].
  - intros k H. destruct k as [|[|[|[|k]]]]; try reflexivity; exfalso; apply H.
    + exists 1%nat. split; [exact Logic.I|left; reflexivity].
    + exists 1%nat. split; [exact Logic.I|right; reflexivity].
Qed.
Lemma load_turns : allowed load_net (fun j => if Nat.eqb j 1 then 1%Z else 0%Z).
Proof. intros [|[|j]]; cbn; auto. destruct j; exact Logic.I. Qed.
Lemma load_net_ok : well_formed load_net /\ pipes_ok load_net /\ boundary_defined load_net 1.
Proof.
  split; [apply C117_case|]. split; [repeat constructor|]. intros [|[|j]]; cbn; eauto. destruct j; exact Logic.I.
Qed.
Theorem C122_positive_refuted : exists N t0 t1 last x c j, well_formed N /\ pipes_ok N /\ boundary_defined N t1 /\ is_power_node N j /\
  network_equations N t0 t1 last x c /\ x (fst (node_block N j)) < 0.
Proof.
  destruct load_net_ok as (W & HP & HB). exists load_net, 0, 1, negative_state, negative_state, (fun _ => 0), 1%nat.
  split; [exact W|]. split; [exact HP|]. split; [exact HB|]. split; [exact Logic.I|]. split.
  - apply (C122_equations load_net _ _ 0 1 load_state negative_state load_state negative_state _ W HP HB load_turns negative_turned negative_turned). apply C117_case.
  - cbn. lra.
Qed.
Print Assumptions C122_positive_refuted.

(** The load of Unit_Props.v. *)
Example C122_case :
  let m := fun j => if Nat.eqb j 1 then 1%Z else 0%Z in
  well_formed load_net /\ pipes_ok load_net /\ boundary_defined load_net 1 /\ allowed load_net m /\ half_turned load_net m load_state negative_state /\
  network_equations load_net 0 1 load_state load_state (fun _ => 0) /\ voltage load_net 1 load_state <> RtoC 0 /\
  network_equations load_net 0 1 negative_state negative_state (fun _ => 0) /\ steady_equations load_net 1 load_state (fun _ => 0).
Proof.
  intro m. destruct load_net_ok as (W & HP & HB). split; [exact W|]. split; [exact HP|]. split; [exact HB|]. split; [exact load_turns|]. split; [exact negative_turned|].
  assert (Q : network_equations load_net 0 1 load_state load_state (fun _ => 0)) by apply C117_case. split; [exact Q|]. split.
  - intro E. injection E as E _. cbn in E. rewrite cos_0 in E. lra.
  - split; [|apply (C104_step load_net 0 1 load_state (fun _ => 0) ltac:(lra)); exact Q].
    apply (C122_equations load_net _ _ 0 1 load_state negative_state load_state negative_state _ W HP HB load_turns negative_turned negative_turned). exact Q.
Qed.
