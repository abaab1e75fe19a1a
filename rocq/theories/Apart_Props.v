(** * Parts of a network that are not connected do not influence each other (C114) *)
From Coq Require Import Reals ZArith Lra Lia List Arith Bool.
From Coquelicot Require Import Coquelicot Complex.
From Verif Require Import Base Interp_Model Interp_Proofs Calc Euler_Model Euler_Spec Box_Model Net_Model Net_Spec Net_Proofs5 Net_Proofs8 Net_Props
  Newton_Model Evolve_Model Sim_Model Sim_Spec Sim_Proofs3 Sim_Props.
From Verif Require Import Apart_Spec Apart_Proofs Apart_Proofs2.
Import ListNotations.
Local Open Scope R_scope.

(** States of the parts make a state of the whole, and every state of the whole consists of states of the parts. *)
Theorem C114_states : forall N' N1 N2 pn1 pe1 pn2 pe2, consists N' N1 N2 pn1 pe1 pn2 pe2 ->
  (forall x1 x2, exists y, state_part N1 N' pn1 pe1 x1 y /\ state_part N2 N' pn2 pe2 x2 y) /\
  (forall y, exists x1 x2, state_part N1 N' pn1 pe1 x1 y /\ state_part N2 N' pn2 pe2 x2 y).
Proof.
  intros N' N1 N2 pn1 pe1 pn2 pe2 K. split.
  - intros x1 x2. apply (whole_exists N' N1 N2 pn1 pe1 pn2 pe2 K).
  - intro y. destruct (part_exists N1 N' pn1 pe1 y) as (x1 & H1). destruct (part_exists N2 N' pn2 pe2 y) as (x2 & H2). exists x1, x2. auto.
Qed.
Print Assumptions C114_states.

(** The equations of the whole are those of the two parts. *)
Theorem C114_equations : forall N' N1 N2 pn1 pe1 pn2 pe2 t0 t1 last1 last2 last' x1 x2 y c1 c2 c',
  well_formed N1 -> well_formed N2 -> consists N' N1 N2 pn1 pe1 pn2 pe2 ->
  state_part N1 N' pn1 pe1 last1 last' -> state_part N1 N' pn1 pe1 x1 y -> control_part N1 N' pe1 c1 c' ->
  state_part N2 N' pn2 pe2 last2 last' -> state_part N2 N' pn2 pe2 x2 y -> control_part N2 N' pe2 c2 c' ->
  (network_equations N' t0 t1 last' y c' <-> network_equations N1 t0 t1 last1 x1 c1 /\ network_equations N2 t0 t1 last2 x2 c2).
Proof. intros. eapply network_parts; eassumption. Qed.
Print Assumptions C114_equations.

(** So the whole has a solution exactly if each part has one. *)
Theorem C114_solvable : forall N' N1 N2 pn1 pe1 pn2 pe2 t0 t1 last1 last2 last' c1 c2 c',
  well_formed N1 -> well_formed N2 -> consists N' N1 N2 pn1 pe1 pn2 pe2 ->
  state_part N1 N' pn1 pe1 last1 last' -> control_part N1 N' pe1 c1 c' ->
  state_part N2 N' pn2 pe2 last2 last' -> control_part N2 N' pe2 c2 c' ->
  ((exists y, network_equations N' t0 t1 last' y c') <->
   (exists x1, network_equations N1 t0 t1 last1 x1 c1) /\ (exists x2, network_equations N2 t0 t1 last2 x2 c2)).
Proof.
  intros N' N1 N2 pn1 pe1 pn2 pe2 t0 t1 last1 last2 last' c1 c2 c' W1 W2 K L1 C1 L2 C2.
  destruct (C114_states N' N1 N2 pn1 pe1 pn2 pe2 K) as (A & B). split.
  - intros (y & H). destruct (B y) as (x1 & x2 & X1 & X2).
    apply (network_parts N' N1 N2 pn1 pe1 pn2 pe2 W1 W2 K t0 t1 last1 last2 last' x1 x2 y c1 c2 c' L1 X1 C1 L2 X2 C2) in H.
    destruct H as (H1 & H2). split; eauto.
  - intros ((x1 & H1) & (x2 & H2)). destruct (A x1 x2) as (y & X1 & X2). exists y.
    apply (network_parts N' N1 N2 pn1 pe1 pn2 pe2 W1 W2 K t0 t1 last1 last2 last' x1 x2 y c1 c2 c' L1 X1 C1 L2 X2 C2). auto.
Qed.
Print Assumptions C114_solvable.

(** The residual of the whole is zero exactly if those of the parts are. *)
Theorem C114_residual : forall N' N1 N2 pn1 pe1 pn2 pe2 t0 t1 last1 last2 last' x1 x2 y c1 c2 c' v v1 v2,
  well_formed N1 -> well_formed N2 -> consists N' N1 N2 pn1 pe1 pn2 pe2 ->
  well_formed N' -> pipes_ok N' -> boundary_defined N' t1 ->
  state_part N1 N' pn1 pe1 last1 last' -> state_part N1 N' pn1 pe1 x1 y -> control_part N1 N' pe1 c1 c' ->
  state_part N2 N' pn2 pe2 last2 last' -> state_part N2 N' pn2 pe2 x2 y -> control_part N2 N' pe2 c2 c' ->
  exists r r1 r2, evaluate N' t0 t1 last' y c' v = Ok r /\ evaluate N1 t0 t1 last1 x1 c1 v1 = Ok r1 /\ evaluate N2 t0 t1 last2 x2 c2 v2 = Ok r2 /\
    ((forall i, (i < number_of_states N')%nat -> r i = 0) <->
     (forall i, (i < number_of_states N1)%nat -> r1 i = 0) /\ (forall i, (i < number_of_states N2)%nat -> r2 i = 0)).
Proof.
  intros N' N1 N2 pn1 pe1 pn2 pe2 t0 t1 last1 last2 last' x1 x2 y c1 c2 c' v v1 v2 W1 W2 K W' HP HB L1 X1 C1 L2 X2 C2.
  pose proof (network_parts N' N1 N2 pn1 pe1 pn2 pe2 W1 W2 K t0 t1 last1 last2 last' x1 x2 y c1 c2 c' L1 X1 C1 L2 X2 C2) as Q.
  assert (A : forall Np pn pe, occurs Np N' pn pe -> pipes_ok Np /\ boundary_defined Np t1).
  { intros Np pn pe O. split.
    - apply List.Forall_forall. intros e He. apply In_nth_error in He. destruct He as (i & H).
      unfold pipes_ok in HP. rewrite List.Forall_forall in HP. apply (HP (Apart_Proofs.image pn e)).
      apply (nth_error_In _ (pe i)). apply (image_edge Np N' pn pe O i e H).
    - intro j. destruct (nth_error (nodes Np) j) as [t|] eqn:En; [|exact Logic.I]. pose proof (HB (pn j)) as R.
      rewrite (image_node Np N' pn pe O j t En) in R. exact R. }
  destruct K as (O1 & O2 & _). destruct (A N1 pn1 pe1 O1) as (P1 & B1). destruct (A N2 pn2 pe2 O2) as (P2 & B2).
  destruct (C54_solution N' t0 t1 last' y c' v W' HP HB) as (r & Er & Hr).
  destruct (C54_solution N1 t0 t1 last1 x1 c1 v1 W1 P1 B1) as (r1 & Er1 & Hr1).
  destruct (C54_solution N2 t0 t1 last2 x2 c2 v2 W2 P2 B2) as (r2 & Er2 & Hr2).
  exists r, r1, r2. do 3 (split; [assumption|]). rewrite Hr, Hr1, Hr2. exact Q.
Qed.
Print Assumptions C114_residual.

(** Whatever the rest of a network is: its equations imply those of a part with which the rest is not connected, also up to a tolerance. *)
Theorem C114_part : forall N N' pn pe t0 t1 last last' x y c c',
  well_formed N -> occurs N N' pn pe -> unconnected N N' pn pe ->
  state_part N N' pn pe last last' -> state_part N N' pn pe x y -> control_part N N' pe c c' ->
  (network_equations N' t0 t1 last' y c' -> network_equations N t0 t1 last x c) /\
  (forall eps, network_equations_within N' eps t0 t1 last' y c' -> network_equations_within N eps t0 t1 last x c).
Proof.
  intros. split; [eapply network_part; eassumption|]. intro eps. eapply network_part_within; eassumption.
Qed.
Print Assumptions C114_part.

(** In a simulation of the whole network, each step restricted to the part is a step of the part up to the tolerance. *)
Theorem C114_simulation : forall LU factor (linsolve : LU -> vec -> vec) fuel sfuel cfg controls points initial (rows : list vec) (e' : unit) N N' pn pe,
  well_formed N -> occurs N N' pn pe -> unconnected N N' pn pe ->
  well_formed N' -> pipes_ok N' -> (forall t, In t points -> boundary_defined N' t) ->
  (0 <= maximal_iterations (newton cfg))%Z -> tolerance (newton cfg) < 1000000 ->
  simulate (network_problem unit LU (number_of_states N') (fun _ => N') (fun e _ _ _ _ => Ok e) factor linsolve) fuel sfuel cfg controls points initial tt
    = (Some (Ok rows), e') ->
  forall i t0 t1 u v, nth_error points i = Some t0 -> nth_error points (S i) = Some t1 -> nth_error rows i = Some u -> nth_error rows (S i) = Some v ->
    exists c', (iinner controls = 0%nat /\ c' = [] \/ (0 < iinner controls)%nat /\ interp_at controls t1 = Ok c') /\
      forall last x c, state_part N N' pn pe last u -> state_part N N' pn pe x v -> control_part N N' pe c (control_vector c') ->
        network_equations_within N (tolerance (newton cfg)) t0 t1 last x c.
Proof.
  intros LU factor linsolve fuel sfuel cfg controls points initial rows e' N N' pn pe W O Un W' HP HB Hm Ht H i t0 t1 u v P0 P1 R0 R1.
  destruct (C90_simulation unit LU (number_of_states N') (fun _ => N') (fun e _ _ _ _ => Ok e) factor linsolve fuel sfuel cfg controls points initial tt rows e'
    (fun _ => conj W' (conj HP eq_refl)) (fun _ => HB) Hm Ht H) as (_ & _ & K).
  destruct (K i t0 t1 u v P0 P1 R0 R1) as (c' & _ & _ & Hc & _ & Q). exists c'. split; [exact Hc|].
  intros last x c L X C. apply (network_part_within N N' pn pe W O Un (tolerance (newton cfg)) t0 t1 last u x v c (control_vector c') L X C Q).
Qed.
Print Assumptions C114_simulation.

(** A compressor with its two nodes and a power line with its two nodes in one network, with the nodes and edges mixed. *)
Definition gas_net : network :=
  mkNet [Pressurenode (fun _ => Ok (v2 50 0)); Flownode true (fun _ => Ok (v2 10 0))] [mkEdge 0 1 (ECompressor 0)].
Definition power_net : network :=
  mkNet [Powernode Vphi false 1 (-1) (fun _ => Ok (v2 1 0)); Powernode PQ false 1 (-1) (fun _ => Ok (v2 0 0))] [mkEdge 0 1 (ELine (-1) 1)].
Definition both : network :=
  mkNet [Pressurenode (fun _ => Ok (v2 50 0)); Powernode Vphi false 1 (-1) (fun _ => Ok (v2 1 0));
         Flownode true (fun _ => Ok (v2 10 0)); Powernode PQ false 1 (-1) (fun _ => Ok (v2 0 0))]
        [mkEdge 1 3 (ELine (-1) 1); mkEdge 0 2 (ECompressor 0)].
Definition gas_state (u : R) : vec := fun k => nth k [50; 10; 50 + u; 10] 0.
Definition power_state : vec := fun k => nth k [1; 0; 1; 0] 0.
Definition both_state (u : R) : vec := fun k => nth k [1; 0; 1; 0; 50; 10; 50 + u; 10] 0.
Lemma gas_well_formed : well_formed gas_net.
Proof. unfold well_formed; cbn [gas_net edges]; repeat constructor; cbn; auto; discriminate. Qed.
Lemma power_well_formed : well_formed power_net.
Proof. unfold well_formed; cbn [power_net edges]; repeat constructor; cbn; auto; discriminate. Qed.
Lemma both_well_formed : well_formed both.
Proof. unfold well_formed; cbn [both edges]; repeat constructor; cbn; auto; discriminate. Qed.
Lemma both_pipes : pipes_ok both.
Proof. unfold pipes_ok; cbn [both edges]; repeat constructor; cbn; auto. Qed.
Lemma both_boundary t : boundary_defined both t.
Proof. intros [|[|[|[|j]]]]; cbn; eauto; destruct j; exact Logic.I. Qed.
Lemma both_consists : consists both gas_net power_net (fun j => 2 * j)%nat (fun i => i + 1)%nat (fun j => 2 * j + 1)%nat (fun i => i).
Proof.
  split; [|split; [|split; [|split; [|split]]]].
  - split; [intros k l; lia|]. split; [intros k l; lia|]. split.
    + intros [|[|j]] t H; cbn in H; [injection H as <-; reflexivity..|destruct j; discriminate].
    + intros [|i] e H; cbn in H; [injection H as <-; reflexivity|destruct i; discriminate].
  - split; [intros k l; lia|]. split; [intros k l; lia|]. split.
    + intros [|[|j]] t H; cbn in H; [injection H as <-; reflexivity..|destruct j; discriminate].
    + intros [|i] e H; cbn in H; [injection H as <-; reflexivity|destruct i; discriminate].
  - intros; lia.
  - cbn; intros; lia.
  - cbn. intros [|[|[|[|j]]]] H; [left; exists 0%nat|right; exists 0%nat|left; exists 1%nat|right; exists 1%nat|]; lia.
  - cbn. intros [|[|i]] H; [right; exists 0%nat|left; exists 0%nat|]; lia.
Qed.
Lemma both_gas u : state_part gas_net both (fun j => 2 * j)%nat (fun i => i + 1)%nat (gas_state u) (both_state u).
Proof.
  split.
  - intros [|[|j]] k Hj Hk; cbn in Hj; [destruct Hj..|destruct j; destruct Hj].
  - intros [|i] e k H Hk; cbn in H; [injection H as <-|destruct i; discriminate]. cbn in Hk. destruct k as [|[|[|[|k]]]]; [reflexivity..|lia].
Qed.
Lemma both_power u : state_part power_net both (fun j => 2 * j + 1)%nat (fun i => i) power_state (both_state u).
Proof.
  split.
  - intros [|[|j]] k Hj Hk; cbn in Hj; [..|destruct j; destruct Hj]; (destruct k as [|[|k]]; [reflexivity..|lia]).
  - intros [|i] e k H Hk; cbn in H; [injection H as <-|destruct i; discriminate]. cbn in Hk. lia.
Qed.
Lemma both_equations t t' c : network_equations both t t' (both_state (c 0%nat)) (both_state (c 0%nat)) c.
Proof.
  apply (network_parts both gas_net power_net _ _ _ _ gas_well_formed power_well_formed both_consists t t' (gas_state (c 0%nat)) power_state (both_state (c 0%nat))
    (gas_state (c 0%nat)) power_state (both_state (c 0%nat)) c c c (both_gas _) (both_gas _)); [|apply both_power|apply both_power| |].
  - intros [|i] e H _; cbn in H; [reflexivity|destruct i; discriminate].
  - intros [|i] e H Q; cbn in H; [injection H as <-; discriminate|destruct i; discriminate].
  - split; split.
    + intros [|[|j]] nt H; cbn in H; [injection H as <-..|destruct j; discriminate]; cbn [node_equation]; intros _; eexists; (split; [reflexivity|]).
      * intros [|i] e d He Hc T; cbn in He; [injection He as <-|destruct i; discriminate]. destruct d; cbn in T; [|discriminate]. reflexivity.
      * split; [exists (50 + c 0%nat)|cbn; lra].
        intros [|i] e d He Hc T; cbn in He; [injection He as <-|destruct i; discriminate]. destruct d; cbn in T; [discriminate|]. reflexivity.
    + intros [|i] e H; cbn in H; [injection H as <-|destruct i; discriminate]. unfold edge_equation. cbn. split; lra.
    + intros [|[|j]] nt H; cbn in H; [injection H as <-..|destruct j; discriminate]; cbn [node_equation]; eexists; (split; [reflexivity|]).
      * cbn. split; reflexivity.
      * unfold power, current, voltage. cbn. unfold power_state. cbn. rewrite cos_0, sin_0. unfold Cmult, Cplus, Cconj, RtoC. cbn. f_equal; ring.
    + intros [|i] e H; cbn in H; [injection H as <-|destruct i; discriminate]. exact Logic.I.
Qed.
Example C114_case : well_formed gas_net /\ well_formed power_net /\ well_formed both /\ pipes_ok both /\ boundary_defined both 7 /\
  consists both gas_net power_net (fun j => 2 * j)%nat (fun i => i + 1)%nat (fun j => 2 * j + 1)%nat (fun i => i) /\
  state_part gas_net both (fun j => 2 * j)%nat (fun i => i + 1)%nat (gas_state 4) (both_state 4) /\
  state_part power_net both (fun j => 2 * j + 1)%nat (fun i => i) power_state (both_state 4) /\
  control_part gas_net both (fun i => i + 1)%nat (fun _ => 4) (fun _ => 4) /\
  unconnected gas_net both (fun j => 2 * j)%nat (fun i => i + 1)%nat /\
  network_equations both 0 1 (both_state 4) (both_state 4) (fun _ => 4).
Proof.
  split; [exact gas_well_formed|]. split; [exact power_well_formed|]. split; [exact both_well_formed|]. split; [exact both_pipes|].
  split; [apply both_boundary|]. split; [exact both_consists|]. split; [apply both_gas|]. split; [apply both_power|].
  split; [intros i e _ _; reflexivity|]. split; [exact (apart1 both gas_net power_net _ _ _ _ power_well_formed both_consists)|].
  exact (both_equations 0 1 (fun _ => 4)).
Qed.
Example C114_simulation_case :
  simulate (network_problem unit unit 8 (fun _ => both) (fun e _ _ _ _ => Ok e) (fun _ _ _ _ _ _ => None) (fun _ b => b))
    1 1 sim_settings none [0; 1; 2] (both_state 0) tt = (Some (Ok [both_state 0; both_state 0; both_state 0]), tt) /\ number_of_states both = 8%nat.
Proof.
  split; [|reflexivity]. unfold simulate. change (current_controls none 1) with (Ok (@nil R)). cbv iota.
  rewrite steady_loop; [reflexivity|reflexivity| |reflexivity|exact both_well_formed|exact both_pipes| |].
  - cbn. lra.
  - intros. apply both_boundary.
  - intros t t' _. exact (both_equations t t' (control_vector [])).
Qed.
