(** * C101: the Newton solver converges *)
From Coq Require Import Reals ZArith List Arith Bool Lra Lia FunctionalExtensionality.
From Coquelicot Require Import Coquelicot.
From Verif Require Import Base Interp_Model Interp_Proofs Calc Newton_Model Evolve_Model Net_Model Net_Spec Net_Props Sim_Model Sim_Spec Sim_Proofs3 Sim_Props
  Converge_Spec Converge_Proofs Converge_Proofs2 Converge_Proofs3 Converge_Proofs4 Converge_Proofs5.
Import ListNotations.
Local Open Scope R_scope.

(** Full Newton steps: the iteration needs no damping and converges quadratically. *)
Theorem C101_quadratic : forall LU n F J (factor : vec -> option LU) linsolve x0 radius L beta lu fuel cfg k,
  let eta := length_of n (linsolve lu (F x0)) in
  smooth_in_ball n F J x0 radius L -> 0 <= L -> 0 <= beta ->
  (forall x, distance n x x0 <= radius -> exists lu, factor x = Some lu /\ solves n (J x) beta (linsolve lu)) ->
  factor x0 = Some lu -> beta * L * eta <= 1 -> 2 * eta <= radius ->
  (Z.of_nat (S k) <= maximal_iterations cfg)%Z -> L / 2 * (eta * (beta * L * eta / 2) ^ (2 ^ k - 1)) ^ 2 <= tolerance cfg ->
  exists x sol, solve (vector_system n F factor linsolve) fuel cfg true x0 = Some (Ok (x, sol)) /\ success sol = true /\
    length_of n (F x) <= tolerance cfg /\ (used_iterations sol <= Z.of_nat (S k))%Z /\ distance n x x0 <= 2 * eta.
Proof. intros LU n F J factor linsolve x0 radius L beta lu fuel cfg k eta H L0 B0 Hf E S Rm Hm Hk. eapply full_newton; eassumption. Qed.
Print Assumptions C101_quadratic.

(** Steps with the matrix of the start converge linearly. *)
Theorem C101_simplified : forall LU n F J (factor : vec -> option LU) linsolve x0 radius L beta lu fuel cfg k,
  let eta := length_of n (linsolve lu (F x0)) in
  smooth_in_ball n F J x0 radius L -> 0 <= L -> 0 <= beta ->
  factor x0 = Some lu -> solves n (J x0) beta (linsolve lu) -> beta * L * eta <= 1 / 4 -> 2 * eta <= radius ->
  (Z.of_nat (S k) <= maximal_iterations cfg)%Z -> 2 * L * eta * (eta / 2 ^ k) <= tolerance cfg ->
  exists x sol, solve (vector_system n F factor linsolve) fuel cfg false x0 = Some (Ok (x, sol)) /\ success sol = true /\
    length_of n (F x) <= tolerance cfg /\ (used_iterations sol <= Z.of_nat (S k))%Z /\ distance n x x0 <= 2 * eta.
Proof. intros LU n F J factor linsolve x0 radius L beta lu fuel cfg k eta H L0 B0 E S Sm Rm Hm Hk. eapply simplified_newton; eassumption. Qed.
Print Assumptions C101_simplified.

(** The square root of two from 3/2. *)
Definition root_F : vec -> vec := fun x k => match k with O => x 0%nat ^ 2 - 2 | _ => 0 end.
Definition root_J : vec -> mat := fun x _ _ => 2 * x 0%nat.
Definition root_solve : R -> vec -> vec := fun a r k => match k with O => r 0%nat / a | _ => 0 end.
Definition root_start : vec := fun _ => 3 / 2.
Lemma length_one v : length_of 1 v = Rabs (v 0%nat).
Proof. unfold length_of. cbn [vsum]. rewrite Rplus_0_l, <- (sqrt_Rsqr_abs (v 0%nat)). f_equal. unfold Rsqr. ring. Qed.
Example C101_case :
  let factor := fun x => Some (2 * x 0%nat) in
  let eta := length_of 1 (root_solve 3 (root_F root_start)) in
  smooth_in_ball 1 root_F root_J root_start (1 / 6) 2 /\
  (forall x, distance 1 x root_start <= 1 / 6 -> exists lu, factor x = Some lu /\ solves 1 (root_J x) (3 / 8) (root_solve lu)) /\
  factor root_start = Some 3 /\ eta = 1 / 12 /\ 3 / 8 * 2 * eta <= 1 / 4 /\ 2 * eta <= 1 / 6 /\
  2 / 2 * (eta * (3 / 8 * 2 * eta / 2) ^ (2 ^ 2 - 1)) ^ 2 <= / 10 ^ 11.
Proof.
  cbv zeta. assert (Ball : forall x, distance 1 x root_start <= 1 / 6 -> 4 / 3 <= x 0%nat).
  { intros x H. unfold distance in H. rewrite length_one in H. unfold root_start in H. apply Rabs_le_between in H. lra. }
  assert (E : length_of 1 (root_solve 3 (root_F root_start)) = 1 / 12).
  { rewrite length_one. unfold root_solve, root_F, root_start. rewrite Rabs_pos_eq; lra. }
  split; [split|split; [|split; [|split; [exact E|rewrite E; split; [lra|split; [lra|]]]]]].
  - intros x _ h i S I. assert (i = 0)%nat by lia. subst i. unfold root_F, times, root_J. cbn [vsum]. auto_derive; [exact Logic.I|ring].
  - intros x y v _ _. unfold distance. rewrite !length_one. unfold times, root_J. cbn [vsum].
    replace (0 + 2 * x 0%nat * v 0%nat - (0 + 2 * y 0%nat * v 0%nat)) with (2 * ((x 0%nat - y 0%nat) * v 0%nat)) by ring.
    rewrite !Rabs_mult, (Rabs_pos_eq 2) by lra. lra.
  - intros x H. apply Ball in H. eexists. split; [reflexivity|]. intro r. split; [|split].
    + intros k K. unfold root_solve. destruct k; [lia|reflexivity].
    + intros i I. assert (i = 0)%nat by lia. subst i. unfold times, root_J, root_solve. cbn [vsum]. field. lra.
    + rewrite !length_one. unfold root_solve. unfold Rdiv. rewrite Rabs_mult, Rmult_comm. apply Rmult_le_compat_r; [apply Rabs_pos|].
      rewrite Rabs_pos_eq by (left; apply Rinv_0_lt_compat; lra). replace (3 * / 8) with (/ (8 / 3)) by field. apply Rinv_le_contravar; lra.
  - unfold root_start. f_equal. lra.
  - cbn. lra.
Qed.

(** A matrix that is not the derivative: linear convergence, with either kind of steps, if it
    is close enough to it. *)
Theorem C101_inexact : forall LU n F D M (factor : vec -> option LU) linsolve x0 radius L beta delta lu fuel cfg full k,
  let eta := length_of n (linsolve lu (F x0)) in
  smooth_in_ball n F D x0 radius L -> 0 <= L -> 0 <= beta -> 0 <= delta ->
  (forall x v, distance n x x0 <= radius -> distance n (times n (D x) v) (times n (M x) v) <= delta * length_of n v) ->
  (forall x, distance n x x0 <= radius -> exists lu, factor x = Some lu /\ solves n (M x) beta (linsolve lu)) ->
  factor x0 = Some lu -> beta * (delta + 2 * L * eta) <= 1 / 2 -> 2 * eta <= radius ->
  (Z.of_nat (S k) <= maximal_iterations cfg)%Z -> (delta + 2 * L * eta) * (eta / 2 ^ k) <= tolerance cfg ->
  exists x sol, solve (vector_system n F factor linsolve) fuel cfg full x0 = Some (Ok (x, sol)) /\ success sol = true /\
    length_of n (F x) <= tolerance cfg /\ (used_iterations sol <= Z.of_nat (S k))%Z /\ distance n x x0 <= 2 * eta.
Proof. intros LU n F D M factor linsolve x0 radius L beta delta lu fuel cfg full k eta H L0 B0 D0 Hc Hf E Sm Rm Hm Hk. exact (inexact_newton n F D M factor linsolve x0 radius L beta delta full H Hc L0 B0 D0 lu E Hf Sm Rm fuel cfg k Hm Hk). Qed.
Print Assumptions C101_inexact.

(** The square root of two with the matrix 3 everywhere. *)
Example C101_inexact_case :
  (forall x v, distance 1 x root_start <= 1 / 6 -> distance 1 (times 1 (root_J x) v) (times 1 (fun _ _ => 3) v) <= 1 / 3 * length_of 1 v) /\
  solves 1 (fun _ _ => 3) (1 / 3) (root_solve 3) /\
  1 / 3 * (1 / 3 + 2 * 2 * length_of 1 (root_solve 3 (root_F root_start))) <= 1 / 2 /\ 2 * length_of 1 (root_solve 3 (root_F root_start)) <= 1 / 6.
Proof.
  assert (E : length_of 1 (root_solve 3 (root_F root_start)) = 1 / 12).
  { rewrite length_one. unfold root_solve, root_F, root_start. rewrite Rabs_pos_eq; lra. }
  rewrite E. split; [|split; [|lra]].
  - intros x v H. unfold distance in *. rewrite !length_one in *. unfold times, root_J, root_start in *. cbn [vsum].
    replace (0 + 2 * x 0%nat * v 0%nat - (0 + 3 * v 0%nat)) with (2 * (x 0%nat - 3 / 2) * v 0%nat) by field.
    rewrite !Rabs_mult, (Rabs_pos_eq 2) by lra. pose proof (Rabs_pos (v 0%nat)). nra.
  - intro r. split; [|split].
    + intros k K. unfold root_solve. destruct k; [lia|reflexivity].
    + intros i I. assert (i = 0)%nat by lia. subst i. unfold times, root_solve. cbn [vsum]. field.
    + rewrite !length_one. unfold root_solve, Rdiv. rewrite Rabs_mult, (Rabs_pos_eq (/ 3)) by lra. lra.
Qed.

(** A time step of a network, with either kind of steps: the result solves the equations. *)
Theorem C101_network : forall E LU n net prepare (factor : E -> R -> R -> vec -> list R -> vec -> option LU) linsolve e t0 t1 last c x0 radius L beta lu fuel cfg full k,
  let N := net e in
  let F := step_residuals N t0 t1 last (control_vector c) in
  let J := step_matrix N t0 t1 last (control_vector c) in
  let eta := length_of n (linsolve lu (F x0)) in
  well_formed N -> pipes_ok N -> boundary_defined N t1 -> number_of_states N = n ->
  (forall x, distance n x x0 <= radius -> regular_state N x) -> 0 <= L -> 0 <= beta ->
  (forall x y v, distance n x x0 <= radius -> distance n y x0 <= radius ->
     distance n (times n (J x) v) (times n (J y) v) <= L * distance n x y * length_of n v) ->
  (forall x, distance n x x0 <= radius -> exists lu, factor e t0 t1 last c x = Some lu /\ solves n (J x) beta (linsolve lu)) ->
  factor e t0 t1 last c x0 = Some lu -> beta * L * eta <= 1 / 4 -> 2 * eta <= radius ->
  (Z.of_nat (S k) <= maximal_iterations cfg)%Z -> 2 * L * eta * (eta / 2 ^ k) <= tolerance cfg ->
  exists x sol, solve (system_of (network_problem E LU n net prepare factor linsolve) e t0 t1 last c) fuel cfg full x0 = Some (Ok (x, sol)) /\
    success sol = true /\ network_equations_within N (tolerance cfg) t0 t1 last x (control_vector c) /\
    distance n x x0 <= 2 * eta.
Proof.
  intros E LU n net prepare factor linsolve e t0 t1 last c x0 radius L beta lu fuel cfg full k N F J eta W P B Hn Rg L0 B0 Lip Hf E0 Sm Rm Hm Hk.
  assert (Smo : smooth_in_ball n F J x0 radius L).
  { split; [|exact Lip]. intros x Hx. subst n. apply network_derivative; auto. }
  pose proof (length_pos n (linsolve lu (F x0))) as P0. fold eta in P0.
  assert (Eq : forall x, length_of n (F x) <= tolerance cfg -> network_equations_within N (tolerance cfg) t0 t1 last x (control_vector c)).
  { intros x Hx. assert (T0 : 0 <= tolerance cfg) by (pose proof (length_pos n (F x)); lra).
    destruct (C90_residual N (tolerance cfg) t0 t1 last x (control_vector c) (fun _ => 0) W P B T0) as (r & Er & K). apply K.
    rewrite norm_length, Hn. unfold F, step_residuals in Hx. rewrite Er in Hx. exact Hx. }
  assert (K : exists x sol, solve (vector_system n F (factor e t0 t1 last c) linsolve) fuel cfg full x0 = Some (Ok (x, sol)) /\ success sol = true /\
      length_of n (F x) <= tolerance cfg /\ (used_iterations sol <= Z.of_nat (S k))%Z /\ distance n x x0 <= 2 * eta).
  { destruct full.
    - apply (C101_quadratic LU n F J (factor e t0 t1 last c) linsolve x0 radius L beta lu fuel cfg k); auto; fold eta; [lra|].
      eapply Rle_trans; [|exact Hk].
      assert (Q : 0 <= beta * L * eta / 2 <= / 2) by (split; [repeat apply Rmult_le_pos; lra|lra]).
      assert (Pw : (beta * L * eta / 2) ^ (2 ^ k - 1) <= / 2 ^ k).
      { rewrite <- pow_inv. apply Rle_trans with ((/ 2) ^ (2 ^ k - 1)); [apply pow_incr; exact Q|].
        assert (Ge : (k <= 2 ^ k - 1)%nat) by (pose proof (Nat.pow_gt_lin_r 2 k); lia). replace (2 ^ k - 1)%nat with (k + (2 ^ k - 1 - k))%nat by lia.
        rewrite pow_add. rewrite <- (Rmult_1_r ((/ 2) ^ k)) at 2. apply Rmult_le_compat_l; [apply pow_le; lra|].
        rewrite <- (pow1 (2 ^ k - 1 - k)). apply pow_incr. lra. }
      set (p := (beta * L * eta / 2) ^ (2 ^ k - 1)) in *. assert (Z0 : 0 <= p) by (apply pow_le; lra).
      set (h := / 2 ^ k) in *. assert (H1 : 0 < h <= 1). { unfold h. split; [apply Rinv_0_lt_compat, pow_lt; lra|]. rewrite <- Rinv_1. apply Rinv_le_contravar; [lra|]. apply pow_R1_Rle. lra. }
      unfold Rdiv. fold h. replace (L * / 2 * (eta * p) ^ 2) with (L * eta * eta * (/ 2 * p * p)) by ring. replace (2 * L * eta * (eta * h)) with (L * eta * eta * (2 * h)) by ring.
      apply Rmult_le_compat_l; [repeat apply Rmult_le_pos; lra|]. nra.
    - destruct (Hf x0) as (lu' & E1 & Sv). { rewrite distance_refl. lra. } assert (lu' = lu) by congruence. subst lu'.
      apply (C101_simplified LU n F J (factor e t0 t1 last c) linsolve x0 radius L beta lu fuel cfg k); auto. }
  destruct K as (x & sol & Es & Sc & Rs & _ & D). exists x, sol. split; [etransitivity; [apply network_solve|exact Es]|]. split; [exact Sc|]. split; [apply Eq, Rs|exact D].
Qed.
Print Assumptions C101_network.

(** The same when the derivative of the equations is [D], not the matrix of the program (a
    turbulent flow, see C25). *)
Theorem C101_network_inexact : forall E LU n net prepare (factor : E -> R -> R -> vec -> list R -> vec -> option LU) linsolve e t0 t1 last c x0 D radius L beta delta lu fuel cfg full k,
  let N := net e in
  let F := step_residuals N t0 t1 last (control_vector c) in
  let M := step_matrix N t0 t1 last (control_vector c) in
  let eta := length_of n (linsolve lu (F x0)) in
  well_formed N -> pipes_ok N -> boundary_defined N t1 -> number_of_states N = n ->
  smooth_in_ball n F D x0 radius L -> 0 <= L -> 0 <= beta -> 0 <= delta ->
  (forall x v, distance n x x0 <= radius -> distance n (times n (D x) v) (times n (M x) v) <= delta * length_of n v) ->
  (forall x, distance n x x0 <= radius -> exists lu, factor e t0 t1 last c x = Some lu /\ solves n (M x) beta (linsolve lu)) ->
  factor e t0 t1 last c x0 = Some lu -> beta * (delta + 2 * L * eta) <= 1 / 2 -> 2 * eta <= radius ->
  (Z.of_nat (S k) <= maximal_iterations cfg)%Z -> (delta + 2 * L * eta) * (eta / 2 ^ k) <= tolerance cfg ->
  exists x sol, solve (system_of (network_problem E LU n net prepare factor linsolve) e t0 t1 last c) fuel cfg full x0 = Some (Ok (x, sol)) /\
    success sol = true /\ network_equations_within N (tolerance cfg) t0 t1 last x (control_vector c) /\
    distance n x x0 <= 2 * eta.
Proof.
  intros E LU n net prepare factor linsolve e t0 t1 last c x0 D radius L beta delta lu fuel cfg full k N F M eta W P B Hn Smo L0 B0 D0 Hc Hf E0 Sm Rm Hm Hk.
  destruct (C101_inexact LU n F D M (factor e t0 t1 last c) linsolve x0 radius L beta delta lu fuel cfg full k) as (x & sol & Es & Sc & Rs & _ & Ds); auto.
  exists x, sol. split; [etransitivity; [apply network_solve|exact Es]|]. split; [exact Sc|]. split; [|exact Ds].
  assert (T0 : 0 <= tolerance cfg) by (pose proof (length_pos n (F x)); lra).
  destruct (C90_residual N (tolerance cfg) t0 t1 last x (control_vector c) (fun _ => 0) W P B T0) as (r & Er & K). apply K.
  rewrite norm_length, Hn. unfold F, step_residuals in Rs. rewrite Er in Rs. exact Rs.
Qed.
Print Assumptions C101_network_inexact.

(** A power node at 1 with given power 1/1000 and a power line to a node with voltage 1 and angle 0:
    the solver converges from the flat state. *)
Definition line_net : network :=
  mkNet [Powernode PV false 0 0 (constant (/ 1000) 1); Powernode Vphi false 0 0 (constant 1 0)] [mkEdge 0 1 (ELine 0 1)].
Definition flat_state : vec := fun k => nth k [1; 0; 1; 0] 0.
Definition line_solve (x r : vec) : vec := fun k =>
  let s := sin (x 1%nat - x 3%nat) in let d := cos (x 1%nat - x 3%nat) in
  nth k [r 1%nat; (r 0%nat - x 2%nat * s * r 1%nat - x 0%nat * s * r 2%nat + x 0%nat * x 2%nat * d * r 3%nat) / (x 0%nat * x 2%nat * d); r 2%nat; r 3%nat] 0.
Lemma sin_bound a : Rabs (sin a) <= Rabs a.
Proof.
  assert (K : forall b, 0 < b -> Rabs (sin b) <= b).
  { intros b B. destruct (Rle_dec 1 b) as [H|H].
    - destruct (SIN_bound b). apply Rabs_le. lra.
    - pose proof (sin_lt_x b B). assert (0 <= sin b). { apply sin_ge_0; [lra|]. pose proof PI2_1. lra. } rewrite Rabs_pos_eq; lra. }
  destruct (Rtotal_order a 0) as [H|[->|H]].
  - pose proof (K (- a)) as Q. rewrite sin_neg, Rabs_Ropp in Q. rewrite (Rabs_left a) by lra. apply Q. lra.
  - rewrite sin_0. apply Rle_refl.
  - rewrite (Rabs_pos_eq a) by lra. apply K, H.
Qed.
Lemma half_bound a b u : Rabs u <= 1 -> Rabs (2 * u * sin ((a - b) / 2)) <= Rabs (a - b).
Proof.
  intro U. rewrite !Rabs_mult, (Rabs_pos_eq 2) by lra. pose proof (sin_bound ((a - b) / 2)) as S. unfold Rdiv in *. rewrite (Rabs_mult (a - b)) in S.
  rewrite (Rabs_pos_eq (/ 2)) in S by lra. pose proof (Rabs_pos (sin ((a - b) * / 2))). pose proof (Rabs_pos u). nra.
Qed.
Lemma sin_lipschitz a b : Rabs (sin a - sin b) <= Rabs (a - b).
Proof. rewrite form4. apply half_bound. destruct (COS_bound ((a + b) / 2)). apply Rabs_le. lra. Qed.
Lemma cos_lipschitz a b : Rabs (cos a - cos b) <= Rabs (a - b).
Proof.
  rewrite form2. replace (-2 * sin ((a - b) / 2) * sin ((a + b) / 2)) with (- (2 * sin ((a + b) / 2) * sin ((a - b) / 2))) by ring. rewrite Rabs_Ropp.
  apply half_bound. destruct (SIN_bound ((a + b) / 2)). apply Rabs_le. lra.
Qed.
Lemma cos_near a : Rabs a <= 1 / 5 -> 98 / 100 <= cos a.
Proof.
  intro H. pose proof (cos_2a_sin (a / 2)) as K. replace (2 * (a / 2)) with a in K by field. rewrite K.
  pose proof (sin_bound (a / 2)) as S. unfold Rdiv in S at 2. rewrite Rabs_mult, (Rabs_pos_eq (/ 2)) in S by lra.
  apply Rabs_le_between in S. nra.
Qed.
Lemma length_four v : length_of 4 v = sqrt (v 0%nat ^ 2 + v 1%nat ^ 2 + v 2%nat ^ 2 + v 3%nat ^ 2).
Proof. unfold length_of. cbn [vsum]. f_equal. ring. Qed.
Lemma entry_length v k : (k < 4)%nat -> Rabs (v k) <= length_of 4 v.
Proof.
  intro K. rewrite length_four, <- sqrt_Rsqr_abs. apply sqrt_le_1_alt. unfold Rsqr.
  pose proof (pow2_ge_0 (v 0%nat)). pose proof (pow2_ge_0 (v 1%nat)). pose proof (pow2_ge_0 (v 2%nat)). pose proof (pow2_ge_0 (v 3%nat)).
  do 4 (destruct k as [|k]; [nra|]). lia.
Qed.
Lemma line_residuals t0 t1 last c x :
  step_residuals line_net t0 t1 last c x 0%nat = x 0%nat * x 2%nat * sin (x 1%nat - x 3%nat) - / 1000 /\
  step_residuals line_net t0 t1 last c x 1%nat = x 0%nat - 1 /\
  step_residuals line_net t0 t1 last c x 2%nat = x 2%nat - 1 /\ step_residuals line_net t0 t1 last c x 3%nat = x 3%nat.
Proof. unfold step_residuals. cbn. repeat split; ring. Qed.
Lemma line_matrix t0 t1 last c x v :
  let s := sin (x 1%nat - x 3%nat) in let d := cos (x 1%nat - x 3%nat) in
  let J := times 4 (step_matrix line_net t0 t1 last c x) v in
  J 0%nat = x 2%nat * s * v 0%nat + x 0%nat * x 2%nat * d * v 1%nat + x 0%nat * s * v 2%nat - x 0%nat * x 2%nat * d * v 3%nat /\
  J 1%nat = v 0%nat /\ J 2%nat = v 2%nat /\ J 3%nat = v 3%nat.
Proof.
  unfold step_matrix, times. match goal with |- context [d_evaluate_d_new_state ?a ?b ?c ?d ?e ?f] => let v := eval cbn in (d_evaluate_d_new_state a b c d e f) in change (d_evaluate_d_new_state a b c d e f) with v end.
  cbn. repeat split; ring.
Qed.
Lemma near_flat x : distance 4 x flat_state <= 1 / 10 ->
  9 / 10 <= x 0%nat <= 11 / 10 /\ 9 / 10 <= x 2%nat <= 11 / 10 /\ Rabs (x 1%nat - x 3%nat) <= 1 / 5.
Proof.
  intro H. unfold distance in H.
  assert (K : forall k, (k < 4)%nat -> Rabs (x k - flat_state k) <= 1 / 10) by (intros k Hk; eapply Rle_trans; [apply (entry_length (fun k => x k - flat_state k)), Hk|exact H]).
  pose proof (K 0%nat ltac:(lia)) as K0. pose proof (K 1%nat ltac:(lia)) as K1. pose proof (K 2%nat ltac:(lia)) as K2. pose proof (K 3%nat ltac:(lia)) as K3.
  unfold flat_state in *. cbn in K0, K1, K2, K3. apply Rabs_le_between in K0, K1, K2, K3. repeat split; try lra. apply Rabs_le. lra.
Qed.
Lemma product_difference a b a' b' A B D E : Rabs a <= A -> Rabs b' <= B -> Rabs (a - a') <= D -> Rabs (b - b') <= E -> Rabs (a * b - a' * b') <= A * E + B * D.
Proof.
  intros HA HB HD HE. replace (a * b - a' * b') with (a * (b - b') + b' * (a - a')) by ring.
  eapply Rle_trans; [apply Rabs_triang|]. rewrite !Rabs_mult.
  apply Rplus_le_compat; apply Rmult_le_compat; auto; apply Rabs_pos.
Qed.
Example C101_network_case :
  let factor := fun (_ : unit) (_ _ : R) (_ : vec) (_ : list R) (x : vec) => Some x in
  well_formed line_net /\ number_of_states line_net = 4%nat /\
  (forall t0 t1 last c x y v, distance 4 x flat_state <= 1 / 10 -> distance 4 y flat_state <= 1 / 10 ->
     distance 4 (times 4 (step_matrix line_net t0 t1 last c x) v) (times 4 (step_matrix line_net t0 t1 last c y) v) <= 10 * distance 4 x y * length_of 4 v) /\
  (forall t0 t1 last c x, distance 4 x flat_state <= 1 / 10 -> solves 4 (step_matrix line_net t0 t1 last c x) 3 (line_solve x)) /\
  forall t0 t1 last c fuel full, exists x sol,
    solve (system_of (network_problem unit vec 4 (fun _ => line_net) (fun e _ _ _ _ => Ok e) factor line_solve) tt t0 t1 last c) fuel
      {| tolerance := / 10 ^ 6; maximal_iterations := 6 |} full flat_state = Some (Ok (x, sol)) /\ success sol = true /\
    network_equations_within line_net (/ 10 ^ 6) t0 t1 last x (control_vector c).
Proof.
  cbv zeta.
  assert (W : well_formed line_net) by (unfold well_formed; cbn [edges line_net]; repeat constructor; cbn; eauto 10).
  assert (Lip : forall t0 t1 last c x y v, distance 4 x flat_state <= 1 / 10 -> distance 4 y flat_state <= 1 / 10 ->
     distance 4 (times 4 (step_matrix line_net t0 t1 last c x) v) (times 4 (step_matrix line_net t0 t1 last c y) v) <= 10 * distance 4 x y * length_of 4 v).
  { intros t0 t1 last c x y v Hx Hy. apply near_flat in Hx, Hy. destruct Hx as (X0 & X2 & Xd). destruct Hy as (Y0 & Y2 & Yd).
    destruct (line_matrix t0 t1 last c x v) as (A0 & A1 & A2 & A3). destruct (line_matrix t0 t1 last c y v) as (B0 & B1 & B2 & B3).
    unfold distance at 1. rewrite length_four, A0, A1, A2, A3, B0, B1, B2, B3. clear A0 A1 A2 A3 B0 B1 B2 B3.
    assert (Dk : forall k, (k < 4)%nat -> Rabs (x k - y k) <= distance 4 x y) by (intros k K; apply (entry_length (fun k => x k - y k)), K).
    assert (D0 : 0 <= distance 4 x y) by apply length_pos. set (D := distance 4 x y) in *. clearbody D.
    pose proof (Dk 0%nat ltac:(lia)) as K0. pose proof (Dk 1%nat ltac:(lia)) as K1. pose proof (Dk 2%nat ltac:(lia)) as K2. pose proof (Dk 3%nat ltac:(lia)) as K3. clear Dk.
    assert (An : Rabs ((x 1%nat - x 3%nat) - (y 1%nat - y 3%nat)) <= 2 * D).
    { replace ((x 1%nat - x 3%nat) - (y 1%nat - y 3%nat)) with ((x 1%nat - y 1%nat) - (x 3%nat - y 3%nat)) by ring. unfold Rminus at 1. eapply Rle_trans; [apply Rabs_triang|]. rewrite Rabs_Ropp. lra. }
    pose proof (Rle_trans _ _ _ (sin_lipschitz _ _) An) as Sn. pose proof (Rle_trans _ _ _ (cos_lipschitz _ _) An) as Cn.
    pose proof (SIN_bound (y 1%nat - y 3%nat)) as SB. pose proof (COS_bound (y 1%nat - y 3%nat)) as CB.
    set (s := sin (x 1%nat - x 3%nat)) in *. set (d := cos (x 1%nat - x 3%nat)) in *. set (s' := sin (y 1%nat - y 3%nat)) in *. set (d' := cos (y 1%nat - y 3%nat)) in *. clearbody s d s' d'.
    assert (U0 : Rabs (x 2%nat * s - y 2%nat * s') <= 5 * D).
    { eapply Rle_trans; [apply (product_difference _ _ _ _ (11 / 10) 1 D (2 * D)); auto; apply Rabs_le; lra|lra]. }
    assert (U2 : Rabs (x 0%nat * s - y 0%nat * s') <= 5 * D).
    { eapply Rle_trans; [apply (product_difference _ _ _ _ (11 / 10) 1 D (2 * D)); auto; apply Rabs_le; lra|lra]. }
    assert (Pr : Rabs (x 0%nat * x 2%nat - y 0%nat * y 2%nat) <= 11 / 10 * D + 11 / 10 * D).
    { apply product_difference; auto; apply Rabs_le; lra. }
    assert (U1 : Rabs (x 0%nat * x 2%nat * d - y 0%nat * y 2%nat * d') <= 5 * D).
    { eapply Rle_trans; [apply (product_difference _ _ _ _ (121 / 100) 1 (11 / 10 * D + 11 / 10 * D) (2 * D)); auto; apply Rabs_le; try lra; nra|lra]. }
    rewrite length_four. set (v0 := v 0%nat). set (v1 := v 1%nat). set (v2 := v 2%nat). set (v3 := v 3%nat).
    set (u0 := x 2%nat * s - y 2%nat * s') in *. set (u1 := x 0%nat * x 2%nat * d - y 0%nat * y 2%nat * d') in *. set (u2 := x 0%nat * s - y 0%nat * s') in *.
    match goal with |- sqrt ?a <= _ => replace a with ((u0 * v0 + u1 * v1 + u2 * v2 - u1 * v3) ^ 2) by (unfold u0, u1, u2; ring) end.
    assert (P10 : 0 <= 10 * D) by lra. rewrite <- (sqrt_pow2 (10 * D) P10), <- sqrt_mult_alt by nra. apply sqrt_le_1_alt.
    assert (CS : (u0 * v0 + u1 * v1 + u2 * v2 - u1 * v3) ^ 2 <= (u0 ^ 2 + u1 ^ 2 + u2 ^ 2 + u1 ^ 2) * (v0 ^ 2 + v1 ^ 2 + v2 ^ 2 + v3 ^ 2)).
    { pose proof (pow2_ge_0 (u0 * v1 - u1 * v0)). pose proof (pow2_ge_0 (u0 * v2 - u2 * v0)). pose proof (pow2_ge_0 (u0 * v3 + u1 * v0)).
      pose proof (pow2_ge_0 (u1 * v2 - u2 * v1)). pose proof (pow2_ge_0 (u1 * v3 + u1 * v1)). pose proof (pow2_ge_0 (u2 * v3 + u1 * v2)). nra. }
    assert (Sq : forall u, Rabs u <= 5 * D -> u ^ 2 <= 25 * D ^ 2). { intros u Hu. apply Rabs_le_between in Hu. nra. }
    pose proof (Sq _ U0). pose proof (Sq _ U1). pose proof (Sq _ U2).
    eapply Rle_trans; [exact CS|]. apply Rmult_le_compat_r; [pose proof (pow2_ge_0 v0); pose proof (pow2_ge_0 v1); pose proof (pow2_ge_0 v2); pose proof (pow2_ge_0 v3); lra|lra]. }
  assert (Sv : forall t0 t1 last c x, distance 4 x flat_state <= 1 / 10 -> solves 4 (step_matrix line_net t0 t1 last c x) 3 (line_solve x)).
  { intros t0 t1 last c x Hx. apply near_flat in Hx. destruct Hx as (X0 & X2 & Xd).
    pose proof (cos_near _ Xd) as Cn. pose proof (sin_bound (x 1%nat - x 3%nat)) as Sn. destruct (COS_bound (x 1%nat - x 3%nat)) as [_ C1].
    assert (Ad : 79 / 100 <= x 0%nat * x 2%nat * cos (x 1%nat - x 3%nat)) by (assert (81 / 100 <= x 0%nat * x 2%nat) by nra; nra).
    assert (Au : x 0%nat * x 2%nat * cos (x 1%nat - x 3%nat) <= 121 / 100) by (assert (0 <= x 0%nat * x 2%nat <= 121 / 100) by nra; nra).
    intro r. split; [|split].
    - intros k K. unfold line_solve. apply nth_overflow. cbn. lia.
    - intros i I. destruct (line_matrix t0 t1 last c x (line_solve x r)) as (A0 & A1 & A2 & A3).
      destruct i as [|[|[|[|i]]]]; [rewrite A0|rewrite A1|rewrite A2|rewrite A3|lia]; unfold line_solve; cbn; [field; lra|reflexivity..].
    - rewrite !length_four. unfold line_solve. cbn [nth]. set (r0 := r 0%nat). set (r1 := r 1%nat). set (r2 := r 2%nat). set (r3 := r 3%nat).
      assert (S5 : Rabs (sin (x 1%nat - x 3%nat)) <= 1 / 5) by lra. clear Sn.
      set (s := sin (x 1%nat - x 3%nat)) in *. set (a := x 0%nat * x 2%nat * cos (x 1%nat - x 3%nat)) in *.
      assert (B2 : - (22 / 100) <= x 2%nat * s <= 22 / 100) by (apply Rabs_le_between in S5; nra).
      assert (B0 : - (22 / 100) <= x 0%nat * s <= 22 / 100) by (apply Rabs_le_between in S5; nra).
      set (m := x 2%nat * s) in *. set (p := x 0%nat * s) in *. clearbody a m p. clear - Ad Au B2 B0.
      replace 3 with (sqrt (3 ^ 2)) by (apply sqrt_pow2; lra). rewrite <- sqrt_mult_alt by lra. apply sqrt_le_1_alt.
      set (w := (r0 - m * r1 - p * r2 + a * r3) / a). assert (Hw : a * w = r0 - m * r1 - p * r2 + a * r3) by (unfold w; field; lra). clearbody w.
      set (rr := r0 ^ 2 + r1 ^ 2 + r2 ^ 2 + r3 ^ 2).
      assert (CS : (r0 - m * r1 - p * r2 + a * r3) ^ 2 <= (1 + m ^ 2 + p ^ 2 + a ^ 2) * rr).
      { unfold rr. pose proof (pow2_ge_0 (r1 + m * r0)). pose proof (pow2_ge_0 (r2 + p * r0)). pose proof (pow2_ge_0 (r3 - a * r0)).
        pose proof (pow2_ge_0 (m * r2 - p * r1)). pose proof (pow2_ge_0 (m * r3 + a * r1)). pose proof (pow2_ge_0 (p * r3 + a * r2)). nra. }
      assert (R0 : 0 <= rr) by (unfold rr; pose proof (pow2_ge_0 r0); pose proof (pow2_ge_0 r1); pose proof (pow2_ge_0 r2); pose proof (pow2_ge_0 r3); lra).
      assert (Mm : 1 + m ^ 2 + p ^ 2 + a ^ 2 <= 26 / 10) by nra.
      assert (W1 : a ^ 2 * w ^ 2 <= 26 / 10 * rr). { replace (a ^ 2 * w ^ 2) with ((a * w) ^ 2) by ring. rewrite Hw. nra. }
      assert (A2 : 62 / 100 <= a ^ 2) by nra. assert (W2 : w ^ 2 <= 5 * rr). { pose proof (pow2_ge_0 w). nra. }
      assert (r1 ^ 2 + r2 ^ 2 + r3 ^ 2 <= rr) by (unfold rr; pose proof (pow2_ge_0 r0); lra). lra. }
  split; [exact W|]. split; [reflexivity|]. split; [exact Lip|]. split; [exact Sv|].
  intros t0 t1 last c fuel full.
  assert (Eta : length_of 4 (line_solve flat_state (step_residuals line_net t0 t1 last (control_vector c) flat_state)) = / 1000).
  { rewrite length_four. unfold line_solve. cbn [nth]. destruct (line_residuals t0 t1 last (control_vector c) flat_state) as (-> & -> & -> & ->).
    unfold flat_state. cbn [nth]. rewrite Rminus_0_r, sin_0, cos_0. transitivity (sqrt ((/ 1000) ^ 2)); [f_equal; field|apply sqrt_pow2; lra]. }
  edestruct (C101_network unit vec 4 (fun _ => line_net) (fun e _ _ _ _ => Ok e) (fun _ _ _ _ _ x => Some x) line_solve tt t0 t1 last c flat_state
    (1 / 10) 10 3 flat_state fuel {| tolerance := / 10 ^ 6; maximal_iterations := 6 |} full 5) as (x & sol & Es & Sc & Eq & _);
    try rewrite Eta; cbn [tolerance maximal_iterations];
    try solve [auto | lra | lia | unfold pipes_ok; cbn; repeat constructor | intros [|[|[|j]]]; cbn; eauto
      | intros x _ [|[|i]] e He; cbn in He; try discriminate; injection He as <-; exact Logic.I
      | intros x Hx; exists x; split; [reflexivity|apply Sv, Hx]].
  - intro j. destruct j as [|[|[|j]]]; cbn; try exact Logic.I; eexists; reflexivity.
  - exists x, sol. auto.
Qed.

(** Networks without pipes, gas power connections and power flow equations have linear equations:
    a simulation never fails if the linear systems are solved. *)
Theorem C101_linear : forall LU n N (factor : unit -> R -> R -> vec -> list R -> vec -> option LU) linsolve beta fuel sfuel cfg controls points x,
  linear_network N -> well_formed N -> number_of_states N = n -> (forall t, In t points -> boundary_defined N t) ->
  0 <= beta ->
  (forall t0 t1 last c x, exists lu, factor tt t0 t1 last c x = Some lu /\ solves n (step_matrix N t0 t1 last (control_vector c) x) beta (linsolve lu)) ->
  (1 <= maximal_iterations (newton cfg))%Z -> 0 <= tolerance (newton cfg) -> (1 <= sfuel)%nat ->
  (2 <= List.length points)%nat -> (forall t, In t points -> iinner controls = 0%nat \/ exists c, interp_at controls t = Ok c) ->
  exists rows, simulate (network_problem unit LU n (fun _ => N) (fun e _ _ _ _ => Ok e) factor linsolve) fuel sfuel cfg controls points x tt = (Some (Ok rows), tt).
Proof.
  intros LU n N factor linsolve beta fuel sfuel cfg controls points x Ln W Hn B B0 Hf Hm Ht Hs Hp Hc.
  destruct sfuel as [|sfuel]; [lia|]. apply simulation_succeeds; [exact Hp| |].
  - intros t It. unfold current_controls. destruct (Hc t It) as [Z|[c Ec]]; [rewrite Z; eexists; reflexivity|].
    destruct (Nat.ltb 0 (iinner controls)); eexists; [exact Ec|reflexivity].
  - intros t0 t1 last full c It. destruct (linear_regular N last Ln) as [_ P].
    destruct (Hf t0 t1 last c last) as (lu & Ef & Sv).
    pose proof (linear_smooth N t0 t1 last (control_vector c) last (2 * length_of n (linsolve lu (step_residuals N t0 t1 last (control_vector c) last))) Ln W (B t1 It)) as Smo.
    destruct (C101_network unit LU n (fun _ => N) (fun e _ _ _ _ => Ok e) factor linsolve tt t0 t1 last c last
      (2 * length_of n (linsolve lu (step_residuals N t0 t1 last (control_vector c) last))) 0 beta lu fuel (newton cfg) full 0) as (y & sol & Es & Sc & _);
      try solve [auto | lra | intros y _; apply linear_regular, Ln | subst n; apply Smo | intros y _; apply Hf].
    + eauto.
Qed.
Print Assumptions C101_linear.

(** The network of C90's example. *)
Example C101_linear_case : linear_network rising_net /\
  (forall t0 t1 last c x, solves 4 (step_matrix rising_net t0 t1 last (control_vector c) x) 2 (rising_solve tt)) /\
  forall fuel cfg points x, (1 <= maximal_iterations (newton cfg))%Z -> 0 <= tolerance (newton cfg) -> (2 <= List.length points)%nat ->
    exists rows, simulate rising_problem fuel 1 cfg none points x tt = (Some (Ok rows), tt).
Proof.
  assert (Ln : linear_network rising_net).
  { split; [intros e [<-|[]]; exact Logic.I|intros t [<-|[<-|[]]]; exact Logic.I]. }
  assert (Sv : forall t0 t1 last c x, solves 4 (step_matrix rising_net t0 t1 last (control_vector c) x) 2 (rising_solve tt)).
  { intros t0 t1 last c x r. split; [|split].
    - intros k K. unfold rising_solve. apply nth_overflow. cbn. lia.
    - intros i I. unfold step_matrix, times. match goal with |- context [d_evaluate_d_new_state ?a ?b ?c ?d ?e ?f] => let v := eval cbn in (d_evaluate_d_new_state a b c d e f) in change (d_evaluate_d_new_state a b c d e f) with v end.
      do 4 (destruct i as [|i]; [cbn; ring|]). lia.
    - unfold length_of. replace 2 with (sqrt (2 ^ 2)) by (apply sqrt_pow2; lra). rewrite <- sqrt_mult_alt by lra. apply sqrt_le_1_alt. unfold rising_solve. cbn.
      pose proof (pow2_ge_0 (r 0%nat + r 1%nat)). pose proof (pow2_ge_0 (r 2%nat + r 3%nat)). pose proof (pow2_ge_0 (r 0%nat)). pose proof (pow2_ge_0 (r 1%nat)). pose proof (pow2_ge_0 (r 2%nat)). pose proof (pow2_ge_0 (r 3%nat)). nra. }
  split; [exact Ln|]. split; [exact Sv|]. intros fuel cfg points x Hm Ht Hp. unfold rising_problem.
  apply (C101_linear unit 4 rising_net (fun _ _ _ _ _ _ => Some tt) rising_solve 2); auto; try lra.
  - apply rising_well_formed.
  - intros t _. apply rising_boundary.
  - intros. exists tt. split; [reflexivity|apply Sv].
Qed.
