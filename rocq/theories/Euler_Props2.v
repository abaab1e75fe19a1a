(** * C23 at every state away from the pole of the equation of state *)
From Coq Require Import Reals Lra Lia.
From Coquelicot Require Import Coquelicot.
From Verif Require Import Base Calc Euler_Model Euler_Spec Euler_Proofs Euler_Proofs3.
Local Open Scope R_scope.

Theorem C23_flux_jacobian_everywhere :
  forall d u, 0 < d -> u 0%nat <> 0 -> 1 - alpha * c_vac_squared * u 0%nat <> 0 ->
    jacobian 2 2 (flux d) u (dflux_dstate d u).
Proof. exact flux_jacobian_nonzero. Qed.
Print Assumptions C23_flux_jacobian_everywhere.

Theorem C23_pressure_jacobian_everywhere :
  forall u, 1 - alpha * c_vac_squared * u 0%nat <> 0 ->
    jacobian 2 2 p_qvol u (dp_qvol_dstate u).
Proof. exact p_qvol_jacobian_nonzero. Qed.
Print Assumptions C23_pressure_jacobian_everywhere.

(** Every positive density is away from the pole, and so is every density below it. *)
Example C23_everywhere_case :
  (forall r, 0 < r -> 1 - alpha * c_vac_squared * r <> 0) /\
  exists r, r < 0 /\ 1 - alpha * c_vac_squared * r < 0.
Proof.
  pose proof alpha_neg. pose proof c_vac_pos.
  assert (N : alpha * c_vac_squared < 0) by nra.
  split; [intros r Hr; nra|].
  exists (2 / (alpha * c_vac_squared)).
  assert (I : / (alpha * c_vac_squared) < 0) by (apply Rinv_lt_0_compat; exact N).
  split; [unfold Rdiv; lra|].
  replace (1 - alpha * c_vac_squared * (2 / (alpha * c_vac_squared))) with (-1) by (field; split; lra). lra.
Qed.
