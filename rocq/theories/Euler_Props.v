(** * Properties of the gas dynamics functions: C21 to C26 *)
From Coq Require Import Reals Lra Lia.
From Coquelicot Require Import Coquelicot.
From Verif Require Import Base Interp_Model Interp_Proofs Calc Euler_Model Euler_Spec Euler_Proofs Euler_Proofs2.
Local Open Scope R_scope.

(** ** C21 *)
Theorem C21_smooth_abs :
  forall e, 0 < e ->
    (forall x, e <= Rabs x -> smooth_abs e x = Rabs x) /\
    (forall x, smooth_abs e (- x) = smooth_abs e x) /\
    (forall x, 0 <= smooth_abs e x <= Rabs x) /\
    (forall x, is_derive (smooth_abs e) x (dsmooth_abs_dx e x)) /\
    (forall x, continuous (dsmooth_abs_dx e) x).
Proof.
  intros e He. split; [apply smooth_outside; auto|]. split; [apply smooth_even; auto|].
  split; [apply smooth_bounds; auto|]. split; [apply smooth_derive; auto|apply smooth_derive_continuous; auto].
Qed.
Print Assumptions C21_smooth_abs.
Example C21_default_width : 0 < default_epsilon /\ smooth_abs 2 1 = 11 / 16.
Proof.
  split; [unfold default_epsilon; apply Rinv_0_lt_compat; simpl; lra|].
  unfold smooth_abs. reals_cases; cbv zeta; lra.
Qed.

(** ** C22 *)
Theorem C22_equation_of_state :
  (forall r, density_ok r -> pressure_ok (p r) /\ rho (p r) = r) /\
  (forall x, pressure_ok x -> density_ok (rho x) /\ p (rho x) = x) /\
  (forall r s, density_ok r -> density_ok s -> r < s -> p r < p s) /\
  (forall x y, pressure_ok x -> pressure_ok y -> x < y -> rho x < rho y) /\
  (forall r, density_ok r -> is_derive p r (dp_drho r)) /\
  (forall r, 0 <= r -> density_ok r).
Proof.
  split; [exact p_defined|]. split; [exact rho_defined|]. split; [exact p_increasing|].
  split; [exact rho_increasing|]. split; [exact p_derive|exact nonneg_density_ok].
Qed.
Print Assumptions C22_equation_of_state.

Theorem C22_conversions :
  (forall x, pressure_ok (x 0%nat) -> forall i, (i < 2)%nat -> p_qvol (state_of x) i = x i) /\
  (forall u, density_ok (u 0%nat) -> forall i, (i < 2)%nat -> state_of (p_qvol u) i = u i) /\
  (forall x i, (i < 2)%nat -> p_qvol_bar_from_p_qvol (p_qvol_from_p_qvol_bar x) i = x i) /\
  (forall x, p_pascal_from_p_bar (p_bar_from_p_pascal x) = x).
Proof.
  split; [exact state_roundtrip|]. split; [exact state_roundtrip'|]. split; [exact bar_roundtrip|].
  intro x. unfold p_pascal_from_p_bar, p_bar_from_p_pascal. pose proof bar_pos. field. lra.
Qed.
Print Assumptions C22_conversions.
(** 60 bar and 40 kg per cubic metre are in the range. *)
Example C22_case : pressure_ok (60 * bar) /\ density_ok 40.
Proof.
  split; [|apply nonneg_density_ok; lra].
  unfold pressure_ok, alpha, p_crit, T_crit, Temp. rewrite bar_val. lra.
Qed.

(** ** C23 *)
Theorem C23_flux_jacobian :
  forall d u, 0 < d -> 0 < u 0%nat -> jacobian 2 2 (flux d) u (dflux_dstate d u).
Proof. intros. apply flux_jacobian; [auto|lra|apply nonneg_density_ok; lra]. Qed.
Print Assumptions C23_flux_jacobian.
Theorem C23_pressure_jacobian :
  forall u, density_ok (u 0%nat) -> jacobian 2 2 p_qvol u (dp_qvol_dstate u).
Proof. exact p_qvol_jacobian. Qed.
Print Assumptions C23_pressure_jacobian.
Theorem C23_bar_jacobian :
  forall u, jacobian 2 2 p_qvol_bar_from_p_qvol u (dp_qvol_bar_from_p_qvold_p_qvol u).
Proof. exact p_qvol_bar_jacobian. Qed.
Print Assumptions C23_bar_jacobian.
Example C23_case : exists u : vec, 0 < u 0%nat /\ dflux_dstate 1 u 0%nat 0%nat = 0 /\
  0 < dflux_dstate 1 u 0%nat 1%nat.
Proof.
  exists (v2 40 100). cbn. split; [lra|]. split; [auto|].
  apply Rdiv_lt_0_compat; [apply rho_0_pos|apply area_pos; lra].
Qed.

(** ** C24 *)
Theorem C24_friction_continuous :
  forall d k, geometry d k ->
    exists l, (forall Re, friction_factor d k Re (l Re)) /\
      (forall Re, 0 < Re -> continuous l Re) /\
      (forall Re, 4000 < Re -> 0 < l Re /\ l Re = swamee_jain_law Re d k).
Proof.
  intros d k Hg. exists (lam d k). split; [intro; apply lam_is_friction; auto|].
  split; [intros; apply lam_continuous; auto|].
  intros Re H. unfold lam. reals_cases; try lra. split; [apply sj_pos; auto; lra|].
  unfold sj, swamee_jain_law, log10, inner. unfold Rdiv. rewrite Rmult_1_l. f_equal. f_equal. ring.
Qed.
Print Assumptions C24_friction_continuous.

Theorem C24_source_continuous :
  forall d k, geometry d k ->
    exists f, (forall q, continuous f q) /\
      (forall rho q, rho <> 0 -> source d k (v2 rho q) = Ok (v2 0 (f q / rho))) /\
      (forall rho q l, rho <> 0 -> q <> 0 -> friction_factor d k (Reynolds q d) l ->
         f q / rho = darcy_weisbach d rho q l).
Proof.
  intros d k Hg. exists (fun q => fconst d * friction d k q). split; [|split].
  - intro q. apply (continuous_scal_r (fconst d) (friction d k)). apply friction_continuous; auto.
  - intros r q _. rewrite source_ok by auto. reflexivity.
  - intros r q l Hr Hq Hl.
    assert (E : l = lam d k (coef d * Rabs q)).
    { rewrite Reynolds_val in Hl. destruct Hl as [[H ->]|[H Hl]].
      - unfold lam. replace (Rltb (coef d * Rabs q) 2000) with true by (symmetry; apply Rltb_true; lra). auto.
      - rewrite lambda_ok in Hl by auto. congruence. }
    rewrite friction_lam by auto. subst l. unfold darcy_weisbach, fconst.
    replace (/ 2 * d) with (d / 2) by lra. unfold Rdiv. ring.
Qed.
Print Assumptions C24_source_continuous.

(** Below the laminar border the functions for the other regimes throw. *)
Theorem C24_not_laminar : forall Re d k, Re <= 1999 ->
  lambda_non_laminar Re d k = Exc /\ dlambda_non_laminar_dRe Re d k = Exc.
Proof.
  intros Re d k H. assert (L : Rltb Re (laminar_border - EPSILON) = true).
  { apply Rltb_true. unfold laminar_border, EPSILON. lra. }
  unfold lambda_non_laminar, dlambda_non_laminar_dRe. rewrite L. split; reflexivity.
Qed.
Print Assumptions C24_not_laminar.
Example C24_case : geometry (1 / 2) (1 / 10 ^ 5).
Proof.
  unfold geometry. replace (10 ^ 5) with 100000 by ring.
  replace (10 ^ 11) with 100000000000 by ring. lra.
Qed.

(** ** C25 *)

(** The program's derivative of the turbulent friction factor is the true derivative times the
    square of a number below 9/10; it is wrong for every pipe and every Reynolds number. *)
Theorem C25_derivative_wrong_everywhere :
  forall d k Re, geometry d k -> 4000 < Re ->
    exists f D v a,
      (forall y, 4000 <= y -> Swamee_Jain y d k = Ok (f y)) /\
      is_derive f Re D /\ dSwamee_Jain_dRe Re d k = Ok v /\
      v = a * a * D /\ 0 < a < 9 / 10 /\ v <> D.
Proof.
  intros d k Re Hg H. exists (sj d k), (dsj d k Re), (dsj_impl d k Re), (inner d k Re).
  split; [intros; apply sj_ok; auto|]. split; [apply sj_derive; auto; lra|].
  split; [apply dsj_ok; auto; lra|]. split; [reflexivity|].
  split; [apply inner_bounds; auto; lra|apply dsj_impl_wrong; auto; lra].
Qed.
Print Assumptions C25_derivative_wrong_everywhere.

Theorem C25_turbulent_derivative_refuted :
  exists d k Re f D v,
    geometry d k /\ 4000 < Re /\
    (forall y, 4000 <= y -> Swamee_Jain y d k = Ok (f y)) /\
    is_derive f Re D /\ dSwamee_Jain_dRe Re d k = Ok v /\ v <> D.
Proof.
  destruct (C25_derivative_wrong_everywhere _ _ 5000 C24_case ltac:(lra)) as [f [D [v [a H]]]].
  exists (1 / 2), (1 / 10 ^ 5), 5000, f, D, v.
  split; [exact C24_case|]. split; [lra|]. tauto.
Qed.
Print Assumptions C25_turbulent_derivative_refuted.

(** Consequence: in the turbulent regime the Jacobian of the source term is wrong. *)
Theorem C25_source_jacobian_wrong :
  forall d k u, geometry d k -> u 0%nat <> 0 -> 0 < u 1%nat -> 4000 < Reynolds (u 1%nat) d ->
    exists g J, (forall x, source d k x = Ok (g x)) /\ dsource_dstate d k u = Ok J /\
      ~ jacobian 2 2 g u J.
Proof.
  intros d k u Hg Hu Hq HR. rewrite Reynolds_val, Rabs_pos_eq in HR by lra.
  eexists. eexists. split; [intro x; apply source_ok; auto|]. split; [apply dsource_ok; auto|].
  intro HJ. specialize (HJ 1%nat ltac:(lia)). apply (gradient_partial _ _ _ _ 1) in HJ; [|lia].
  cbn [v2 m2] in HJ. unfold vset in HJ. cbn [Nat.eqb] in HJ.
  pose proof (friction_turbulent_derive d k Hg (u 1%nat) Hq HR) as HT.
  set (c := coef d) in *. set (q := u 1%nat) in *.
  pose proof (area_pos d (geo_d d k Hg)) as HA. pose proof rho_0_pos. pose proof (geo_d d k Hg).
  assert (HF : fconst d <> 0).
  { unfold fconst. apply Rmult_integral_contrapositive_currified; [lra|].
    apply Rinv_neq_0_compat. repeat apply Rmult_integral_contrapositive_currified; lra. }
  assert (HS : is_derive (fun r => fconst d * friction d k r / u 0%nat) q
     (fconst d * (dsj d k (c * q) * c * q * q + 2 * sj d k (c * q) * q) / u 0%nat)).
  { apply (is_derive_ext (fun r => (fconst d / u 0%nat) * friction d k r)).
    { intro t. unfold Rdiv. change (@eq R (fconst d * / u 0%nat * friction d k t) (fconst d * friction d k t * / u 0%nat)). ring. }
    eapply is_derive_value; [apply is_derive_scal; exact HT|]. unfold Rdiv. ring. }
  apply is_derive_unique in HJ. apply is_derive_unique in HS.
  assert (E : fconst d * dfriction d k q / u 0%nat =
     fconst d * (dsj d k (c * q) * c * q * q + 2 * sj d k (c * q) * q) / u 0%nat).
  { rewrite <- HJ. rewrite <- HS. reflexivity. }
  assert (E2 : dfriction d k q = dsj d k (c * q) * c * q * q + 2 * sj d k (c * q) * q).
  { apply (Rmult_eq_reg_l (fconst d)); [|auto]. apply (Rmult_eq_reg_r (/ u 0%nat)); [|apply Rinv_neq_0_compat; auto].
    exact E. }
  assert (E3 : dfriction d k q = dsj_impl d k (c * q) * c * q * q + 2 * sj d k (c * q) * q).
  { unfold dfriction. fold c. rewrite Rabs_pos_eq by lra.
    unfold dlam, lam. reals_cases; lra. }
  apply (dsj_impl_wrong d k Hg (c * q)); [lra|].
  pose proof (coef_pos d k Hg) as HC. fold c in HC.
  apply (Rmult_eq_reg_r (c * q * q)); [lra|].
  apply Rgt_not_eq, Rmult_lt_0_compat; [apply Rmult_lt_0_compat|]; auto.
Qed.
Print Assumptions C25_source_jacobian_wrong.

(** ** C26 *)
Theorem C26_source_jacobian :
  forall d k u, geometry d k -> u 0%nat <> 0 -> Reynolds (u 1%nat) d < 4000 ->
    exists J, dsource_dstate d k u = Ok J /\ is_jacobian 2 2 (source d k) u J.
Proof.
  intros d k u Hg Hu HR. rewrite Reynolds_val in HR.
  eexists. split; [apply dsource_ok; auto|].
  eexists. split; [apply source_gradient; [auto|apply friction_derive; auto]|].
  exists 1. split; [lra|]. intros x _. apply source_ok; auto.
Qed.
Print Assumptions C26_source_jacobian.

(** States in the laminar regime, at its border and in the transitional regime. *)
Example C26_cases : exists q1 q2 q3,
  Reynolds q1 (1 / 2) = 0 /\ Reynolds q2 (1 / 2) = 2000 /\ Reynolds q3 (1 / 2) = 3000 /\ q3 < 0.
Proof.
  pose proof (coef_pos _ _ C24_case) as H.
  exists 0, (2000 / coef (1 / 2)), (- (3000 / coef (1 / 2))).
  assert (0 < 2000 / coef (1 / 2)) by (apply Rdiv_lt_0_compat; lra).
  assert (0 < 3000 / coef (1 / 2)) by (apply Rdiv_lt_0_compat; lra).
  rewrite !Reynolds_val, Rabs_R0, Rabs_Ropp, !Rabs_pos_eq by lra.
  repeat split; try (field; lra); lra.
Qed.
