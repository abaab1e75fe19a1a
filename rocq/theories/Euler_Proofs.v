(** * Proofs about smooth_abs, the equation of state and the flux *)
From Coq Require Import Reals Lra Lia Psatz.
From Coquelicot Require Import Coquelicot.
From Verif Require Import Base Interp_Model Interp_Proofs Calc Euler_Model Euler_Spec.
Local Open Scope R_scope.

Ltac reals_cases :=
  repeat match goal with
  | |- context [Rleb ?a ?b] => destruct (Rleb a b) eqn:?
  | |- context [Rltb ?a ?b] => destruct (Rltb a b) eqn:?
  end;
  repeat match goal with
  | H : Rleb _ _ = true |- _ => apply Rleb_true in H
  | H : Rleb _ _ = false |- _ => apply Rleb_false in H
  | H : Rltb _ _ = true |- _ => apply Rltb_true in H
  | H : Rltb _ _ = false |- _ => apply Rltb_false in H
  end.

(** ** smooth_abs *)
Section Smooth.
Variable e : R.
Hypothesis He : 0 < e.

Lemma smooth_outside x : e <= Rabs x -> smooth_abs e x = Rabs x.
Proof.
  unfold smooth_abs. intro H. reals_cases; cbv zeta.
  - rewrite Rabs_left1; lra.
  - rewrite Rabs_pos_eq; lra.
  - exfalso. apply (Rlt_not_le e (Rabs x)); [|auto]. apply Rabs_def1; lra.
Qed.

Lemma smooth_even x : smooth_abs e (- x) = smooth_abs e x.
Proof.
  unfold smooth_abs. reals_cases; cbv zeta; unfold Rdiv; lra.
Qed.

Lemma smooth_bounds x : 0 <= smooth_abs e x <= Rabs x.
Proof.
  destruct (Rle_dec e (Rabs x)) as [H|H].
  - rewrite smooth_outside by auto. split; [apply Rabs_pos|lra].
  - assert (S : smooth_abs e x = smooth_abs e (Rabs x)).
    { unfold Rabs. destruct (Rcase_abs x); [symmetry; apply smooth_even|auto]. }
    rewrite S. pose proof (Rabs_pos x) as P. revert H P. generalize (Rabs x). clear x S.
    intros x H P. unfold smooth_abs. reals_cases; cbv zeta; try lra.
    set (r := x / e). assert (Hr : 0 <= r < 1).
    { unfold r. split; [apply Rmult_le_pos; [auto|left; apply Rinv_0_lt_compat; auto]|].
      apply (Rmult_lt_reg_r e); [auto|]. unfold Rdiv. rewrite Rmult_assoc, Rinv_l; lra. }
    replace (x * r / 2 * (- r * r + 3)) with (x * (r * (3 - r * r) / 2)) by field.
    assert (U : 1 - r * (3 - r * r) / 2 = (1 - r) * (1 - r) * (2 + r) / 2) by field.
    assert (0 <= (1 - r) * (1 - r) * (2 + r))
      by (apply Rmult_le_pos; [apply Rmult_le_pos|]; lra).
    assert (0 <= r * (3 - r * r)) by (apply Rmult_le_pos; [lra|nra]).
    split; [apply Rmult_le_pos; lra|].
    rewrite <- (Rmult_1_r x) at 2. apply Rmult_le_compat_l; lra.
Qed.

Definition inner_smooth x := x * (x / e) / 2 * (- (x / e) * (x / e) + 3).
Lemma inner_smooth_derive x : is_derive inner_smooth x ((x / e) * (- 2 * (x / e) * (x / e) + 3)).
Proof.
  unfold inner_smooth. auto_derive; [auto|]. field. lra.
Qed.

Lemma smooth_derive x : is_derive (smooth_abs e) x (dsmooth_abs_dx e x).
Proof.
  assert (DN : forall y, is_derive (fun x : R => - x) y (-1)) by (intro; auto_derive; [auto|ring]).
  assert (DI : forall y, is_derive (fun x : R => x) y 1) by (intro; auto_derive; [auto|ring]).
  destruct (Rtotal_order x (- e)) as [H|[H|H]].
  - replace (dsmooth_abs_dx e x) with (-1) by (unfold dsmooth_abs_dx; reals_cases; lra).
    apply (is_derive_ext_near _ (fun x => - x) x (- e - x)); [lra| |apply DN].
    intros y Hy. unfold smooth_abs. reals_cases; lra.
  - subst x. replace (dsmooth_abs_dx e (- e)) with (-1) by (unfold dsmooth_abs_dx; reals_cases; lra).
    apply (is_derive_glue _ (fun x => - x) inner_smooth (- e) e); [lra| | |apply DN|].
    + intros y Hy. unfold smooth_abs. reals_cases; lra.
    + intros y Hy. unfold smooth_abs. reals_cases; cbv zeta; unfold inner_smooth; try lra.
      replace y with (- e) by lra. field. lra.
    + eapply is_derive_value; [apply inner_smooth_derive|]. field. lra.
  - destruct (Rtotal_order x e) as [H2|[H2|H2]].
    + replace (dsmooth_abs_dx e x) with ((x / e) * (- 2 * (x / e) * (x / e) + 3))
        by (unfold dsmooth_abs_dx; reals_cases; cbv zeta; lra).
      apply (is_derive_ext_near _ inner_smooth x (Rmin (x + e) (e - x))).
      * apply Rmin_glb_lt; lra.
      * intros y Hy. pose proof (Rmin_l (x + e) (e - x)). pose proof (Rmin_r (x + e) (e - x)).
        unfold smooth_abs. reals_cases; cbv zeta; unfold inner_smooth; try lra.
      * apply inner_smooth_derive.
    + subst x. replace (dsmooth_abs_dx e e) with 1 by (unfold dsmooth_abs_dx; reals_cases; lra).
      apply (is_derive_glue _ inner_smooth (fun x => x) e e); [lra| | | |apply DI].
      * intros y Hy. unfold smooth_abs. reals_cases; cbv zeta; unfold inner_smooth; try lra.
        replace y with e by lra. field. lra.
      * intros y Hy. unfold smooth_abs. reals_cases; lra.
      * eapply is_derive_value; [apply inner_smooth_derive|]. field. lra.
    + replace (dsmooth_abs_dx e x) with 1 by (unfold dsmooth_abs_dx; reals_cases; lra).
      apply (is_derive_ext_near _ (fun x => x) x (x - e)); [lra| |apply DI].
      intros y Hy. unfold smooth_abs. reals_cases; lra.
Qed.

Lemma smooth_derive_continuous x : continuous (dsmooth_abs_dx e) x.
Proof.
  set (g := fun x => (x / e) * (- 2 * (x / e) * (x / e) + 3)).
  assert (G : forall y, continuous g y).
  { intro y. apply (ex_derive_continuous g). unfold g. auto_derive. auto. }
  destruct (Rtotal_order x (- e)) as [H|[H|H]].
  - apply (continuous_ext_near _ (fun _ => -1) x (- e - x)); [lra| |apply continuous_const].
    intros y Hy. unfold dsmooth_abs_dx. reals_cases; lra.
  - subst x. apply (continuous_glue _ (fun _ => -1) g (- e) e); [lra| | |apply continuous_const|auto].
    + intros y Hy. unfold dsmooth_abs_dx. reals_cases; lra.
    + intros y Hy. unfold dsmooth_abs_dx, g. reals_cases; cbv zeta; try lra.
      replace y with (- e) by lra. field. lra.
  - destruct (Rtotal_order x e) as [H2|[H2|H2]].
    + apply (continuous_ext_near _ g x (Rmin (x + e) (e - x))); [apply Rmin_glb_lt; lra| |auto].
      intros y Hy. pose proof (Rmin_l (x + e) (e - x)). pose proof (Rmin_r (x + e) (e - x)).
      unfold dsmooth_abs_dx, g. reals_cases; cbv zeta; lra.
    + subst x. apply (continuous_glue _ g (fun _ => 1) e e); [lra| | |auto|apply continuous_const].
      * intros y Hy. unfold dsmooth_abs_dx, g. reals_cases; cbv zeta; try lra.
        replace y with e by lra. field. lra.
      * intros y Hy. unfold dsmooth_abs_dx. reals_cases; lra.
    + apply (continuous_ext_near _ (fun _ => 1) x (x - e)); [lra| |apply continuous_const].
      intros y Hy. unfold dsmooth_abs_dx. reals_cases; lra.
Qed.
End Smooth.

(** ** Constants *)
Lemma bar_val : bar = 100000. Proof. unfold bar. ring. Qed.
Lemma bar_pos : 0 < bar. Proof. rewrite bar_val. lra. Qed.
Lemma c_vac_pos : 0 < c_vac_squared.
Proof.
  unfold c_vac_squared, p_0, Temp, z_0, T_0, rho_0. rewrite bar_val.
  apply Rdiv_lt_0_compat; lra.
Qed.
Lemma alpha_neg : alpha < 0.
Proof.
  unfold alpha, p_crit, T_crit, Temp. rewrite bar_val.
  apply (Rmult_lt_reg_r (464512 / 10000 * 100000 * (28315 / 100))); [lra|].
  field_simplify; lra.
Qed.
Lemma rho_0_pos : 0 < rho_0. Proof. unfold rho_0; lra. Qed.
Lemma eta_pos : 0 < eta. Proof. unfold eta. apply Rinv_0_lt_compat. simpl; lra. Qed.
Lemma Pi_bounds : 3 < Pi < 4.
Proof.
  unfold Pi. replace (10 ^ 15) with 1000000000000000 by ring. lra.
Qed.
Lemma area_pos d : 0 < d -> 0 < circle_area (/ 2 * d).
Proof.
  intro H. pose proof Pi_bounds. unfold circle_area.
  apply Rmult_lt_0_compat; [apply Rmult_lt_0_compat|]; lra.
Qed.

Lemma nonneg_density_ok r : 0 <= r -> density_ok r.
Proof.
  intro H. unfold density_ok. pose proof c_vac_pos. pose proof alpha_neg.
  assert (alpha * c_vac_squared * r <= 0) by (assert (0 <= c_vac_squared * r) by nra; nra). lra.
Qed.

Lemma p_defined r : density_ok r -> pressure_ok (p r) /\ rho (p r) = r.
Proof.
  unfold density_ok, pressure_ok, p, rho. intro H. pose proof c_vac_pos.
  assert (E : 1 + alpha * (c_vac_squared * r / (1 - alpha * c_vac_squared * r))
              = / (1 - alpha * c_vac_squared * r)) by (field; lra).
  rewrite E. split; [apply Rinv_0_lt_compat; auto|]. field. lra.
Qed.

Lemma rho_defined x : pressure_ok x -> density_ok (rho x) /\ p (rho x) = x.
Proof.
  unfold density_ok, pressure_ok, p, rho. intro H. pose proof c_vac_pos.
  assert (E : 1 - alpha * c_vac_squared * (x / (c_vac_squared * (1 + alpha * x)))
              = / (1 + alpha * x)) by (field; lra).
  rewrite E. split; [apply Rinv_0_lt_compat; auto|]. field. lra.
Qed.

Lemma p_increasing r s : density_ok r -> density_ok s -> r < s -> p r < p s.
Proof.
  unfold density_ok, p. intros Hr Hs H. pose proof c_vac_pos.
  assert (D : c_vac_squared * s / (1 - alpha * c_vac_squared * s)
     - c_vac_squared * r / (1 - alpha * c_vac_squared * r)
     = c_vac_squared * (s - r) / ((1 - alpha * c_vac_squared * s) * (1 - alpha * c_vac_squared * r)))
    by (field; lra).
  assert (0 < c_vac_squared * (s - r) / ((1 - alpha * c_vac_squared * s) * (1 - alpha * c_vac_squared * r))).
  { apply Rdiv_lt_0_compat; apply Rmult_lt_0_compat; lra. }
  lra.
Qed.

Lemma rho_increasing x y : pressure_ok x -> pressure_ok y -> x < y -> rho x < rho y.
Proof.
  unfold pressure_ok, rho. intros Hr Hs H. pose proof c_vac_pos.
  assert (D : y / (c_vac_squared * (1 + alpha * y)) - x / (c_vac_squared * (1 + alpha * x))
     = (y - x) / (c_vac_squared * ((1 + alpha * y) * (1 + alpha * x)))) by (field; lra).
  assert (0 < (y - x) / (c_vac_squared * ((1 + alpha * y) * (1 + alpha * x)))).
  { apply Rdiv_lt_0_compat; [lra|]. apply Rmult_lt_0_compat; [lra|]. apply Rmult_lt_0_compat; lra. }
  lra.
Qed.

Lemma p_derive r : density_ok r -> is_derive p r (dp_drho r).
Proof.
  unfold density_ok. intro H. unfold p, dp_drho. cbv zeta.
  auto_derive; [lra|]. field. lra.
Qed.

Lemma dp_drho_pos r : density_ok r -> 0 < dp_drho r.
Proof.
  intro H. unfold density_ok in H. unfold dp_drho. cbv zeta. pose proof c_vac_pos.
  apply Rdiv_lt_0_compat; [auto|]. apply Rmult_lt_0_compat; auto.
Qed.

(** ** Flux *)
Lemma is_derive_along (f : R -> R) (x : R -> R) s u l dx :
  x s = u -> is_derive f u l -> is_derive x s dx -> is_derive (fun r => f (x r)) s (l * dx).
Proof.
  intros <- Hf Hx. eapply is_derive_value; [apply (is_derive_comp f x s l dx); auto|].
  unfold scal; cbn; unfold mult; cbn. ring.
Qed.

Lemma vsum2 f : vsum 2 f = f 0%nat + f 1%nat. Proof. cbn. ring. Qed.

Lemma flux_jacobian d u :
  0 < d -> u 0%nat <> 0 -> density_ok (u 0%nat) ->
  jacobian 2 2 (flux d) u (dflux_dstate d u).
Proof.
  intros Hd Hu Hok i Hi x s dx [Hx Hdx].
  pose proof (area_pos d Hd) as HA. pose proof rho_0_pos as Hr.
  rewrite vsum2. specialize (Hx 0%nat) as Hx0. specialize (Hx 1%nat) as Hx1.
  specialize (Hdx 0%nat) as D0. specialize (Hdx 1%nat) as D1.
  destruct i as [|[|i]]; [| |lia]; unfold flux, dflux_dstate; cbn [v2 m2].
  - eapply is_derive_value; [apply is_derive_scal; exact D1|]. ring.
  - pose proof (is_derive_along p (fun r => x r 0%nat) s (u 0%nat) _ _ Hx0 (p_derive _ Hok) D0) as DP.
    set (A := circle_area (/ 2 * d)) in *.
    set (rr := fun r => x r 0%nat) in *. set (qq := fun r => x r 1%nat) in *.
    assert (DQ : is_derive (fun r => rho_0 / A * qq r * qq r / rr r) s
       (- (rho_0 / A) * u 1%nat * u 1%nat / (u 0%nat * u 0%nat) * dx 0%nat
        + 2 * rho_0 / A * u 1%nat / u 0%nat * dx 1%nat)).
    { assert (E0 : ex_derive rr s) by (exists (dx 0%nat); exact D0).
      assert (E1 : ex_derive qq s) by (exists (dx 1%nat); exact D1).
      auto_derive.
      - repeat split; auto. unfold rr. rewrite Hx0. exact Hu.
      - change (fun x0 : R => qq x0) with qq. change (fun x0 : R => rr x0) with rr.
        replace (Derive qq s) with (dx 1%nat) by (symmetry; apply is_derive_unique; exact D1).
        replace (Derive rr s) with (dx 0%nat) by (symmetry; apply is_derive_unique; exact D0).
        change (qq s) with (x s 1%nat). change (rr s) with (x s 0%nat). rewrite Hx0, Hx1.
        field. split; lra. }
    eapply is_derive_value.
    + apply (is_derive_plus (fun r => A / rho_0 * p (rr r)) (fun r => rho_0 / A * qq r * qq r / rr r)).
      * apply is_derive_scal. exact DP.
      * exact DQ.
    + unfold plus; cbn. field. repeat split; lra.
Qed.

Lemma p_qvol_jacobian u :
  density_ok (u 0%nat) -> jacobian 2 2 p_qvol u (dp_qvol_dstate u).
Proof.
  intros Hok i Hi x s dx [Hx Hdx]. rewrite vsum2.
  destruct i as [|[|i]]; [| |lia]; unfold p_qvol, dp_qvol_dstate; cbn [v2 m2].
  - eapply is_derive_value; [apply (is_derive_along p (fun r => x r 0%nat) s (u 0%nat)); auto; apply p_derive; auto|].
    ring.
  - eapply is_derive_value; [apply Hdx|]. ring.
Qed.

Lemma p_qvol_bar_jacobian u :
  jacobian 2 2 p_qvol_bar_from_p_qvol u (dp_qvol_bar_from_p_qvold_p_qvol u).
Proof.
  intros i Hi x s dx [Hx Hdx]. rewrite vsum2. pose proof bar_pos.
  destruct i as [|[|i]]; [| |lia];
    unfold p_qvol_bar_from_p_qvol, dp_qvol_bar_from_p_qvold_p_qvol, p_bar_from_p_pascal,
      dp_bar_from_p_pascal_dp_pascal; cbn [v2 m2].
  - eapply is_derive_value; [apply (is_derive_ext (fun r => / bar * x r 0%nat)); [intro; unfold Rdiv; apply Rmult_comm|]; apply is_derive_scal; apply Hdx|].
    field. lra.
  - eapply is_derive_value; [apply Hdx|]. ring.
Qed.

Lemma state_roundtrip x : pressure_ok (x 0%nat) ->
  forall i, (i < 2)%nat -> p_qvol (state_of x) i = x i.
Proof.
  intros H i Hi. unfold p_qvol, state_of. destruct i as [|[|i]]; cbn; [|auto|lia].
  apply rho_defined; auto.
Qed.
Lemma state_roundtrip' x : density_ok (x 0%nat) ->
  forall i, (i < 2)%nat -> state_of (p_qvol x) i = x i.
Proof.
  intros H i Hi. unfold p_qvol, state_of. destruct i as [|[|i]]; cbn; [|auto|lia].
  apply p_defined; auto.
Qed.
Lemma bar_roundtrip x i : (i < 2)%nat -> p_qvol_bar_from_p_qvol (p_qvol_from_p_qvol_bar x) i = x i.
Proof.
  intro Hi. pose proof bar_pos.
  unfold p_qvol_bar_from_p_qvol, p_qvol_from_p_qvol_bar, p_bar_from_p_pascal, p_pascal_from_p_bar.
  destruct i as [|[|i]]; cbn [v2]; [field; lra|auto|lia].
Qed.
