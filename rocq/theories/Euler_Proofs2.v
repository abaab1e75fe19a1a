(** * Proofs about friction *)
From Coq Require Import Reals Lra Lia Psatz.
From Coquelicot Require Import Coquelicot.
From Verif Require Import Base Interp_Model Interp_Proofs Calc Euler_Model Euler_Spec Euler_Proofs.
Local Open Scope R_scope.

(** ** The linear system for the spline coefficients *)
Definition mat_vec4 (A : mat) (x : vec) (i : nat) : R := dot4 (A i) x.

Lemma hermite_solves s i : (i < 4)%nat -> mat_vec4 coeff_helper_matrix (lu_solve s) i = s i.
Proof.
  intro Hi. unfold mat_vec4, coeff_helper_matrix, lu_solve, dot4, laminar_border, turbulent_border.
  destruct i as [|[|[|[|i]]]]; [| | | |lia]; cbn [v4]; field.
Qed.

Lemma hermite_unique s c :
  (forall i, (i < 4)%nat -> mat_vec4 coeff_helper_matrix c i = s i) ->
  forall i, (i < 4)%nat -> c i = lu_solve s i.
Proof.
  intros H. pose proof (H 0%nat ltac:(lia)) as H0. pose proof (H 1%nat ltac:(lia)) as H1.
  pose proof (H 2%nat ltac:(lia)) as H2. pose proof (H 3%nat ltac:(lia)) as H3.
  unfold mat_vec4, coeff_helper_matrix, dot4, laminar_border, turbulent_border in H0, H1, H2, H3.
  cbn [v4] in *. intros i Hi. unfold lu_solve, laminar_border, turbulent_border.
  rewrite <- H0, <- H1, <- H2, <- H3.
  destruct i as [|[|[|[|i]]]]; [| | | |lia]; cbn [v4]; field.
Qed.

(** ** Swamee-Jain *)
Section Geometry.
Variables d k : R.
Hypothesis Hg : geometry d k.

Lemma geo_d : 0 < d.
Proof.
  destruct Hg as [H _]. assert (0 < / 10 ^ 11) by (apply Rinv_0_lt_compat; simpl; lra). lra.
Qed.

Definition inner (Re : R) : R := k / (37 / 10 * d) + 574 / 100 / Rpower Re (9 / 10).
Definition sj (Re : R) : R := 1 / 4 / (log10 (inner Re) * log10 (inner Re)).

Lemma rpow_big Re : 4000 <= Re + 1 -> 512 <= Rpower Re (9 / 10).
Proof.
  intro H. replace 512 with (Rpower 1024 (9 / 10)).
  - apply Rle_Rpower_l; lra.
  - replace 1024 with (Rpower 2 10).
    + rewrite Rpower_mult. replace (10 * (9 / 10)) with (INR 9) by (simpl; lra).
      rewrite Rpower_pow by lra. ring.
    + replace 10 with (INR 10) by (simpl; lra). rewrite Rpower_pow by lra. ring.
Qed.

Lemma inner_bounds Re : 4000 <= Re + 1 -> 0 < inner Re < 9 / 10.
Proof.
  intro H. pose proof geo_d as Hd. destruct Hg as [_ [K1 K2]].
  pose proof (rpow_big Re H) as HR. unfold inner.
  assert (A : 0 <= k / (37 / 10 * d) <= 30 / 37).
  { split.
    - apply Rmult_le_pos; [auto|]. left. apply Rinv_0_lt_compat. lra.
    - apply (Rmult_le_reg_r (37 / 10 * d)); [lra|]. unfold Rdiv at 1. rewrite Rmult_assoc, Rinv_l by lra. lra. }
  assert (B : 0 < 574 / 100 / Rpower Re (9 / 10) <= 574 / 100 / 512).
  { split; [apply Rdiv_lt_0_compat; lra|]. unfold Rdiv at 1 3. apply Rmult_le_compat_l; [lra|].
    apply Rinv_le_contravar; lra. }
  lra.
Qed.

Lemma ln10_pos : 0 < ln 10.
Proof. rewrite <- ln_1. apply ln_increasing; lra. Qed.

Lemma log_inner_neg Re : 4000 <= Re + 1 -> log10 (inner Re) < 0.
Proof.
  intro H. pose proof (inner_bounds Re H) as [A B]. unfold log10.
  assert (ln (inner Re) < 0) by (rewrite <- ln_1; apply ln_increasing; lra).
  pose proof ln10_pos. apply (Rmult_lt_reg_r (ln 10)); [auto|].
  unfold Rdiv. rewrite Rmult_assoc, Rinv_l by lra. lra.
Qed.

Lemma sj_pos Re : 4000 <= Re + 1 -> 0 < sj Re.
Proof.
  intro H. pose proof (log_inner_neg Re H). unfold sj.
  apply Rdiv_lt_0_compat; [lra|nra].
Qed.

Lemma inner_derive Re : 0 < Re -> is_derive inner Re (- (574 / 100) * (9 / 10) / (Rpower Re (9 / 10) * Re)).
Proof.
  intro H. unfold inner, Rpower.
  pose proof (exp_pos (9 / 10 * ln Re)) as E.
  pose proof geo_d.
  auto_derive.
  - repeat split; auto; lra.
  - field. split; [lra|]. lra.
Qed.

Definition dsj (Re : R) : R :=
  - (1 / 2) / (log10 (inner Re) * log10 (inner Re) * log10 (inner Re))
  * (/ ln 10 * / inner Re * (- (574 / 100) * (9 / 10) / (Rpower Re (9 / 10) * Re))).

Lemma sj_derive Re : 4000 <= Re + 1 -> is_derive sj Re (dsj Re).
Proof.
  intro H. pose proof (inner_bounds Re H) as [A B]. pose proof (log_inner_neg Re H) as L.
  pose proof ln10_pos as T.
  assert (DI : is_derive inner Re (- (574 / 100) * (9 / 10) / (Rpower Re (9 / 10) * Re)))
    by (apply inner_derive; lra).
  assert (DO : is_derive (fun a => 1 / 4 / (log10 a * log10 a)) (inner Re)
     (- (1 / 2) / (log10 (inner Re) * log10 (inner Re) * log10 (inner Re)) * (/ ln 10 * / inner Re))).
  { unfold log10 in *. 
    assert (N : ln (inner Re) <> 0).
    { intro Z. rewrite Z in L. unfold Rdiv in L. rewrite Rmult_0_l in L. lra. }
    auto_derive.
    - repeat split; auto; try lra.
      intro Z. apply Rmult_integral in Z. destruct Z as [Z|Z];
        apply (Rmult_integral_contrapositive (ln (inner Re)) (/ ln 10)) in Z; auto; split; auto;
        apply Rinv_neq_0_compat; lra.
    - field. repeat split; lra. }
  eapply is_derive_value; [apply (is_derive_along _ inner Re (inner Re) _ _ eq_refl DO DI)|].
  unfold dsj. ring.
Qed.

Lemma dsj_nonzero Re : 4000 <= Re + 1 -> dsj Re <> 0.
Proof.
  intro H. pose proof (inner_bounds Re H) as [A B]. pose proof (log_inner_neg Re H) as L.
  pose proof ln10_pos as T. pose proof (rpow_big Re H) as P. unfold dsj.
  revert A B L P. generalize (log10 (inner Re)). generalize (inner Re), (Rpower Re (9 / 10)). intros ia ra la A B L P.
  repeat apply Rmult_integral_contrapositive_currified; try lra.
  - apply Rinv_neq_0_compat. repeat apply Rmult_integral_contrapositive_currified; lra.
  - apply Rinv_neq_0_compat; lra.
  - apply Rinv_neq_0_compat; lra.
  - apply Rinv_neq_0_compat. apply Rmult_integral_contrapositive_currified; lra.
Qed.

Lemma sj_ok Re : 4000 <= Re -> Swamee_Jain Re d k = Ok (sj Re).
Proof.
  intro H. unfold Swamee_Jain, turbulent_border. pose proof EPSILON_pos.
  replace (Rltb Re (4000 - EPSILON)) with false by (symmetry; apply Rltb_false; lra).
  reflexivity.
Qed.

(** What the program returns as the derivative. *)
Definition dsj_impl (Re : R) : R := inner Re * inner Re * dsj Re.
Lemma dsj_ok Re : 4000 <= Re -> dSwamee_Jain_dRe Re d k = Ok (dsj_impl Re).
Proof.
  intro H. unfold dSwamee_Jain_dRe, turbulent_border. pose proof EPSILON_pos.
  replace (Rltb Re (4000 - EPSILON)) with false by (symmetry; apply Rltb_false; lra).
  cbv zeta. f_equal. unfold dsj_impl, dsj.
  assert (E : exp (ln Re * (9 / 10)) = Rpower Re (9 / 10)) by (unfold Rpower; f_equal; ring).
  rewrite E. change (k / (37 / 10 * d) + 574 / 100 / Rpower Re (9 / 10)) with (inner Re).
  assert (B : 4000 <= Re + 1) by lra.
  pose proof (inner_bounds Re B) as [A' B']. pose proof (log_inner_neg Re B).
  pose proof ln10_pos. pose proof (rpow_big Re B).
  field. repeat split; lra.
Qed.

Lemma dsj_impl_wrong Re : 4000 <= Re -> dsj_impl Re <> dsj Re.
Proof.
  intros H E. assert (B : 4000 <= Re + 1) by lra.
  pose proof (inner_bounds Re B) as [A' B']. pose proof (dsj_nonzero Re B) as N.
  unfold dsj_impl in E.
  assert (inner Re * inner Re = 1).
  { apply (Rmult_eq_reg_r (dsj Re)); [|auto]. lra. }
  nra.
Qed.

(** ** The friction factor *)
Definition coeffs : vec :=
  lu_solve (v4 (64 / laminar_border) (- 64 / (laminar_border * laminar_border)) (sj 4000) (dsj_impl 4000)).
Lemma coeffs_ok : get_coefficients d k = Ok coeffs.
Proof.
  unfold get_coefficients, coeffs. change turbulent_border with 4000.
  rewrite sj_ok, dsj_ok by lra. reflexivity.
Qed.

Definition poly (Re : R) : R := dot4 coeffs (v4 (Re * Re * Re) (Re * Re) Re 1).
Definition dpoly (Re : R) : R := dot4 coeffs (v4 (3 * Re * Re) (2 * Re) 1 0).

Lemma poly_derive Re : is_derive poly Re (dpoly Re).
Proof.
  unfold poly, dpoly, dot4. cbn [v4].
  generalize (coeffs 0%nat), (coeffs 1%nat), (coeffs 2%nat), (coeffs 3%nat). intros a b c e.
  auto_derive; [auto|ring].
Qed.

Definition spline_data : vec :=
  v4 (64 / laminar_border) (- 64 / (laminar_border * laminar_border)) (sj 4000) (dsj_impl 4000).
Lemma poly_laminar : poly 2000 = 64 / 2000.
Proof.
  etransitivity; [|exact (hermite_solves spline_data 0 ltac:(lia))].
  unfold poly, mat_vec4, dot4, coeff_helper_matrix, laminar_border. cbn [v4].
  change coeffs with (lu_solve spline_data). ring.
Qed.
Lemma dpoly_laminar : dpoly 2000 = - 64 / (2000 * 2000).
Proof.
  etransitivity; [|exact (hermite_solves spline_data 1 ltac:(lia))].
  unfold dpoly, mat_vec4, dot4, coeff_helper_matrix, laminar_border. cbn [v4].
  change coeffs with (lu_solve spline_data). ring.
Qed.
Lemma poly_turbulent : poly 4000 = sj 4000.
Proof.
  etransitivity; [|exact (hermite_solves spline_data 2 ltac:(lia))].
  unfold poly, mat_vec4, dot4, coeff_helper_matrix, turbulent_border. cbn [v4].
  change coeffs with (lu_solve spline_data). ring.
Qed.

Definition lam (Re : R) : R :=
  if Rltb Re 2000 then 64 / Re else if Rltb 4000 Re then sj Re else poly Re.

Lemma lambda_ok Re : 2000 <= Re -> lambda_non_laminar Re d k = Ok (lam Re).
Proof.
  intro H. unfold lambda_non_laminar, laminar_border, turbulent_border, lam. pose proof EPSILON_pos.
  replace (Rltb Re (2000 - EPSILON)) with false by (symmetry; apply Rltb_false; lra).
  replace (Rltb Re 2000) with false by (symmetry; apply Rltb_false; lra).
  destruct (Rltb 4000 Re) eqn:E.
  - apply Rltb_true in E. apply sj_ok. lra.
  - rewrite coeffs_ok. reflexivity.
Qed.

Definition dlam (Re : R) : R := if Rltb 4000 Re then dsj_impl Re else dpoly Re.
Lemma dlambda_ok Re : 2000 <= Re -> dlambda_non_laminar_dRe Re d k = Ok (dlam Re).
Proof.
  intro H. unfold dlambda_non_laminar_dRe, laminar_border, turbulent_border, dlam. pose proof EPSILON_pos.
  replace (Rltb Re (2000 - EPSILON)) with false by (symmetry; apply Rltb_false; lra).
  destruct (Rltb 4000 Re) eqn:E.
  - apply Rltb_true in E. apply dsj_ok. lra.
  - rewrite coeffs_ok. reflexivity.
Qed.

Lemma lam_is_friction Re : friction_factor d k Re (lam Re).
Proof.
  unfold friction_factor. destruct (Rlt_dec Re 2000) as [H|H].
  - left. split; [auto|]. unfold lam. replace (Rltb Re 2000) with true by (symmetry; apply Rltb_true; lra). auto.
  - right. split; [lra|]. apply lambda_ok. lra.
Qed.

Lemma lam_continuous Re : 0 < Re -> continuous lam Re.
Proof.
  intro H.
  assert (C1 : forall x, 0 < x -> continuous (fun x => 64 / x) x).
  { intros x Hx. apply (ex_derive_continuous (fun x => 64 / x)). auto_derive. lra. }
  assert (C2 : forall x, continuous poly x) by (intro; eapply is_derive_continuous; apply poly_derive).
  assert (C3 : forall x, 4000 <= x -> continuous sj x).
  { intros x Hx. eapply is_derive_continuous. apply sj_derive. lra. }
  destruct (Rtotal_order Re 2000) as [L|[L|L]].
  - apply (continuous_ext_near _ (fun x => 64 / x) Re (2000 - Re)); [lra| |auto].
    intros y Hy. unfold lam. reals_cases; lra.
  - subst Re. apply (continuous_glue _ (fun x => 64 / x) poly 2000 1000); [lra| | |auto|auto].
    + intros y Hy. unfold lam. reals_cases; try lra. replace y with 2000 by lra. apply poly_laminar.
    + intros y Hy. unfold lam. reals_cases; try lra.
  - destruct (Rtotal_order Re 4000) as [M|[M|M]].
    + apply (continuous_ext_near _ poly Re (Rmin (Re - 2000) (4000 - Re))); [apply Rmin_glb_lt; lra| |auto].
      intros y Hy. pose proof (Rmin_l (Re - 2000) (4000 - Re)). pose proof (Rmin_r (Re - 2000) (4000 - Re)).
      unfold lam. reals_cases; lra.
    + subst Re. apply (continuous_glue _ poly sj 4000 1000); [lra| | |auto|apply C3; lra].
      * intros y Hy. unfold lam. reals_cases; lra.
      * intros y Hy. unfold lam. reals_cases; try lra. replace y with 4000 by lra. apply poly_turbulent.
    + apply (continuous_ext_near _ sj Re (Re - 4000)); [lra| |apply C3; lra].
      intros y Hy. unfold lam. reals_cases; lra.
Qed.

(** ** The source term *)
Definition coef : R := coeff_of_Reynolds d.
Lemma coef_val : coef = 4 * rho_0 / (Pi * d * eta).
Proof.
  unfold coef, coeff_of_Reynolds, circle_area. pose proof geo_d. pose proof eta_pos. pose proof Pi_bounds.
  field. repeat split; lra.
Qed.
Lemma coef_pos : 0 < coef.
Proof.
  rewrite coef_val. pose proof geo_d. pose proof eta_pos. pose proof Pi_bounds. pose proof rho_0_pos.
  apply Rdiv_lt_0_compat; [lra|]. apply Rmult_lt_0_compat; [apply Rmult_lt_0_compat|]; lra.
Qed.
Lemma Reynolds_val q : Reynolds q d = coef * Rabs q.
Proof. reflexivity. Qed.

(** A flow that is not laminar is not tiny. *)
Lemma nonlaminar_flow q : 2000 <= coef * Rabs q -> / 10 ^ 13 <= Rabs q.
Proof.
  intro H. rewrite coef_val in H. pose proof geo_d as Hd. pose proof Pi_bounds as HP. pose proof rho_0_pos.
  destruct Hg as [G _]. pose proof (Rabs_pos q) as Hq.
  assert (E1 : / 10 ^ 11 = 1 / 100000000000) by (replace (10 ^ 11) with 100000000000 by ring; lra).
  assert (E2 : / 10 ^ 13 = 1 / 10000000000000) by (replace (10 ^ 13) with 10000000000000 by ring; lra).
  assert (E3 : eta = 1 / 100000) by (unfold eta; replace (10 ^ 5) with 100000 by ring; lra).
  rewrite E1 in G. rewrite E2.
  assert (P : 0 < Pi * d * eta) by (rewrite E3; apply Rmult_lt_0_compat; [apply Rmult_lt_0_compat|]; lra).
  assert (K : 2000 * (Pi * d * eta) <= 4 * rho_0 * Rabs q).
  { apply (Rmult_le_compat_r (Pi * d * eta)) in H; [|lra].
    replace (4 * rho_0 / (Pi * d * eta) * Rabs q * (Pi * d * eta)) with (4 * rho_0 * Rabs q) in H by (field; repeat split; lra). exact H. }
  assert (M : 3 * (1 / 100000000000) <= Pi * d) by (apply Rmult_le_compat; lra).
  rewrite E3 in K. unfold rho_0 in K. lra.
Qed.

(** [friction q] is lambda(Re) |q| q, in the laminar regime written without division by q. *)
Definition friction (q : R) : R :=
  if Rltb (coef * Rabs q) 2000 then 64 / coef * q else lam (coef * Rabs q) * Rabs q * q.
Definition fconst : R := - rho_0 / (2 * circle_area (/ 2 * d) * d).

Lemma source_ok u : source d k u = Ok (v2 0 (fconst * friction (u 1%nat) / u 0%nat)).
Proof.
  unfold source. rewrite Reynolds_val. change laminar_border with 2000. cbv zeta.
  unfold friction. destruct (Rltb (coef * Rabs (u 1%nat)) 2000) eqn:E.
  - fold fconst. f_equal. f_equal. change (coeff_of_Reynolds d) with coef. unfold Rdiv. ring.
  - apply Rltb_false in E. rewrite lambda_ok by lra. cbn [obind]. fold fconst. f_equal. f_equal.
    unfold Rdiv. ring.
Qed.

Lemma friction_lam q : q <> 0 -> friction q = lam (coef * Rabs q) * Rabs q * q.
Proof.
  intro H. unfold friction. destruct (Rltb (coef * Rabs q) 2000) eqn:E; [|auto].
  unfold lam. rewrite E. pose proof coef_pos. apply Rabs_pos_lt in H. field. lra.
Qed.

Lemma friction_odd q : friction (- q) = - friction q.
Proof. unfold friction. rewrite Rabs_Ropp. destruct (Rltb _ _); ring. Qed.

(** The implemented derivative of [friction]. *)
Definition dfriction (q : R) : R :=
  if Rltb (coef * Rabs q) 2000 then 64 / coef
  else dlam (coef * Rabs q) * (coef * (if Rltb 0 q then 1 else -1)) * Rabs q * q
       + lam (coef * Rabs q) * (if Rltb 0 q then 1 else -1) * q
       + lam (coef * Rabs q) * Rabs q.

Lemma dfriction_even q : dfriction (- q) = dfriction q.
Proof.
  unfold dfriction. rewrite Rabs_Ropp.
  destruct (Rltb (coef * Rabs q) 2000) eqn:E; [auto|].
  apply Rltb_false in E. pose proof coef_pos.
  assert (q <> 0) by (intros ->; rewrite Rabs_R0 in E; lra).
  reals_cases; try lra; ring.
Qed.

Definition fpoly (q : R) : R := poly (coef * q) * q * q.
Lemma fpoly_derive q : is_derive fpoly q (dpoly (coef * q) * coef * q * q + 2 * poly (coef * q) * q).
Proof.
  assert (D : is_derive (fun q => poly (coef * q)) q (dpoly (coef * q) * coef)).
  { apply (is_derive_along poly (fun q => coef * q) q (coef * q)); [auto|apply poly_derive|].
    auto_derive; [auto|ring]. }
  unfold fpoly. set (g := fun q => poly (coef * q)) in *.
  assert (E : ex_derive g q) by (eexists; exact D).
  change (is_derive (fun q => g q * q * q) q (dpoly (coef * q) * coef * q * q + 2 * poly (coef * q) * q)).
  auto_derive; [auto|].
  change (fun x : R => g x) with g. replace (Derive g q) with (dpoly (coef * q) * coef)
    by (symmetry; apply is_derive_unique; exact D).
  change (g q) with (poly (coef * q)). ring.
Qed.

Definition fsj (q : R) : R := sj (coef * q) * q * q.
Lemma fsj_derive q : 4000 <= coef * q + 1 -> is_derive fsj q (dsj (coef * q) * coef * q * q + 2 * sj (coef * q) * q).
Proof.
  intro Hq. assert (D : is_derive (fun q => sj (coef * q)) q (dsj (coef * q) * coef)).
  { apply (is_derive_along sj (fun q => coef * q) q (coef * q)); [auto|apply sj_derive; lra|].
    auto_derive; [auto|ring]. }
  unfold fsj. set (g := fun q => sj (coef * q)) in *.
  assert (E : ex_derive g q) by (eexists; exact D).
  change (is_derive (fun q => g q * q * q) q (dsj (coef * q) * coef * q * q + 2 * sj (coef * q) * q)).
  auto_derive; [auto|].
  change (fun x : R => g x) with g. replace (Derive g q) with (dsj (coef * q) * coef)
    by (symmetry; apply is_derive_unique; exact D).
  change (g q) with (sj (coef * q)). ring.
Qed.

Lemma scaled c q : coef * q < c <-> q < c / coef.
Proof.
  pose proof coef_pos as HC. split; intro H.
  - apply (Rmult_lt_reg_l coef); [auto|]. replace (coef * (c / coef)) with c by (field; lra). auto.
  - apply (Rmult_lt_compat_l coef) in H; [|lra]. replace (coef * (c / coef)) with c in H by (field; lra). auto.
Qed.

Lemma friction_laminar q : coef * Rabs q < 2000 -> friction q = 64 / coef * q.
Proof. intro H. unfold friction. replace (Rltb _ _) with true by (symmetry; apply Rltb_true; lra). auto. Qed.
Lemma friction_poly q : 0 <= q -> 2000 <= coef * q <= 4000 -> friction q = fpoly q.
Proof.
  intros Hq H. unfold friction. rewrite Rabs_pos_eq by auto.
  replace (Rltb (coef * q) 2000) with false by (symmetry; apply Rltb_false; lra).
  unfold lam, fpoly. reals_cases; lra.
Qed.
Lemma friction_sj q : 0 <= q -> 4000 < coef * q -> friction q = fsj q.
Proof.
  intros Hq H. unfold friction. rewrite Rabs_pos_eq by auto.
  replace (Rltb (coef * q) 2000) with false by (symmetry; apply Rltb_false; lra).
  unfold lam, fsj. reals_cases; lra.
Qed.

Lemma friction_derive_nonneg q : 0 <= q -> coef * q < 4000 -> is_derive friction q (dfriction q).
Proof.
  intros Hq H4. pose proof coef_pos as HC.
  set (q0 := 2000 / coef). set (q1 := 4000 / coef).
  assert (Hq0 : coef * q0 = 2000) by (unfold q0; field; lra).
  assert (Hq1 : coef * q1 = 4000) by (unfold q1; field; lra).
  assert (P0 : 0 < q0) by (apply Rdiv_lt_0_compat; lra).
  assert (P01 : q1 = 2 * q0) by (unfold q0, q1; field; lra).
  assert (DL : forall y, is_derive (fun q => 64 / coef * q) y (64 / coef)).
  { intro y. auto_derive; [auto|ring]. }
  assert (HL : forall y, - q0 < y < q0 -> friction y = 64 / coef * y).
  { intros y Hy. apply friction_laminar. rewrite <- Hq0. apply Rmult_lt_compat_l; [lra|]. apply Rabs_def1; lra. }
  assert (HP : forall y, q0 <= y <= q1 -> friction y = fpoly y).
  { intros y Hy. apply friction_poly; [lra|]. rewrite <- Hq0, <- Hq1. split; apply Rmult_le_compat_l; lra. }
  assert (S : q < q1) by (apply scaled; exact H4).
  destruct (Rtotal_order q q0) as [L|[L|L]].
  - replace (dfriction q) with (64 / coef).
    2:{ unfold dfriction. rewrite Rabs_pos_eq by auto.
        replace (Rltb (coef * q) 2000) with true by (symmetry; apply Rltb_true; apply scaled; auto). auto. }
    apply (is_derive_ext_near _ (fun q => 64 / coef * q) q (q0 - q)); [lra| |auto].
    intros y Hy. symmetry. apply HL. lra.
  - assert (DF : dfriction q = 64 / coef).
    { unfold dfriction. rewrite Rabs_pos_eq by auto. rewrite L, Hq0.
      replace (Rltb 2000 2000) with false by (symmetry; apply Rltb_false; lra).
      replace (Rltb 0 q0) with true by (symmetry; apply Rltb_true; lra).
      unfold dlam, lam. reals_cases; try lra. rewrite dpoly_laminar, poly_laminar.
      unfold q0. field. lra. }
    rewrite DF. rewrite L.
    apply (is_derive_glue _ (fun q => 64 / coef * q) fpoly q0 q0); [auto| | |auto|].
    + intros y Hy. destruct (Req_dec y q0) as [->|N].
      * rewrite HP by lra. unfold fpoly. rewrite Hq0, poly_laminar. unfold q0. field. lra.
      * apply HL. lra.
    + intros y Hy. apply HP. lra.
    + eapply is_derive_value; [apply fpoly_derive|].
      rewrite Hq0, dpoly_laminar, poly_laminar. unfold q0. field. lra.
  - assert (Hcq : 2000 < coef * q) by (rewrite <- Hq0; apply Rmult_lt_compat_l; lra).
    assert (DF : dfriction q = dpoly (coef * q) * coef * q * q + 2 * poly (coef * q) * q).
    { unfold dfriction. rewrite Rabs_pos_eq by auto.
      unfold dlam, lam. reals_cases; lra. }
    rewrite DF. apply (is_derive_ext_near _ fpoly q (Rmin (q - q0) (q1 - q))).
    + apply Rmin_glb_lt; lra.
    + intros y Hy. pose proof (Rmin_l (q - q0) (q1 - q)). pose proof (Rmin_r (q - q0) (q1 - q)).
      symmetry. apply HP. lra.
    + apply fpoly_derive.
Qed.

Lemma friction_derive q : coef * Rabs q < 4000 -> is_derive friction q (dfriction q).
Proof.
  intro H. destruct (Rle_dec 0 q) as [P|P].
  - apply friction_derive_nonneg; [auto|]. rewrite Rabs_pos_eq in H; auto.
  - rewrite Rabs_left1 in H by lra.
    assert (D : is_derive friction (- q) (dfriction (- q))) by (apply friction_derive_nonneg; lra).
    rewrite dfriction_even in D.
    apply (is_derive_ext (fun q => - friction (- q))).
    { intro t. rewrite friction_odd. apply Ropp_involutive. }
    eapply is_derive_value.
    + apply (is_derive_opp (fun q => friction (- q)) q). apply (is_derive_along friction Ropp q (- q)); [auto|exact D|].
      auto_derive; [auto|reflexivity].
    + unfold opp; cbn. ring.
Qed.

Lemma friction_turbulent_derive q : 0 < q -> 4000 < coef * q ->
  is_derive friction q (dsj (coef * q) * coef * q * q + 2 * sj (coef * q) * q).
Proof.
  intros Hq H. pose proof coef_pos as HC.
  set (q1 := 4000 / coef). assert (Hq1 : coef * q1 = 4000) by (unfold q1; field; lra).
  assert (q1 < q).
  { apply (Rmult_lt_reg_l coef); [auto|]. lra. }
  assert (0 < q1) by (apply Rdiv_lt_0_compat; lra).
  apply (is_derive_ext_near _ fsj q (q - q1)); [lra| |apply fsj_derive; lra].
  intros y Hy. symmetry. apply friction_sj; [lra|]. rewrite <- Hq1. apply Rmult_lt_compat_l; lra.
Qed.

Lemma friction_continuous q : continuous friction q.
Proof.
  pose proof coef_pos as HC.
  assert (Pos : forall q, 0 < q -> continuous friction q).
  { clear q. intros q Hq.
    apply (continuous_ext_near _ (fun q => lam (coef * q) * q * q) q q); [auto| |].
    - intros y Hy. rewrite friction_lam by lra. rewrite Rabs_pos_eq by lra. reflexivity.
    - assert (CL : continuous (fun q => lam (coef * q)) q).
      { apply (continuous_comp (fun q => coef * q) lam).
        - apply (ex_derive_continuous (fun q => coef * q)). auto_derive. auto.
        - apply lam_continuous. apply Rmult_lt_0_compat; auto. }
      apply (continuous_mult (fun q => lam (coef * q) * q) (fun q => q)); [|apply continuous_id].
      apply (continuous_mult (fun q => lam (coef * q)) (fun q => q)); [exact CL|apply continuous_id]. }
  destruct (Rtotal_order q 0) as [H|[H|H]]; [| |auto].
  - apply (continuous_ext (fun q => - friction (- q))).
    { intro t. rewrite friction_odd. apply Ropp_involutive. }
    apply (continuous_opp (fun q => friction (- q))).
    apply (continuous_comp Ropp friction).
    + apply (ex_derive_continuous Ropp). auto_derive. auto.
    + apply Pos. lra.
  - subst q. eapply is_derive_continuous. apply friction_derive. rewrite Rabs_R0. lra.
Qed.

(** ** dsource_dstate *)
Lemma dabs_ok q : / 10 ^ 13 <= Rabs q -> dabs_dx q = Ok (if Rltb 0 q then 1 else -1).
Proof.
  intro H. unfold dabs_dx.
  replace (Rltb (Rabs q) (/ 10 ^ 13)) with false by (symmetry; apply Rltb_false; lra).
  assert (0 < / 10 ^ 13) by (apply Rinv_0_lt_compat; apply pow_lt; lra).
  assert (q <> 0) by (intros ->; rewrite Rabs_R0 in H; lra).
  f_equal. reals_cases; lra.
Qed.

Lemma dsource_ok u : dsource_dstate d k u
  = Ok (m2 0 0 (- fconst * friction (u 1%nat) / (u 0%nat * u 0%nat))
               (fconst * dfriction (u 1%nat) / u 0%nat)).
Proof.
  unfold dsource_dstate. rewrite Reynolds_val. change laminar_border with 2000. cbv zeta.
  unfold friction, dfriction. destruct (Rltb (coef * Rabs (u 1%nat)) 2000) eqn:E.
  - f_equal. change (coeff_of_Reynolds d) with coef.
    unfold fconst, Rdiv. f_equal; ring.
  - apply Rltb_false in E. rewrite lambda_ok, dlambda_ok by lra. cbn [obind].
    unfold dReynolds_dq. rewrite Reynolds_val. change laminar_border with 2000. pose proof EPSILON_pos.
    replace (Rltb (coef * Rabs (u 1%nat)) (2000 - EPSILON)) with false by (symmetry; apply Rltb_false; lra).
    rewrite dabs_ok by (apply nonlaminar_flow; lra). cbn [obind].
    f_equal. change (d / (circle_area (/ 2 * d) * eta) * rho_0) with coef.
    unfold fconst, Rdiv. f_equal; ring.
Qed.

Lemma source_gradient u g :
  u 0%nat <> 0 -> is_derive friction (u 1%nat) g ->
  jacobian 2 2 (fun x => v2 0 (fconst * friction (x 1%nat) / x 0%nat)) u
    (m2 0 0 (- fconst * friction (u 1%nat) / (u 0%nat * u 0%nat)) (fconst * g / u 0%nat)).
Proof.
  intros Hu Hg' i Hi x s dx [Hx Hdx]. rewrite vsum2.
  specialize (Hx 0%nat) as Hx0. specialize (Hx 1%nat) as Hx1.
  specialize (Hdx 0%nat) as D0. specialize (Hdx 1%nat) as D1.
  destruct i as [|[|i]]; [| |lia]; cbn [v2 m2].
  - eapply is_derive_value; [apply (is_derive_const 0)|]. unfold zero; cbn. ring.
  - pose proof (is_derive_along friction (fun r => x r 1%nat) s (u 1%nat) _ _ Hx1 Hg' D1) as DF.
    set (ff := fun r => friction (x r 1%nat)) in *. set (rr := fun r => x r 0%nat) in *.
    change (is_derive (fun r => fconst * ff r / rr r) s
      (- fconst * friction (u 1%nat) / (u 0%nat * u 0%nat) * dx 0%nat + fconst * g / u 0%nat * dx 1%nat)).
    assert (E0 : ex_derive rr s) by (exists (dx 0%nat); exact D0).
    assert (E1 : ex_derive ff s) by (eexists; exact DF).
    auto_derive.
    + repeat split; auto. unfold rr. rewrite Hx0. exact Hu.
    + change (fun x0 : R => ff x0) with ff. change (fun x0 : R => rr x0) with rr.
      replace (Derive ff s) with (g * dx 1%nat) by (symmetry; apply is_derive_unique; exact DF).
      replace (Derive rr s) with (dx 0%nat) by (symmetry; apply is_derive_unique; exact D0).
      unfold ff, rr. rewrite Hx0, Hx1. field. exact Hu.
Qed.

End Geometry.
