(** * The iterated friction factor: C81

    Claim C81: exact_turbulent_lambda returns the solution of the Colebrook-White equation, up to
    the tolerance 1e-12 of its loop. *)
From Coq Require Import Reals Lra Lia Psatz.
From Coquelicot Require Import Coquelicot.
From Verif Require Import Base Interp_Model Interp_Proofs Euler_Model Colebrook_Model Colebrook_Spec
  Colebrook_Proofs Colebrook_Proofs2.
Local Open Scope R_scope.

(** Smaller Reynolds numbers are rejected. *)
Theorem C81_rejects : forall Re diameter roughness, Re < 4000 - / 10 ^ 10 ->
  exact_turbulent_lambda Re diameter roughness = Exc.
Proof.
  intros Re D k H. unfold exact_turbulent_lambda, turbulent_border, EPSILON, Rltb.
  destruct (Rlt_dec _ _); [reflexivity|lra].
Qed.
Print Assumptions C81_rejects.

(** The equation has exactly one solution l.  The result lies on its upper side, and 1 / sqrt differs
    by at most the square of the residual of the Swamee-Jain start value.  Missing for the claim:
    the bound 1e-12, which is false in general. *)
Theorem C81_near_partial : forall Re diameter roughness, turbulent_pipe Re diameter roughness ->
  exists r s l,
    exact_turbulent_lambda Re diameter roughness = Ok r /\
    Swamee_Jain Re diameter roughness = Ok s /\
    colebrook Re diameter roughness l /\
    (forall l', colebrook Re diameter roughness l' -> l' = l) /\
    l <= r /\
    0 <= / sqrt l - / sqrt r <= colebrook_residual Re diameter roughness s ^ 2 /\
    - (colebrook_residual Re diameter roughness s ^ 2) <= colebrook_residual Re diameter roughness r <= 0.
Proof.
  intros Re D k T. destruct (result_main Re D k T) as (mu0 & mu & S & E & R0 & M0 & M & F & Q).
  pose proof T as (HR & HD & Hk).
  rewrite <- !(residual_mu Re D k) in * by assumption.
  set (r := 1 / (mu * mu)) in *. set (s := 1 / (mu0 * mu0)) in *.
  set (a := 251 / 100 / Re). set (b := k / (371 / 100 * D)).
  assert (Ha : 0 < a) by (unfold a; apply Rdiv_lt_0_compat; lra).
  assert (Hb : 0 <= b) by (unfold b; apply Rmult_le_pos; [lra|]; left; apply Rinv_0_lt_compat; lra).
  assert (GR : forall x, 0 < x -> colebrook_residual Re D k (1 / (x * x)) = g a b x).
  { intros x X. rewrite residual_mu, model_f by assumption. reflexivity. }
  assert (G : g a b mu <= 0) by (rewrite <- GR by assumption; exact F).
  (* the exact root *)
  assert (EX : exists x, mu <= x <= mu - g a b mu /\ g a b x = 0).
  { destruct (Req_dec (g a b mu) 0) as [Z|Z]; [exists mu; split; [lra|exact Z]|].
    assert (N : g a b mu < 0) by lra.
    pose proof (g_increasing a b Ha Hb mu (mu - g a b mu) M ltac:(lra)) as I.
    destruct (IVT_gen (fun x => g a b (Rmax x (mu / 2))) mu (mu - g a b mu) 0) as (x & X & Y).
    - intro x. apply continuity_pt_filterlim.
      apply (continuous_comp (fun x => Rmax x (mu / 2)) (g a b)).
      + apply continuity_pt_filterlim. 
        assert (CM : continuity_pt (fun x => (x + mu / 2 + Rabs (x - mu / 2)) / 2) x).
        { reg. }
        apply (continuity_pt_ext (fun x => (x + mu / 2 + Rabs (x - mu / 2)) / 2)); [|exact CM].
        intro t. unfold Rmax. destruct (Rle_dec t (mu / 2)); unfold Rabs; destruct (Rcase_abs _); lra.
      + apply g_cont; try assumption. pose proof (Rmax_r x (mu / 2)). lra.
    - rewrite !Rmax_left by lra. rewrite Rmin_left, Rmax_right by lra. lra.
    - rewrite Rmin_left, Rmax_right in X by lra. rewrite Rmax_left in Y by lra. exists x. split; assumption. }
  destruct EX as (x & X & GX). assert (X0 : 0 < x) by lra.
  assert (SQ : forall t, 0 < t -> / sqrt (1 / (t * t)) = t).
  { intros t Ht. replace (1 / (t * t)) with ((/ t) * (/ t)) by (field; lra).
    rewrite sqrt_square by (left; apply Rinv_0_lt_compat; lra). apply Rinv_inv. }
  exists r, s, (1 / (x * x)). split; [exact E|]. split; [exact S|]. split; [|split; [|split; [|split]]].
  - split; [apply Rdiv_lt_0_compat; nra|]. rewrite GR by assumption. exact GX.
  - intros l' (P' & Z'). set (y := / sqrt l').
    assert (Y0 : 0 < y) by (unfold y; apply Rinv_0_lt_compat, sqrt_lt_R0; assumption).
    assert (EL : l' = 1 / (y * y)).
    { unfold y. pose proof (sqrt_lt_R0 l' P'). rewrite <- (sqrt_sqrt l') at 1 by lra. field. lra. }
    rewrite EL in Z'. rewrite GR in Z' by assumption. rewrite EL.
    destruct (Rtotal_order x y) as [L|[->|L]]; [|reflexivity|].
    + pose proof (g_increasing a b Ha Hb x y X0 L). lra.
    + pose proof (g_increasing a b Ha Hb y x Y0 L). lra.
  - unfold r. unfold Rdiv. rewrite !Rmult_1_l. apply Rinv_le_contravar; nra.
  - unfold r at 1 2. rewrite !SQ by assumption. simpl. rewrite <- GR in X by assumption. fold r in X. lra.
  - simpl. lra.
Qed.
Print Assumptions C81_near_partial.
Example C81_case : turbulent_pipe 100000 (1 / 2) (1 / 10000).
Proof. unfold turbulent_pipe. assert (0 < / 10 ^ 10) by (apply Rinv_0_lt_compat, pow_lt; lra). lra. Qed.

(** A smooth pipe at Reynolds number 3.2e7: the loop stops after one step since f is negative, the
    residual of the result exceeds 1e-6. *)
Theorem C81_tolerance_refuted : exists Re diameter roughness r,
  turbulent_pipe Re diameter roughness /\
  exact_turbulent_lambda Re diameter roughness = Ok r /\
  / 10 ^ 6 < Rabs (colebrook_residual Re diameter roughness r).
Proof.
  set (y := Rpower 5740000 (/ 9)). set (Re := y ^ 10).
  assert (Y : 0 < y) by apply exp_pos.
  assert (Y9 : y ^ 9 = 5740000).
  { unfold y. rewrite <- Rpower_pow by apply exp_pos. rewrite Rpower_mult.
    replace (/ 9 * INR 9) with 1 by (simpl; lra). apply Rpower_1. lra. }
  assert (Y1 : 56 / 10 < y).
  { destruct (Rlt_dec (56 / 10) y) as [|N]; [assumption|exfalso].
    assert (y ^ 9 <= (56 / 10) ^ 9) by (apply pow_incr; lra).
    assert ((56 / 10) ^ 9 < 5740000) by (simpl; lra). lra. }
  assert (ER : Re = y * 5740000) by (unfold Re; rewrite <- Y9; ring).
  assert (E10 : / 10 ^ 10 < 1). { rewrite <- Rinv_1. apply Rinv_lt_contravar; simpl; lra. }
  assert (P10 : 0 < / 10 ^ 10) by (apply Rinv_0_lt_compat, pow_lt; lra).
  assert (T : turbulent_pipe Re 1 0) by (unfold turbulent_pipe; lra).
  exists Re, 1, 0.
  destruct (start_value Re 1 0 T) as (R0 & M & I & U & _).
  destruct (Swamee_ok Re 1 0 T) as (l0 & S & Q & _).
  assert (A : arg Re 1 0 = / 10 ^ 6).
  { unfold arg. destruct (tenth_root Re R0) as (y' & Y' & E1 & E2). rewrite E2.
    assert (y' = y).
    { destruct (Rtotal_order y' y) as [L|[L|L]]; [|assumption|].
      - assert (y' ^ 10 < y ^ 10); [|unfold Re in E1; lra].
        rewrite <- !Rpower_pow by assumption. apply Rlt_Rpower_l; [simpl; lra|lra].
      - assert (y ^ 10 < y' ^ 10); [|unfold Re in E1; lra].
        rewrite <- !Rpower_pow by assumption. apply Rlt_Rpower_l; [simpl; lra|lra]. }
    subst y'. rewrite Y9. simpl. lra. }
  assert (MU : - (cc * ln (arg Re 1 0)) = 12).
  { rewrite A, ln_Rinv by (apply pow_lt; lra). rewrite Rcomplements.ln_pow by lra. unfold cc.
    pose proof ln10_lo. simpl INR. field. lra. }
  rewrite MU in *.
  set (a := 251 / 100 / Re). assert (Ha : 0 < a) by (unfold a; apply Rdiv_lt_0_compat; lra).
  assert (B0 : 0 / (371 / 100 * 1) = 0) by lra.
  pose proof cc_bounds as C. pose proof ln10_lo as L1. pose proof ln10_up as L2.
  assert (G0 : g a 0 12 <= - (3 / 100)).
  { unfold g, inn. rewrite Rplus_0_r.
    assert (IA : a * 12 <= 94 / 100 * / 10 ^ 6 * (1 + 2 / 1000)).
    { unfold a. rewrite ER. replace (251 / 100 / (y * 5740000) * 12) with (/ y * (3012 / 574000000)) by (field; lra).
      assert (/ y <= 10 / 56). { replace (10 / 56) with (/ (56 / 10)) by lra. apply Rinv_le_contravar; lra. }
      simpl. lra. }
    assert (P : 0 < a * 12) by lra.
    assert (L : ln (a * 12) <= ln (94 / 100 * (1 + 2 / 1000)) + ln (/ 10 ^ 6)).
    { rewrite <- ln_mult; [|lra|apply Rinv_0_lt_compat, pow_lt; lra]. apply Rcomplements.ln_le; [assumption|lra]. }
    rewrite ln_Rinv in L by (apply pow_lt; lra). rewrite Rcomplements.ln_pow in L by lra.
    replace (INR 6) with 6 in L by (simpl; lra).
    pose proof (ln_le_sub (94 / 100 * (1 + 2 / 1000)) ltac:(lra)).
    assert (cc * ln 10 = 2) by (unfold cc; field; lra). nra. }
  set (mu := nstep a 0 12).
  exists (1 / (mu * mu)).
  assert (G00 : g a 0 12 <= 0) by lra.
  destruct (step_pos a 0 Ha (Rle_refl 0) 12 ltac:(lra) (or_intror G00)) as (P1 & W1).
  split; [exact T|]. split.
  - unfold exact_turbulent_lambda, turbulent_border, EPSILON, Rltb at 1.
    destruct (Rlt_dec _ _); [lra|]. rewrite S. cbn [obind]. rewrite Q. cbv zeta.
    rewrite (loop_steps Re 1 0 12 R0 ltac:(lra) ltac:(lra) ltac:(lra) I). fold a. rewrite B0.
    rewrite model_f. fold a. rewrite B0. unfold Rltb. destruct (Rlt_dec _ _) as [|N]; [reflexivity|].
    exfalso. apply N. assert (0 < / 10 ^ 12) by (apply Rinv_0_lt_compat, pow_lt; lra). lra.
  - rewrite residual_mu by assumption. rewrite model_f. fold a. rewrite B0. unfold mu.
    rewrite (g_step a 0 Ha (Rle_refl 0)) by (assumption || lra).
    pose proof (g_rel a 0 Ha (Rle_refl 0) 12 ltac:(lra)) as GR. unfold inn in GR. rewrite Rplus_0_r in GR.
    set (w := rel a 0 12) in *.
    assert (WG : w * (12 + cc) = g a 0 12) by (apply (Rmult_eq_reg_l a); [lra|lra]).
    assert (W0 : w <= - (23 / 10000)).
    { destruct (Rle_dec w (- (23 / 10000))) as [|N]; [assumption|exfalso]. nra. }
    (* w is not below -1 : g >= -12.91 *)
    assert (WL : -1 <= w).
    { 
      assert (LG : - 12 <= g a 0 12).
      { unfold g, inn. rewrite Rplus_0_r.
        assert (YU : y < 6).
        { destruct (Rlt_dec y 6) as [|N]; [assumption|exfalso].
          assert (6 ^ 9 <= y ^ 9) by (apply pow_incr; lra). simpl in H. simpl in Y9. lra. }
        assert (IA : / 10 ^ 7 <= a * 12).
        { unfold a. rewrite ER. replace (251 / 100 / (y * 5740000) * 12) with (/ y * (3012 / 574000000)) by (field; lra).
          assert (/ 6 <= / y) by (apply Rinv_le_contravar; lra). simpl. lra. }
        assert (LL : ln (/ 10 ^ 7) <= ln (a * 12)).
        { apply Rcomplements.ln_le; [apply Rinv_0_lt_compat, pow_lt; lra|exact IA]. }
        rewrite ln_Rinv in LL by (apply pow_lt; lra). rewrite Rcomplements.ln_pow in LL by lra.
        replace (INR 7) with 7 in LL by (simpl; lra).
        assert (cc * ln 10 = 2) by (unfold cc; field; lra). nra. }
      destruct (Rle_dec (-1) w) as [|N]; [assumption|exfalso]. nra. }
    pose proof (ln_upper_pos (- w) ltac:(lra)) as LU. replace (1 + - w) with (1 - w) in LU by ring.
    assert (WW : 23 / 10000 * (23 / 10000) <= - w * - w) by (apply Rmult_le_compat; lra).
    assert (V : cc * (ln (1 - w) + w) <= 8 / 10 * - (23 / 10000 * (23 / 10000) / 4)) by nra.
    rewrite Rabs_left1 by lra. assert (/ 10 ^ 6 = 1 / 1000000) by (simpl; lra). lra.
Qed.
Print Assumptions C81_tolerance_refuted.
