(** * Newton's method for the Colebrook-White equation *)
From Coq Require Import Reals Lra Lia Psatz.
From Coquelicot Require Import Coquelicot.
From Verif Require Import Base Interp_Model Interp_Proofs Euler_Model Colebrook_Model Colebrook_Spec.
Local Open Scope R_scope.

(** ** Logarithms *)
Lemma ln_le_sub x : 0 < x -> ln x <= x - 1.
Proof.
  intro H. destruct (Req_dec x 1) as [->|N]; [rewrite ln_1; lra|].
  pose proof (exp_ineq1 (ln x)) as E. rewrite exp_ln in E by assumption.
  assert (ln x <> 0). { intro K. apply N. rewrite <- (exp_ln x H), K. apply exp_0. }
  specialize (E H0). lra.
Qed.
Lemma ln_le_scaled x c : 0 < x -> 0 < c -> ln x <= x / c - 1 + ln c.
Proof.
  intros H C. replace x with (x / c * c) at 1 by (field; lra).
  assert (0 < x / c) by (apply Rdiv_lt_0_compat; assumption).
  rewrite ln_mult by assumption. pose proof (ln_le_sub (x / c) H0). lra.
Qed.
(** For -x: ln (1 + x) >= x - x^2 / 2 for x >= 0. *)
Lemma ln_lower_pos x : 0 <= x -> x - x * x / 2 <= ln (1 + x).
Proof.
  intro H. destruct (Req_dec x 0) as [->|N]; [rewrite Rplus_0_r, ln_1; lra|].
  destruct (MVT_gen (fun t => ln (1 + t) - t + t * t / 2) 0 x (fun t => / (1 + t) - 1 + t)) as (c & C & E).
  - intros t T. rewrite Rmin_left, Rmax_right in T by lra. auto_derive; [lra|]. field. lra.
  - intros t T. rewrite Rmin_left, Rmax_right in T by lra.
    apply continuity_pt_filterlim, (ex_derive_continuous (fun t => ln (1 + t) - t + t * t / 2)).
    auto_derive. lra.
  - rewrite Rmin_left, Rmax_right in C by lra. cbv beta in E. rewrite Rplus_0_r, ln_1 in E.
    assert (0 <= / (1 + c) - 1 + c).
    { replace (/ (1 + c) - 1 + c) with (c * c / (1 + c)) by (field; lra).
      apply Rmult_le_pos; [nra|]. left. apply Rinv_0_lt_compat. lra. }
    nra.
Qed.
(** ln (1 + x) <= x - x^2 / 4 for 0 <= x <= 1. *)
Lemma ln_upper_pos x : 0 <= x <= 1 -> ln (1 + x) <= x - x * x / 4.
Proof.
  intro H. destruct (Req_dec x 0) as [->|N]; [rewrite Rplus_0_r, ln_1; lra|].
  destruct (MVT_gen (fun t => ln (1 + t) - t + t * t / 4) 0 x (fun t => / (1 + t) - 1 + t / 2)) as (c & C & E).
  - intros t T. rewrite Rmin_left, Rmax_right in T by lra. auto_derive; [lra|]. field. lra.
  - intros t T. rewrite Rmin_left, Rmax_right in T by lra.
    apply continuity_pt_filterlim, (ex_derive_continuous (fun t => ln (1 + t) - t + t * t / 4)).
    auto_derive. lra.
  - rewrite Rmin_left, Rmax_right in C by lra. cbv beta in E. rewrite Rplus_0_r, ln_1 in E.
    assert (/ (1 + c) - 1 + c / 2 <= 0).
    { replace (/ (1 + c) - 1 + c / 2) with (- (c * (1 - c) / (2 * (1 + c)))) by (field; lra).
      assert (0 <= c * (1 - c) / (2 * (1 + c))); [|lra].
      apply Rmult_le_pos; [nra|]. left. apply Rinv_0_lt_compat. lra. }
    nra.
Qed.
(** ln (1 - x) >= - x - x^2 for 0 <= x <= 1/2. *)
Lemma ln_lower_neg x : 0 <= x <= / 2 -> - x - x * x <= ln (1 - x).
Proof.
  intro H. destruct (Req_dec x 0) as [->|N]; [rewrite Rminus_0_r, ln_1; lra|].
  destruct (MVT_gen (fun t => ln (1 - t) + t + t * t) 0 x (fun t => - / (1 - t) + 1 + 2 * t)) as (c & C & E).
  - intros t T. rewrite Rmin_left, Rmax_right in T by lra. auto_derive; [lra|]. field. lra.
  - intros t T. rewrite Rmin_left, Rmax_right in T by lra.
    apply continuity_pt_filterlim, (ex_derive_continuous (fun t => ln (1 - t) + t + t * t)).
    auto_derive. lra.
  - rewrite Rmin_left, Rmax_right in C by lra. cbv beta in E. rewrite Rminus_0_r, ln_1 in E.
    assert (0 <= - / (1 - c) + 1 + 2 * c).
    { replace (- / (1 - c) + 1 + 2 * c) with (c * (1 - 2 * c) / (1 - c)) by (field; lra).
      apply Rmult_le_pos; [nra|]. left. apply Rinv_0_lt_compat. lra. }
    nra.
Qed.

Lemma pow_ln_le a b m n : 0 < a -> 0 < b -> a ^ m <= b ^ n -> INR m * ln a <= INR n * ln b.
Proof.
  intros A B H. rewrite <- !Rcomplements.ln_pow by assumption.
  apply Rcomplements.ln_le; [apply pow_lt; assumption|exact H].
Qed.

Lemma exp1_up : exp 1 < 28 / 10.
Proof.
  (* 1 = 10 ln (e^(1/10)) and e^(-1/10) >= 9/10 *)
  pose proof (exp_ineq1 (- / 10) ltac:(lra)) as E.
  assert (P : exp 1 = (/ exp (- / 10)) ^ 10).
  { rewrite <- exp_Ropp, Ropp_involutive. rewrite <- Rpower_pow by apply exp_pos. unfold Rpower.
    rewrite ln_exp. f_equal. simpl. lra. }
  assert (B : exp 1 <= (10 / 9) ^ 10).
  { rewrite P. apply pow_incr. split; [left; apply Rinv_0_lt_compat, exp_pos|].
    replace (10 / 9) with (/ (9 / 10)) by lra. apply Rinv_le_contravar; lra. }
  (* (10/9)^10 = 2.868 is not enough: use 1/100 *)
  clear P B E.
  pose proof (exp_ineq1 (- / 100) ltac:(lra)) as E.
  assert (P : exp 1 = (/ exp (- / 100)) ^ 100).
  { rewrite <- exp_Ropp, Ropp_involutive. rewrite <- Rpower_pow by apply exp_pos. unfold Rpower.
    rewrite ln_exp. f_equal. rewrite INR_IZR_INZ. simpl. lra. }
  assert (B : exp 1 <= (100 / 99) ^ 100).
  { rewrite P. apply pow_incr. split; [left; apply Rinv_0_lt_compat, exp_pos|].
    replace (100 / 99) with (/ (99 / 100)) by lra. apply Rinv_le_contravar; lra. }
  eapply Rle_lt_trans; [exact B|]. simpl. lra.
Qed.
Lemma ln10_lo : 22 / 10 < ln 10.
Proof.
  (* e^11 < 2.8^11 = 82985 < 10^5 *)
  assert (H : ln (28 / 10) * 11 < ln 10 * 5).
  { replace 11 with (INR 11) by (simpl; lra). replace 5 with (INR 5) by (simpl; lra).
    rewrite !(Rmult_comm (ln _)), <- !Rcomplements.ln_pow by lra. apply ln_increasing; simpl; lra. }
  assert (1 < ln (28 / 10)).
  { rewrite <- (ln_exp 1). apply ln_increasing; [apply exp_pos|apply exp1_up]. }
  lra.
Qed.
Lemma exp1_lo : 26 / 10 < exp 1.
Proof.
  pose proof (exp_ineq1 (/ 100) ltac:(lra)) as E.
  assert (P : exp 1 = (exp (/ 100)) ^ 100).
  { rewrite <- Rpower_pow by apply exp_pos. unfold Rpower.
    rewrite ln_exp. f_equal. rewrite INR_IZR_INZ. simpl. lra. }
  rewrite P. eapply Rlt_le_trans; [|apply pow_incr; split; [|left; exact E]; lra]. simpl. lra.
Qed.
Lemma ln10_up : ln 10 < 25 / 10.
Proof.
  assert (H : ln 10 * 2 < ln (26 / 10) * 5).
  { replace 2 with (INR 2) by (simpl; lra). replace 5 with (INR 5) by (simpl; lra).
    rewrite !(Rmult_comm (ln _)), <- !Rcomplements.ln_pow by lra. apply ln_increasing; simpl; lra. }
  assert (ln (26 / 10) < 1).
  { rewrite <- (ln_exp 1). apply ln_increasing; [lra|apply exp1_lo]. }
  lra.
Qed.
