(** Basic facts about the binary64 operations of Float64_Model, and the asserts about the end
    of a grid. *)
From Coq Require Import ZArith List Bool Reals Lra Lia.
From Flocq Require Import Core IEEE754.BinarySingleNaN Relative Plus_error.
From Verif Require Import Base Float64_Model.
Import ListNotations.
Local Open Scope R_scope.

Notation fexp64 := (FLT_exp (-1074) 53).
Notation rnd := (round radix2 fexp64 ZnearestE).
Notation fmt := (generic_format radix2 fexp64).

#[global] Instance prec53 : Prec_gt_0 53. Proof. reflexivity. Qed.
#[global] Instance valid64 : Valid_exp fexp64. Proof. apply FLT_exp_valid; exact prec53. Qed.
#[global] Instance mono64 : Monotone_exp fexp64. Proof. apply FLT_exp_monotone. Qed.

Notation V := (@B2R prec64 emax64).

Lemma fmt_V : forall x : double, fmt (V x).
Proof. intro x. apply (generic_format_B2R prec64 emax64). Qed.

Lemma fmt_bpow : forall e, (-1074 <= e)%Z -> fmt (bpow radix2 e).
Proof. intros e H. apply generic_format_FLT_bpow; [exact prec53 | exact H]. Qed.

Lemma rnd_id : forall x, fmt x -> rnd x = x.
Proof. intros x H. apply round_generic; [apply valid_rnd_N | exact H]. Qed.

Lemma rnd_mono : forall x y, x <= y -> rnd x <= rnd y.
Proof. intros x y H. apply round_le; [exact valid64 | apply valid_rnd_N | exact H]. Qed.

Lemma rnd_abs_le : forall x e, (-1074 <= e)%Z -> Rabs x <= bpow radix2 e ->
  Rabs (rnd x) <= bpow radix2 e.
Proof.
  intros x e He H. apply abs_round_le_generic; [exact valid64 | apply valid_rnd_N | | exact H].
  now apply fmt_bpow.
Qed.

Lemma V_bound : forall x : double, Rabs (V x) < bpow radix2 1024.
Proof. intro x. apply (abs_B2R_lt_emax prec64 emax64). Qed.

(** ** The operations on finite arguments, when the result stays in range *)

Lemma plus_range : forall x y : double, is_finite x = true -> is_finite y = true ->
  Rabs (rnd (V x + V y)) < bpow radix2 1024 ->
  is_finite (dplus x y) = true /\ V (dplus x y) = rnd (V x + V y).
Proof.
  intros x y Fx Fy B.
  pose proof (Bplus_correct prec64 emax64 eq_refl eq_refl mode_NE x y Fx Fy) as C.
  change (round radix2 (SpecFloat.fexp prec64 emax64) (round_mode mode_NE) (V x + V y))
    with (rnd (V x + V y)) in C.
  rewrite Rlt_bool_true in C by exact B. destruct C as (C1 & C2 & _). now split.
Qed.

Lemma minus_range : forall x y : double, is_finite x = true -> is_finite y = true ->
  Rabs (rnd (V x - V y)) < bpow radix2 1024 ->
  is_finite (dminus x y) = true /\ V (dminus x y) = rnd (V x - V y).
Proof.
  intros x y Fx Fy B.
  pose proof (Bminus_correct prec64 emax64 eq_refl eq_refl mode_NE x y Fx Fy) as C.
  change (round radix2 (SpecFloat.fexp prec64 emax64) (round_mode mode_NE) (V x - V y))
    with (rnd (V x - V y)) in C.
  rewrite Rlt_bool_true in C by exact B. destruct C as (C1 & C2 & _). now split.
Qed.

Lemma mult_range : forall x y : double, is_finite x = true -> is_finite y = true ->
  Rabs (rnd (V x * V y)) < bpow radix2 1024 ->
  is_finite (dmult x y) = true /\ V (dmult x y) = rnd (V x * V y).
Proof.
  intros x y Fx Fy B.
  pose proof (Bmult_correct prec64 emax64 eq_refl eq_refl mode_NE x y) as C.
  change (round radix2 (SpecFloat.fexp prec64 emax64) (round_mode mode_NE) (V x * V y))
    with (rnd (V x * V y)) in C.
  rewrite Rlt_bool_true in C by exact B. destruct C as (C1 & C2 & _).
  rewrite Fx, Fy in C2. now split.
Qed.

Lemma div_range : forall x y : double, is_finite x = true -> V y <> 0 ->
  Rabs (rnd (V x / V y)) < bpow radix2 1024 ->
  is_finite (ddiv x y) = true /\ V (ddiv x y) = rnd (V x / V y).
Proof.
  intros x y Fx Fy B.
  pose proof (Bdiv_correct prec64 emax64 eq_refl eq_refl mode_NE x y Fy) as C.
  change (round radix2 (SpecFloat.fexp prec64 emax64) (round_mode mode_NE) (V x / V y))
    with (rnd (V x / V y)) in C.
  rewrite Rlt_bool_true in C by exact B. destruct C as (C1 & C2 & _).
  rewrite Fx in C2. now split.
Qed.

Lemma range_of : forall r e, (-1074 <= e < 1024)%Z -> Rabs r <= bpow radix2 e ->
  Rabs (rnd r) < bpow radix2 1024.
Proof.
  intros r e He H. apply Rle_lt_trans with (bpow radix2 e).
  - apply rnd_abs_le; [lia | exact H].
  - apply bpow_lt. lia.
Qed.

(** ** Comparisons *)

Lemma dlt_val : forall x y : double, is_finite x = true -> is_finite y = true ->
  dlt x y = Rlt_bool (V x) (V y).
Proof. intros. now apply Bltb_correct. Qed.
Lemma dle_val : forall x y : double, is_finite x = true -> is_finite y = true ->
  dle x y = Rle_bool (V x) (V y).
Proof. intros. now apply Bleb_correct. Qed.

(** ** Integers and literals *)

Lemma lit_val : forall m e, Rabs (rnd (IZR m * bpow radix2 e)) < bpow radix2 1024 ->
  is_finite (lit m e) = true /\ V (lit m e) = rnd (IZR m * bpow radix2 e).
Proof.
  intros m e B.
  pose proof (binary_normalize_correct prec64 emax64 eq_refl eq_refl mode_NE m e false) as C.
  cbv zeta in C. unfold F2R in C. simpl Fnum in C. simpl Fexp in C.
  change (round radix2 (SpecFloat.fexp prec64 emax64) (round_mode mode_NE)
            (IZR m * bpow radix2 e)) with (rnd (IZR m * bpow radix2 e)) in C.
  rewrite Rlt_bool_true in C by exact B. destruct C as (C1 & C2 & _). now split.
Qed.

Lemma fmt_int : forall z, (Z.abs z <= 2 ^ 53)%Z -> fmt (IZR z).
Proof.
  intros z H.
  destruct (Z.eq_dec (Z.abs z) (2 ^ 53)) as [E|E].
  - assert (z = 2 ^ 53 \/ z = - 2 ^ 53)%Z as [->| ->] by lia.
    + change (IZR (2 ^ 53)) with (bpow radix2 53). apply fmt_bpow. lia.
    + rewrite opp_IZR. apply generic_format_opp.
      change (IZR (2 ^ 53)) with (bpow radix2 53). apply fmt_bpow. lia.
  - apply generic_format_FLT. exists (Float radix2 z 0).
    + unfold F2R. simpl. ring.
    + simpl. change (Z.pow_pos 2 53) with (2 ^ 53)%Z. lia.
    + simpl. lia.
Qed.

Lemma of_Z_val : forall z, (Z.abs z <= 2 ^ 53)%Z ->
  is_finite (of_Z z) = true /\ V (of_Z z) = IZR z.
Proof.
  intros z H.
  assert (B : Rabs (IZR z) <= bpow radix2 53).
  { rewrite <- abs_IZR. change (bpow radix2 53) with (IZR (2 ^ 53)). now apply IZR_le. }
  destruct (lit_val z 0) as (F & E).
  - apply range_of with 53%Z; [lia|]. simpl bpow. rewrite Rmult_1_r. exact B.
  - split; [exact F|]. unfold of_Z. fold (lit z 0). rewrite E. simpl bpow. rewrite Rmult_1_r.
    apply rnd_id. now apply fmt_int.
Qed.

(** ** EPSILON *)

Definition eps : R := IZR 7737125245533627 * bpow radix2 (-86).

Lemma eps_fin : is_finite EPSILON64 = true. Proof. reflexivity. Qed.
Lemma eps_val : V EPSILON64 = eps. Proof. reflexivity. Qed.

Lemma bpow_neg : forall e, (e < 0)%Z -> bpow radix2 e = / bpow radix2 (- e).
Proof. intros e H. rewrite <- (Z.opp_involutive e) at 1. apply bpow_opp. Qed.

Lemma eps_bounds : / 10000000001 < eps < / 9999999999.
Proof.
  unfold eps. rewrite bpow_neg by lia.
  change (bpow radix2 (- (-86))) with 77371252455336267181195264. lra.
Qed.

Lemma bpow_m33 : bpow radix2 (-33) = / 8589934592.
Proof. rewrite bpow_neg by lia. reflexivity. Qed.

Lemma eps_small : 0 < eps < bpow radix2 (-33).
Proof. pose proof eps_bounds. rewrite bpow_m33. lra. Qed.

(** ** Adding EPSILON to large numbers *)

Lemma ulp_large : forall x, bpow radix2 20 <= x -> bpow radix2 (-32) <= ulp radix2 fexp64 x.
Proof.
  intros x H. assert (P : 0 < bpow radix2 20) by apply bpow_gt_0.
  rewrite ulp_neq_0 by lra. apply bpow_le. unfold cexp, FLT_exp.
  assert (M : (21 <= mag radix2 x)%Z).
  { apply mag_ge_bpow. rewrite Rabs_pos_eq by lra. exact H. }
  lia.
Qed.

Lemma double_half : bpow radix2 (-32) = 2 * bpow radix2 (-33).
Proof. change (-32)%Z with (1 + -33)%Z. rewrite bpow_plus. reflexivity. Qed.

Lemma plus_eps_large : forall x, fmt x -> bpow radix2 20 <= x -> rnd (x + eps) <= x.
Proof.
  intros x F H. assert (P : 0 < bpow radix2 20) by apply bpow_gt_0.
  pose proof (ulp_large x H). pose proof eps_small. pose proof double_half.
  apply round_N_le_midp; [exact valid64 | exact F |].
  rewrite succ_eq_pos by lra. lra.
Qed.

Lemma minus_eps_large : forall x, fmt x -> bpow radix2 20 < x -> x <= rnd (x - eps).
Proof.
  intros x F H. assert (P : 0 < bpow radix2 20) by apply bpow_gt_0.
  assert (G : bpow radix2 20 <= pred radix2 fexp64 x).
  { apply pred_ge_gt; [exact valid64 | apply fmt_bpow; lia | exact F | exact H]. }
  pose proof (ulp_large _ G). pose proof eps_small. pose proof double_half.
  apply round_N_ge_midp; [exact valid64 | exact F |].
  assert (E : x = pred radix2 fexp64 x + ulp radix2 fexp64 (pred radix2 fexp64 x)).
  { rewrite <- succ_eq_pos by lra. symmetry. apply succ_pred; [exact valid64 | exact F]. }
  lra.
Qed.

Lemma bpow_20_1022 : bpow radix2 20 <= bpow radix2 1022.
Proof. apply bpow_le. lia. Qed.

Lemma one_le : 1 <= bpow radix2 1022.
Proof. change 1 with (bpow radix2 0). apply bpow_le. lia. Qed.

Lemma eps_range : forall x, fmt x -> Rabs x < bpow radix2 1024 ->
  Rabs (rnd (x + eps)) < bpow radix2 1024 /\ Rabs (rnd (x - eps)) < bpow radix2 1024.
Proof.
  intros x F B.
  pose proof eps_small as Es. pose proof eps_bounds as Eb. pose proof one_le as O.
  assert (D : bpow radix2 1023 = 2 * bpow radix2 1022)
    by (change 1023%Z with (1 + 1022)%Z; rewrite bpow_plus; reflexivity).
  destruct (Rle_or_lt (Rabs x) (bpow radix2 1022)) as [L|L].
  - split; (apply range_of with 1023%Z; [lia|]).
    + eapply Rle_trans; [apply Rabs_triang|]. rewrite (Rabs_pos_eq eps) by lra. lra.
    + unfold Rminus. eapply Rle_trans; [apply Rabs_triang|].
      rewrite Rabs_Ropp, (Rabs_pos_eq eps) by lra. lra.
  - pose proof bpow_20_1022 as T.
    assert (Up : forall y, fmt y -> bpow radix2 1022 < y -> y < bpow radix2 1024 ->
      Rabs (rnd (y + eps)) < bpow radix2 1024 /\ Rabs (rnd (y - eps)) < bpow radix2 1024).
    { intros y Fy Ly By.
      assert (rnd 0 <= rnd (y + eps)) by (apply rnd_mono; lra).
      assert (rnd 0 <= rnd (y - eps)) by (apply rnd_mono; lra).
      assert (rnd (y - eps) <= rnd y) by (apply rnd_mono; lra).
      rewrite (rnd_id y Fy) in *. rewrite round_0 in * by apply valid_rnd_N.
      pose proof (plus_eps_large y Fy). split; rewrite Rabs_pos_eq by lra; lra. }
    unfold Rabs in B, L. destruct (Rcase_abs x) as [N|N].
    + destruct (Up (- x)) as (U1 & U2);
        [apply generic_format_opp; exact F | exact L | exact B |].
      split.
      * replace (x + eps) with (- (- x - eps)) by ring.
        rewrite round_NE_opp, Rabs_Ropp. exact U2.
      * replace (x - eps) with (- (- x + eps)) by ring.
        rewrite round_NE_opp, Rabs_Ropp. exact U1.
    + now apply Up.
Qed.

Lemma plus_eps : forall x : double, is_finite x = true ->
  is_finite (dplus x EPSILON64) = true /\ V (dplus x EPSILON64) = rnd (V x + eps).
Proof.
  intros x F. rewrite <- eps_val. apply plus_range; [exact F | exact eps_fin |].
  rewrite eps_val. apply eps_range; [apply fmt_V | apply V_bound].
Qed.

Lemma minus_eps : forall x : double, is_finite x = true ->
  is_finite (dminus x EPSILON64) = true /\ V (dminus x EPSILON64) = rnd (V x - eps).
Proof.
  intros x F. rewrite <- eps_val. apply minus_range; [exact F | exact eps_fin |].
  rewrite eps_val. apply eps_range; [apply fmt_V | apply V_bound].
Qed.

(** No double at all satisfies both end asserts for a late end point. *)
Lemma no_near_late : forall x last : double, is_finite last = true ->
  bpow radix2 20 < V last ->
  dlt (dminus x EPSILON64) last && dlt last (dplus x EPSILON64) = false.
Proof.
  intros x last Fl L.
  destruct (is_finite x) eqn:Fx.
  - destruct (plus_eps x Fx) as (F1 & V1). destruct (minus_eps x Fx) as (F2 & V2).
    rewrite !dlt_val by assumption. rewrite V1, V2.
    destruct (Rle_or_lt (V last) (V x)) as [C|C].
    + pose proof (minus_eps_large (V x) (fmt_V x) ltac:(lra)).
      rewrite (Rlt_bool_false (rnd (V x - eps))) by lra. reflexivity.
    + assert (rnd (V x + eps) <= V last).
      { destruct (Rle_or_lt (bpow radix2 20) (V x)) as [D|D].
        - pose proof (plus_eps_large (V x) (fmt_V x) D). lra.
        - assert (rnd (V x + eps) <= rnd (bpow radix2 20 + eps)) by (apply rnd_mono; lra).
          pose proof (plus_eps_large (bpow radix2 20) (fmt_bpow 20 ltac:(lia)) (Rle_refl _)).
          lra. }
      rewrite (Rlt_bool_false (V last)) by lra. apply andb_false_r.
  - destruct x as [s|[]| |s m e H]; try discriminate Fx.
    + (* -inf *) change (dplus (B754_infinity true) EPSILON64) with (@B754_infinity prec64 emax64 true).
      destruct last as [[]|[]| |[] ? ? ?]; try discriminate Fl; apply andb_false_r.
    + (* +inf *) change (dminus (B754_infinity false) EPSILON64) with (@B754_infinity prec64 emax64 false).
      destruct last as [[]|[]| |[] ? ? ?]; try discriminate Fl; reflexivity.
    + reflexivity.
Qed.
