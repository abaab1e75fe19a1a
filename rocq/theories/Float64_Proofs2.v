(** Rounding errors of the grid computations. *)
From Coq Require Import ZArith List Bool Reals Lra Lia.
From Flocq Require Import Core IEEE754.BinarySingleNaN Relative Plus_error.
From Verif Require Import Base Float64_Model Float64_Proofs.
Import ListNotations.
Local Open Scope R_scope.

(** The unit roundoff 2^-53 and half the smallest positive double. *)
Definition u : R := bpow radix2 (-53).
Definition eta : R := bpow radix2 (-1075).

Lemma u_val : u = / 9007199254740992.
Proof. unfold u. rewrite bpow_neg by lia. reflexivity. Qed.

Lemma u_ro_u : u_ro radix2 53 = u.
Proof.
  rewrite u_val. unfold u_ro. rewrite bpow_neg by lia.
  change (bpow radix2 (- (- (53) + 1))) with 4503599627370496. lra.
Qed.

Lemma eta_eq : / 2 * bpow radix2 (-1074) = eta.
Proof.
  unfold eta. replace (bpow radix2 (-1074)) with (bpow radix2 1 * bpow radix2 (-1075))
    by (rewrite <- bpow_plus; reflexivity).
  change (bpow radix2 1) with 2. lra.
Qed.

Lemma eta_pos : 0 < eta. Proof. apply bpow_gt_0. Qed.

Lemma eta_small : forall z, 0 <= z <= bpow radix2 53 -> 0 <= z * eta <= bpow radix2 (-1000).
Proof.
  intros z H. pose proof eta_pos. split; [apply Rmult_le_pos; lra|].
  apply Rle_trans with (bpow radix2 53 * eta).
  - apply Rmult_le_compat_r; lra.
  - unfold eta. rewrite <- bpow_plus. apply bpow_le. lia.
Qed.

Lemma tiny_val : 0 < bpow radix2 (-1000) < / 1000000000000000000000000000000.
Proof.
  split; [apply bpow_gt_0|].
  apply Rle_lt_trans with (bpow radix2 (-110)); [apply bpow_le; lia|].
  rewrite bpow_neg by lia. change (bpow radix2 (- (-110))) with (IZR (2 ^ 110)).
  apply Rinv_lt_contravar.
  - rewrite <- mult_IZR. apply (IZR_lt 0). reflexivity.
  - apply IZR_lt. reflexivity.
Qed.

Lemma err : forall x, Rabs (rnd x - x) <= u * Rabs x + eta.
Proof.
  intro x.
  destruct (error_N_FLT radix2 (-1074) 53 eq_refl (fun n => negb (Z.even n)) x)
    as (e & h & He & Hh & _ & E).
  fold (u_ro radix2 53) in He. rewrite u_ro_u in He. rewrite eta_eq in Hh.
  rewrite E. replace (x * (1 + e) + h - x) with (e * x + h) by ring.
  eapply Rle_trans; [apply Rabs_triang|]. rewrite Rabs_mult.
  apply Rplus_le_compat; [apply Rmult_le_compat_r; [apply Rabs_pos | exact He] | exact Hh].
Qed.

Lemma err_plus : forall x y, fmt x -> fmt y -> Rabs (rnd (x + y) - (x + y)) <= u * Rabs (x + y).
Proof.
  intros x y Fx Fy.
  destruct (FLT_plus_error_N_ex radix2 (-1074) 53 (fun n => negb (Z.even n)) x y Fx Fy)
    as (e & He & E).
  rewrite E. replace ((x + y) * (1 + e) - (x + y)) with (e * (x + y)) by ring.
  rewrite Rabs_mult. apply Rmult_le_compat_r; [apply Rabs_pos|].
  eapply Rle_trans; [exact He|]. rewrite <- u_ro_u. apply u_rod1pu_ro_le_u_ro.
Qed.

Lemma err_minus : forall x y, fmt x -> fmt y -> Rabs (rnd (x - y) - (x - y)) <= u * Rabs (x - y).
Proof. intros x y Fx Fy. apply (err_plus x (- y)); [exact Fx | now apply generic_format_opp]. Qed.

Lemma abs_diff : forall x y e, Rabs (x - y) <= e -> y - e <= x <= y + e.
Proof. intros x y e H. apply Rabs_le_inv in H. lra. Qed.

Lemma two_pow : forall k, (0 <= k)%Z -> bpow radix2 k = IZR (2 ^ k).
Proof. intros [|p|p] H; [reflexivity | reflexivity | lia]. Qed.

Lemma range_1000 : forall r, Rabs r <= 1000000000000 -> Rabs (rnd r) < bpow radix2 1024.
Proof.
  intros r H. apply range_of with 40%Z; [lia|]. eapply Rle_trans; [exact H|].
  rewrite two_pow by lia. apply IZR_le. lia.
Qed.

(** Values of the quantities in the grid computation: step, product and end point. *)
Lemma grid_quantities : forall (first last : double) (k : Z),
  is_finite first = true -> is_finite last = true ->
  0 <= V first < V last -> V last <= 1000000 -> (1 <= k <= 2 ^ 53)%Z ->
  let span := dminus last first in
  let delta := ddiv span (of_Z k) in
  let product := dmult (of_Z k) delta in
  let reached := dplus first product in
  let tiny := bpow radix2 (-1000) in
  is_finite delta = true /\ is_finite reached = true /\ 0 <= V delta /\
  0 < V span /\
  Rabs (V span - (V last - V first)) <= u * (V last - V first) /\
  Rabs (IZR k * V delta - V span) <= u * V span + tiny /\
  Rabs (V product - IZR k * V delta) <= u * (IZR k * V delta) + tiny /\
  Rabs (V reached - (V first + V product)) <= u * (V first + V product) /\
  0 <= V product.
Proof.
  intros first last k Ff Fl H1 H2 Hk span delta product reached tiny.
  pose proof u_val as Hu. pose proof tiny_val as Ht. fold tiny in Ht. pose proof eta_pos as He0.
  destruct (of_Z_val k ltac:(lia)) as (Fk & Vk).
  assert (K1 : 1 <= IZR k) by (apply (IZR_le 1); lia).
  assert (K2 : IZR k <= bpow radix2 53) by (rewrite two_pow by lia; apply IZR_le; lia).
  pose proof (eta_small (IZR k) ltac:(lra)) as Hke. fold tiny in Hke.
  pose proof (eta_small 1 ltac:(split; [lra | apply Rle_trans with (IZR k); lra])) as H1e.
  fold tiny in H1e. rewrite Rmult_1_l in H1e.
  (* span *)
  destruct (minus_range last first Fl Ff) as (Fs & Vs).
  { apply range_1000. rewrite Rabs_pos_eq by lra. lra. }
  fold span in Fs, Vs.
  pose proof (err_minus (V last) (V first) (fmt_V _) (fmt_V _)) as Es.
  rewrite <- Vs in Es. rewrite (Rabs_pos_eq (V last - V first)) in Es by lra.
  pose proof (abs_diff _ _ _ Es) as Bs.
  assert (Ps : 0 < V span) by (rewrite Hu in *; lra).
  assert (Us : V span <= 1000001) by (rewrite Hu in *; lra).
  (* delta *)
  assert (Pq : 0 < V span / IZR k) by (apply Rdiv_lt_0_compat; lra).
  assert (Lq : V span / IZR k <= V span).
  { apply Rmult_le_reg_r with (IZR k); [lra|]. unfold Rdiv. rewrite Rmult_assoc, Rinv_l by lra.
    nra. }
  destruct (div_range span (of_Z k) Fs) as (Fd & Vd).
  { rewrite Vk. lra. }
  { rewrite Vk. apply range_1000. rewrite Rabs_pos_eq by lra. lra. }
  fold delta in Fd, Vd. rewrite Vk in Vd.
  pose proof (err (V span / IZR k)) as Ed. rewrite <- Vd in Ed.
  rewrite (Rabs_pos_eq (V span / IZR k)) in Ed by lra.
  assert (Pd : 0 <= V delta).
  { rewrite Vd. replace 0 with (rnd 0) by (apply round_0, valid_rnd_N). apply rnd_mono. lra. }
  assert (Ekd : Rabs (IZR k * V delta - V span) <= u * V span + tiny).
  { replace (IZR k * V delta - V span) with (IZR k * (V delta - V span / IZR k)) by (field; lra).
    rewrite Rabs_mult, (Rabs_pos_eq (IZR k)) by lra.
    apply Rle_trans with (IZR k * (u * (V span / IZR k) + eta)).
    - apply Rmult_le_compat_l; [lra | exact Ed].
    - replace (IZR k * (u * (V span / IZR k) + eta)) with (u * V span + IZR k * eta)
        by (field; lra). lra. }
  pose proof (abs_diff _ _ _ Ekd) as Bkd.
  assert (Pkd : 0 <= IZR k * V delta) by (apply Rmult_le_pos; lra).
  assert (Ukd : IZR k * V delta <= 1000002) by (rewrite Hu in *; lra).
  (* product *)
  destruct (mult_range (of_Z k) delta Fk Fd) as (Fp & Vp).
  { rewrite Vk. apply range_1000. rewrite Rabs_pos_eq by lra. lra. }
  fold product in Fp, Vp. rewrite Vk in Vp.
  pose proof (err (IZR k * V delta)) as Ep. rewrite <- Vp in Ep.
  rewrite (Rabs_pos_eq (IZR k * V delta)) in Ep by lra.
  assert (Pp : 0 <= V product).
  { rewrite Vp. replace 0 with (rnd 0) by (apply round_0, valid_rnd_N). apply rnd_mono. lra. }
  pose proof (abs_diff _ _ _ Ep) as Bp.
  assert (Up : V product <= 1000003) by (rewrite Hu in *; lra).
  (* reached *)
  destruct (plus_range first product Ff Fp) as (Fr & Vr).
  { apply range_1000. rewrite Rabs_pos_eq by lra. lra. }
  fold reached in Fr, Vr.
  pose proof (err_plus (V first) (V product) (fmt_V _) (fmt_V _)) as Er. rewrite <- Vr in Er.
  rewrite (Rabs_pos_eq (V first + V product)) in Er by lra.
  repeat split; try assumption. lra.
Qed.

(** The end asserts hold for end points up to 2^17. *)
Lemma end_asserts_early : forall (first last : double) (k : Z),
  is_finite first = true -> is_finite last = true ->
  0 <= V first < V last -> V last <= 131072 -> (1 <= k <= 2 ^ 53)%Z ->
  end_asserts first (ddiv (dminus last first) (of_Z k)) last (of_Z k) = true.
Proof.
  intros first last k Ff Fl H1 H2 Hk.
  destruct (grid_quantities first last k Ff Fl H1 ltac:(lra) Hk)
    as (Fd & Fr & Pd & Ps & Es & Ek & Ep & Er & Pp).
  unfold end_asserts. cbv zeta.
  set (span := dminus last first) in *. set (delta := ddiv span (of_Z k)) in *.
  set (product := dmult (of_Z k) delta) in *. set (reached := dplus first product) in *.
  pose proof u_val as Hu. pose proof tiny_val as Ht.
  set (tiny := bpow radix2 (-1000)) in *. clearbody tiny.
  apply abs_diff in Es, Ek, Ep, Er.
  assert (Us : V span <= 131073) by (rewrite Hu in *; lra).
  assert (Ukd : IZR k * V delta <= 131074) by (rewrite Hu in *; lra).
  assert (Up : V product <= 131075) by (rewrite Hu in *; lra).
  assert (A1 : V product - (V last - V first) <= 3 * u * 131075 + 2 * tiny)
    by (rewrite Hu in *; lra).
  assert (A2 : (V last - V first) - V product <= 3 * u * 131075 + 2 * tiny)
    by (rewrite Hu in *; lra).
  assert (B1 : V reached - V last <= 4 * u * 131075 + 2 * tiny)
    by (rewrite Hu in *; lra).
  assert (B2 : V last - V reached <= 4 * u * 131075 + 2 * tiny)
    by (rewrite Hu in *; lra).
  pose proof eps_bounds as Eb. pose proof eps_small as Esm.
  destruct (plus_eps reached Fr) as (F1 & V1). destruct (minus_eps reached Fr) as (F2 & V2).
  pose proof (err_plus (V reached) eps (fmt_V _)
                ltac:(rewrite <- eps_val; apply fmt_V)) as X1.
  pose proof (err_minus (V reached) eps (fmt_V _)
                ltac:(rewrite <- eps_val; apply fmt_V)) as X2.
  assert (Y1 : Rabs (V reached + eps) <= 131075) by (apply Rabs_le; rewrite Hu in *; lra).
  assert (Y2 : Rabs (V reached - eps) <= 131075) by (apply Rabs_le; rewrite Hu in *; lra).
  assert (Z1 : Rabs (rnd (V reached + eps) - (V reached + eps)) <= u * 131075)
    by (eapply Rle_trans; [exact X1 | apply Rmult_le_compat_l; [lra | exact Y1]]).
  assert (Z2 : Rabs (rnd (V reached - eps) - (V reached - eps)) <= u * 131075)
    by (eapply Rle_trans; [exact X2 | apply Rmult_le_compat_l; [lra | exact Y2]]).
  apply abs_diff in Z1, Z2. rewrite <- V1 in Z1. rewrite <- V2 in Z2.
  rewrite !dlt_val by assumption. rewrite Hu in *.
  rewrite !Rlt_bool_true; [reflexivity | lra | lra].
Qed.

(** ** The accumulated points *)

Fixpoint point64 (current delta : double) (i : nat) : double :=
  match i with
  | O => current
  | S j => dplus (point64 current delta j) delta
  end.

Lemma point64_shift : forall i c d, point64 (dplus c d) d i = point64 c d (S i).
Proof.
  induction i as [|i IH]; intros c d; [reflexivity|].
  change (dplus (point64 (dplus c d) d i) d = dplus (point64 c d (S i)) d). now rewrite IH.
Qed.

Lemma accumulate_nth : forall n c d i, (i < n)%nat ->
  nth_error (accumulate64 c d n) i = Some (point64 c d i).
Proof.
  induction n as [|n IH]; intros c d i H; [lia|].
  destruct i as [|i]; [reflexivity|].
  cbn [accumulate64 nth_error]. rewrite IH by lia. now rewrite point64_shift.
Qed.

Lemma accumulate_length : forall n c d, List.length (accumulate64 c d n) = n.
Proof. induction n; intros; cbn; [reflexivity | now rewrite IHn]. Qed.

Lemma u_pos : 0 < u. Proof. apply bpow_gt_0. Qed.

Lemma pow_ge_1 : forall i, 1 <= (1 + u) ^ i.
Proof. intro i. apply pow_R1_Rle. pose proof u_pos. lra. Qed.

Lemma accumulate_error : forall (c d : double) n,
  is_finite c = true -> is_finite d = true -> 0 <= V c -> 0 <= V d ->
  (V c + INR n * V d) * (1 + u) ^ n <= bpow radix2 1023 ->
  forall i, (i <= n)%nat ->
  is_finite (point64 c d i) = true /\
  Rabs (V (point64 c d i) - (V c + INR i * V d)) <= ((1 + u) ^ i - 1) * (V c + INR i * V d).
Proof.
  intros c d n Fc Fd Pc Pd B i. pose proof u_pos as Pu.
  induction i as [|i IH]; intro Hi.
  - split; [exact Fc|]. cbn [point64 INR pow]. rewrite Rmult_0_l.
    replace (V c - (V c + 0)) with 0 by ring. rewrite Rabs_R0. lra.
  - destruct (IH ltac:(lia)) as (F & E).
    set (p := point64 c d i) in *. set (x := V c + INR i * V d) in *.
    assert (Px : 0 <= x) by (unfold x; pose proof (pos_INR i); nra).
    assert (Ey : V c + INR (S i) * V d = x + V d) by (rewrite S_INR; unfold x; ring).
    rewrite Ey. cbn [point64]. fold p.
    pose proof (pow_ge_1 i) as P1.
    apply abs_diff in E.
    assert (Lp : - ((1 + u) ^ S i * (x + V d)) <= V p + V d <= (1 + u) ^ i * (x + V d)).
    { cbn [pow]. set (w := (1 + u) ^ i) in *. clearbody w.
      assert (0 <= w * x) by (apply Rmult_le_pos; lra).
      assert (0 <= w * V d) by (apply Rmult_le_pos; lra).
      assert (V d <= w * V d) by nra.
      assert (0 <= u * (w * (x + V d))) by (apply Rmult_le_pos; [lra|nra]). split; nra. }
    assert (Mono : (1 + u) ^ i * (x + V d) <= bpow radix2 1023).
    { eapply Rle_trans; [|exact B]. rewrite Rmult_comm. apply Rmult_le_compat; try lra.
      - unfold x. assert (INR (S i) <= INR n) by (apply le_INR; lia).
        rewrite S_INR in H. nra.
      - apply Rle_pow; [lra | lia]. }
    (* the point is nonnegative *)
    assert (Np : 0 <= V p).
    { clear - Fc Fd Pc Pd F B Hi. subst p.
      (* all points are sums of nonnegative doubles *)
      revert Hi. induction i as [|i IH]; intro Hi; [exact Pc|].
      cbn [point64].
      destruct (is_finite (dplus (point64 c d i) d)) eqn:G.
      - cbn [point64] in F.
        assert (Fi : is_finite (point64 c d i) = true).
        { clear - F Fd. destruct (point64 c d i) as [|[]| |]; destruct d as [|[]| |];
            try discriminate Fd; try discriminate F; reflexivity. }
        specialize (IH Fi ltac:(lia)).
        pose proof (Bplus_correct prec64 emax64 eq_refl eq_refl mode_NE _ d Fi Fd) as C.
        destruct Rlt_bool.
        + destruct C as (C & _ & _). unfold dplus. rewrite C.
          change (0 <= rnd (V (point64 c d i) + V d)).
          replace 0 with (rnd 0) by (apply round_0, valid_rnd_N). apply rnd_mono. lra.
        + destruct C as (C & _). exfalso. unfold dplus in G.
          destruct (Bplus mode_NE (point64 c d i) d); try discriminate G; discriminate C.
      - cbn [point64] in F. congruence. }
    destruct (plus_range p d F Fd) as (F' & V').
    { apply range_of with 1023%Z; [lia|]. rewrite Rabs_pos_eq by lra. lra. }
    split; [exact F'|].
    pose proof (err_plus (V p) (V d) (fmt_V _) (fmt_V _)) as E2. rewrite <- V' in E2.
    rewrite (Rabs_pos_eq (V p + V d)) in E2 by lra.
    apply abs_diff in E2. apply Rabs_le. cbn [pow].
    set (w := (1 + u) ^ i) in *. clearbody w.
    split; nra.
Qed.

Lemma bernoulli : forall k, INR k * u <= 1 -> (1 + u) ^ k * (1 - INR k * u) <= 1.
Proof.
  pose proof u_pos as Pu.
  induction k as [|k IH]; intro H; [cbn; lra|].
  rewrite S_INR in *. specialize (IH ltac:(lra)).
  pose proof (pow_ge_1 k). pose proof (pos_INR k). cbn [pow].
  apply Rle_trans with ((1 + u) ^ k * (1 - INR k * u)); [|exact IH].
  set (w := (1 + u) ^ k) in *.
  replace ((1 + u) * w * (1 - (INR k + 1) * u)) with (w * ((1 + u) * (1 - (INR k + 1) * u)))
    by ring.
  apply Rmult_le_compat_l; [lra|]. nra.
Qed.

Lemma growth : forall k, INR k * u <= / 100 -> (1 + u) ^ k - 1 <= 102 / 100 * (INR k * u).
Proof.
  intros k H. pose proof (bernoulli k ltac:(lra)) as B. pose proof (pow_ge_1 k).
  pose proof u_pos. pose proof (pos_INR k).
  assert (0 <= INR k * u) by (apply Rmult_le_pos; lra).
  set (w := (1 + u) ^ k) in *. set (s := INR k * u) in *. clearbody w s. nra.
Qed.
