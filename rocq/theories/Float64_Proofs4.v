(** Number of points, step size, and interpolation in binary64. *)
From Coq Require Import ZArith List Bool Reals Lra Lia Sorting.
From Flocq Require Import Core IEEE754.BinarySingleNaN Relative Plus_error.
From Verif Require Import Base Float64_Model Float64_Proofs Float64_Proofs2 Float64_Proofs3.
Import ListNotations.
Local Open Scope R_scope.

(** ** ceil and conversions *)

Lemma ceil_val : forall x : double, is_finite x = true ->
  is_finite (dceil x) = true /\ V (dceil x) = IZR (Zceil (V x)).
Proof.
  intros x F. destruct (Bnearbyint_correct prec64 emax64 eq_refl mode_UP x) as (E & G & _).
  split; [unfold dceil; now rewrite G|]. unfold dceil. rewrite E. simpl round_mode.
  apply round_FIX_IZR.
Qed.

Lemma to_integer_val : forall lo hi (x : double) z, to_integer lo hi x = Ok z ->
  is_finite x = true /\ z = Ztrunc (V x) /\ (lo <= z <= hi)%Z.
Proof.
  intros lo hi x z H. unfold to_integer in H. destruct (is_finite x) eqn:F; [|discriminate].
  destruct ((lo <=? Btrunc x)%Z && (Btrunc x <=? hi)%Z) eqn:E; [|discriminate].
  injection H as <-. apply andb_prop in E. destruct E as (E1 & E2).
  apply Z.leb_le in E1, E2. split; [reflexivity|]. split; [|lia].
  apply eq_IZR. rewrite (Btrunc_correct prec64 emax64 eq_refl x). apply round_FIX_IZR.
Qed.

Lemma ceil_finite_inv : forall x : double, is_finite (dceil x) = true -> is_finite x = true.
Proof.
  intros x H. destruct (Bnearbyint_correct prec64 emax64 eq_refl mode_UP x) as (_ & G & _).
  unfold dceil in H. congruence.
Qed.

Lemma plus_finite_inv : forall x y : double, is_finite (dplus x y) = true ->
  is_finite y = true -> is_finite x = true.
Proof.
  intros x y F Fy. destruct x as [|[]| |]; destruct y as [|[]| |];
    try discriminate Fy; try discriminate F; reflexivity.
Qed.

Lemma minus_finite_l : forall x y : double, is_finite (dminus x y) = true -> is_finite x = true.
Proof.
  intros x y F. destruct x as [|[]| |]; destruct y as [|[]| |];
    try discriminate F; reflexivity.
Qed.
Lemma minus_finite_r : forall x y : double, is_finite (dminus x y) = true -> is_finite y = true.
Proof.
  intros x y F. destruct x as [|[]| |]; destruct y as [|[]| |];
    try discriminate F; reflexivity.
Qed.

(** The number of entries computed by make_from_start_delta_end. *)
Lemma entries_val : forall (q : double) n,
  to_size_t (dplus (dceil q) (of_Z 1)) = Ok n -> Rabs (V q) <= 1000000000000 ->
  is_finite q = true /\ n = (Zceil (V q) + 1)%Z.
Proof.
  intros q n H B. apply to_integer_val in H. destruct H as (F & E & _).
  destruct (of_Z_val 1 ltac:(lia)) as (F1 & V1).
  pose proof (plus_finite_inv _ _ F F1) as Fc. pose proof (ceil_finite_inv q Fc) as Fq.
  split; [exact Fq|].
  destruct (ceil_val q Fq) as (_ & Vc).
  apply Rabs_le_inv in B.
  assert (C1 : (Zceil (V q) <= 1000000000000)%Z) by (apply Zceil_glb; lra).
  assert (C2 : (- 1000000000001 <= Zceil (V q))%Z).
  { apply le_IZR. pose proof (Zceil_ub (V q)). lra. }
  assert (S : IZR (Zceil (V q)) + 1 = IZR (Zceil (V q) + 1)) by (now rewrite plus_IZR).
  destruct (plus_range (dceil q) (of_Z 1) Fc F1) as (_ & Vp).
  { rewrite Vc, V1, S. apply range_of with 53%Z; [lia|].
    rewrite <- abs_IZR, two_pow by lia. apply IZR_le. lia. }
  rewrite Vp, Vc, V1, S, rnd_id in E by (apply fmt_int; lia).
  rewrite E. apply Ztrunc_IZR.
Qed.

(** ** Dividing the span by the number of steps and again by the step *)

Lemma eta_rel : forall x, bpow radix2 (-940) <= x -> eta <= u * x.
Proof.
  intros x H. apply Rle_trans with (u * bpow radix2 (-940)).
  - unfold eta, u. rewrite <- bpow_plus. apply bpow_le. lia.
  - apply Rmult_le_compat_l; [apply Rlt_le, u_pos | exact H].
Qed.

Lemma divide_span : forall (span : double) (k : Z), is_finite span = true ->
  bpow radix2 (-900) <= V span <= bpow radix2 900 -> (1 <= k <= 2 ^ 32)%Z ->
  let dt := ddiv span (of_Z k) in
  is_finite dt = true /\ 0 < V dt /\
  Rabs (V dt - V span / IZR k) <= 2 * u * (V span / IZR k) /\
  is_finite (ddiv span dt) = true /\
  Rabs (V (ddiv span dt) - IZR k) <= / 1024.
Proof.
  intros span k Fs Bs Hk dt. pose proof u_val as Hu. pose proof u_pos as Pu.
  destruct (of_Z_val k ltac:(lia)) as (Fk & Vk).
  assert (K1 : 1 <= IZR k) by (apply (IZR_le 1); lia).
  assert (K2 : IZR k <= 4294967296) by (apply IZR_le; lia).
  assert (P9 : 0 < bpow radix2 (-900)) by apply bpow_gt_0.
  set (T := V span) in *.
  assert (Lx : bpow radix2 (-940) <= T / IZR k).
  { apply Rmult_le_reg_r with (IZR k); [lra|]. unfold Rdiv. rewrite Rmult_assoc, Rinv_l by lra.
    apply Rle_trans with (bpow radix2 (-940) * bpow radix2 32).
    - apply Rmult_le_compat_l; [apply bpow_ge_0|]. rewrite two_pow by lia.
      change (IZR (2 ^ 32)) with 4294967296. exact K2.
    - rewrite <- bpow_plus. rewrite Rmult_1_r.
      apply Rle_trans with (bpow radix2 (-900)); [apply bpow_le; lia | lra]. }
  assert (Px : 0 < T / IZR k) by (eapply Rlt_le_trans; [apply bpow_gt_0 | exact Lx]).
  assert (Ux : T / IZR k <= T).
  { apply Rmult_le_reg_r with (IZR k); [lra|]. unfold Rdiv. rewrite Rmult_assoc, Rinv_l by lra.
    nra. }
  destruct (div_range span (of_Z k) Fs) as (Fd & Vd).
  { rewrite Vk. lra. }
  { rewrite Vk. fold T. apply range_of with 900%Z; [lia|]. rewrite Rabs_pos_eq by lra. lra. }
  fold dt in Fd, Vd. rewrite Vk in Vd. fold T in Vd.
  pose proof (err (T / IZR k)) as E. rewrite <- Vd in E. rewrite (Rabs_pos_eq (T / IZR k)) in E by lra.
  pose proof (eta_rel _ Lx) as Et.
  assert (E' : Rabs (V dt - T / IZR k) <= 2 * u * (T / IZR k)) by lra.
  split; [exact Fd|]. pose proof (abs_diff _ _ _ E') as B.
  assert (Pd : 0 < V dt) by (rewrite Hu in *; lra).
  split; [exact Pd|]. split; [exact E'|].
  (* the quotient *)
  set (x := T / IZR k) in *.
  assert (Tx : T = IZR k * x) by (unfold x; field; lra).
  assert (Q1 : T / V dt - IZR k = IZR k * (x - V dt) / V dt) by (rewrite Tx; field; lra).
  assert (Q2 : Rabs (T / V dt - IZR k) <= / 4096).
  { rewrite Q1. unfold Rdiv. rewrite !Rabs_mult, (Rabs_pos_eq (IZR k)) by lra.
    rewrite (Rabs_pos_eq (/ V dt)) by (apply Rlt_le, Rinv_0_lt_compat; exact Pd).
    rewrite Rabs_minus_sym.
    apply Rmult_le_reg_r with (V dt); [exact Pd|]. rewrite Rmult_assoc, Rinv_l, Rmult_1_r by lra.
    apply Rle_trans with (4294967296 * (2 * u * x)).
    - apply Rmult_le_compat; try lra. apply Rabs_pos.
    - rewrite Hu in *. lra. }
  pose proof (abs_diff _ _ _ Q2) as B2.
  destruct (div_range span dt Fs ltac:(lra)) as (Fq & Vq).
  { fold T. apply range_1000. rewrite Rabs_pos_eq by lra. lra. }
  split; [exact Fq|]. fold T in Vq.
  pose proof (err (T / V dt)) as E3. rewrite <- Vq in E3.
  rewrite (Rabs_pos_eq (T / V dt)) in E3 by lra. apply abs_diff in E3.
  pose proof (eta_small 1) as Es. pose proof tiny_val.
  assert (O53 : 1 <= bpow radix2 53) by (change 1 with (bpow radix2 0); apply bpow_le; lia).
  specialize (Es ltac:(lra)). rewrite Rmult_1_l in Es.
  apply Rabs_le. rewrite Hu in *. lra.
Qed.

Lemma ceil_near : forall x k, Rabs (x - IZR k) < 1 -> (k <= Zceil x <= k + 1)%Z.
Proof.
  intros x k H. apply Rabs_lt_inv in H. split.
  - assert (k - 1 < Zceil x)%Z; [|lia]. apply lt_IZR. rewrite minus_IZR.
    pose proof (Zceil_ub x). lra.
  - apply Zceil_glb. rewrite plus_IZR. lra.
Qed.

(** What is known about accepted data of make_from_start_delta_end. *)
Lemma delta_end_ok : forall debug first desired last d,
  make_from_start_delta_end64 debug first desired last = Ok d ->
  exists n, to_size_t (dplus (dceil (ddiv (dminus last first) desired)) (of_Z 1)) = Ok n /\
    d = mk_idata64 first (ddiv (dminus last first) (of_Z ((n - 1) mod 2 ^ 64))) n /\
    dle last first = false /\ dle desired (of_Z 0) = false /\
    (debug = true ->
     end_asserts first (ddiv (dminus last first) (of_Z ((n - 1) mod 2 ^ 64))) last
       (of_Z ((n - 1) mod 2 ^ 64)) = true).
Proof.
  intros debug first desired last d H. unfold make_from_start_delta_end64 in H.
  destruct (dle last first) eqn:E1; [discriminate|].
  destruct (dle desired (of_Z 0)) eqn:E2; [discriminate|].
  destruct (to_size_t _) as [n| |] eqn:E3; try discriminate H.
  cbn [obind] in H. exists n. split; [reflexivity|].
  destruct debug; cbn [andb] in H.
  - destruct (end_asserts _ _ _ _) eqn:E4; [|discriminate H].
    injection H as <-. now repeat split.
  - injection H as <-. repeat split; discriminate.
Qed.

Lemma timedata_number_ok : forall tstart tend desired number,
  timedata_number64 tstart tend desired = Ok number ->
  is_finite (ddiv (dminus tend tstart) desired) = true /\
  number = (Zceil (V (ddiv (dminus tend tstart) desired)) + 1)%Z /\
  (- 2 ^ 31 < number < 2 ^ 31)%Z.
Proof.
  intros tstart tend desired number H. unfold timedata_number64 in H.
  destruct (to_int _) as [k| |] eqn:E; try discriminate H. cbn [obind] in H.
  destruct (k =? 2 ^ 31 - 1)%Z eqn:E2; [discriminate|]. apply Z.eqb_neq in E2.
  injection H as <-. apply to_integer_val in E. destruct E as (F & E & B).
  pose proof (ceil_finite_inv _ F) as Fq. destruct (ceil_val _ Fq) as (_ & Vc).
  rewrite Vc, Ztrunc_IZR in E. subst k. split; [exact Fq|]. split; [reflexivity | lia].
Qed.

Lemma number_of_points : forall debug tstart tend desired number d,
  let span := dminus tend tstart in
  is_finite span = true -> bpow radix2 (-900) <= V span <= bpow radix2 900 ->
  timedata_number64 tstart tend desired = Ok number -> (1 < number)%Z ->
  state_data64 debug tstart tend desired = Ok d ->
  (number64 d = number \/ number64 d = number + 1)%Z.
Proof.
  intros debug tstart tend desired number d span Fs Bs HN L HD.
  unfold state_data64 in HD. rewrite HN in HD. cbn [obind] in HD.
  apply timedata_number_ok in HN. destruct HN as (_ & _ & Bn).
  unfold timedata_delta64 in HD. fold span in HD.
  apply delta_end_ok in HD. fold span in HD. destruct HD as (n & En & -> & _ & _ & _).
  destruct (divide_span span (number - 1) Fs Bs ltac:(lia)) as (Fd & Pd & _ & Fq & Bq).
  apply entries_val in En.
  - destruct En as (_ & ->). cbn [number64].
    assert (C : (number - 1 <= Zceil (V (ddiv span (ddiv span (of_Z (number - 1)))))
                 <= number - 1 + 1)%Z) by (apply ceil_near; lra).
    lia.
  - apply abs_diff in Bq. assert (1 <= IZR (number - 1)) by (apply (IZR_le 1); lia).
    assert (IZR (number - 1) <= IZR (2 ^ 31)) by (apply IZR_le; lia).
    change (IZR (2 ^ 31)) with 2147483648 in *. apply Rabs_le. lra.
Qed.

Lemma div_fin : forall x y : double, is_finite (ddiv x y) = true -> V y <> 0 ->
  V (ddiv x y) = rnd (V x / V y).
Proof.
  intros x y F H.
  pose proof (Bdiv_correct prec64 emax64 eq_refl eq_refl mode_NE x y H) as C.
  destruct Rlt_bool; [exact (proj1 C)|]. exfalso. unfold ddiv in F.
  destruct (Bdiv mode_NE x y); try discriminate F;
    cbn in C; destruct (xorb (Bsign x) (Bsign y)); discriminate C.
Qed.

(** The number of time steps computed by Timedata against the exact quotient, and the step. *)
Lemma exact_count : forall tstart tend desired number,
  let span := dminus tend tstart in
  let exact := (V tend - V tstart) / V desired in
  is_finite span = true -> bpow radix2 (-900) <= V span <= bpow radix2 900 ->
  0 < V desired ->
  timedata_number64 tstart tend desired = Ok number -> (1 < number)%Z ->
  (Zceil exact <= number <= Zceil exact + 2)%Z /\
  V span <= IZR (number - 1) * (V desired * (1 + 3 * u)).
Proof.
  intros tstart tend desired number span exact Fs Bs Pd HN LN.
  pose proof u_val as Hu. pose proof u_pos as Pu. pose proof eta_pos as Pe.
  pose proof (minus_finite_l _ _ Fs) as Fe. pose proof (minus_finite_r _ _ Fs) as Ff.
  apply timedata_number_ok in HN. fold span in HN. destruct HN as (Fq & EN & BN).
  set (q := V (ddiv span desired)) in *.
  assert (Vq : q = rnd (V span / V desired)) by (apply div_fin; [exact Fq | lra]).
  set (T := V span) in *. set (s := V tend - V tstart) in *.
  assert (Ps : 0 < bpow radix2 (-900)) by apply bpow_gt_0.
  assert (Es : Rabs (T - s) <= u * Rabs s).
  { pose proof (Bminus_correct prec64 emax64 eq_refl eq_refl mode_NE tend tstart Fe Ff) as C.
    destruct Rlt_bool.
    - destruct C as (C & _ & _).
      assert (VT : T = rnd s) by exact C. rewrite VT. apply err_minus; apply fmt_V.
    - exfalso. destruct C as (C & _). unfold span, dminus in Fs.
      destruct (Bminus mode_NE tend tstart); try discriminate Fs; discriminate C. }
  assert (Ss : 0 < s).
  { destruct (Rle_or_lt s 0) as [N|N]; [|exact N]. exfalso.
    rewrite (Rabs_left1 s) in Es by exact N. apply Rabs_le_inv in Es. rewrite Hu in Es. lra. }
  rewrite (Rabs_pos_eq s) in Es by lra.
  set (y := T / V desired) in *.
  assert (Py : 0 < y) by (apply Rdiv_lt_0_compat; lra).
  pose proof (err y) as Ey. rewrite <- Vq in Ey. rewrite (Rabs_pos_eq y) in Ey by lra.
  assert (Ex : Rabs (y - exact) <= u * exact).
  { unfold y, exact. fold s. unfold Rdiv. rewrite <- Rmult_minus_distr_r, Rabs_mult.
    rewrite (Rabs_pos_eq (/ V desired)) by (apply Rlt_le, Rinv_0_lt_compat; lra).
    rewrite <- Rmult_assoc. apply Rmult_le_compat_r; [|exact Es].
    apply Rlt_le, Rinv_0_lt_compat. lra. }
  assert (Pex : 0 < exact) by (apply Rdiv_lt_0_compat; fold s; lra).
  pose proof (eta_small 1) as He. pose proof tiny_val.
  assert (O53 : 1 <= bpow radix2 53) by (change 1 with (bpow radix2 0); apply bpow_le; lia).
  specialize (He ltac:(lra)). rewrite Rmult_1_l in He.
  pose proof (abs_diff _ _ _ Ey) as By. pose proof (abs_diff _ _ _ Ex) as Bx.
  pose proof (Zceil_ub q) as C1.
  assert (C3 : IZR (Zceil q) <= 2147483648).
  { assert (Zceil q <= 2 ^ 31)%Z by lia. now apply IZR_le. }
  assert (D1 : q - exact < / 2) by (rewrite Hu in *; lra).
  assert (D2 : exact - q < / 2) by (rewrite Hu in *; lra).
  split.
  - pose proof (Zceil_ub exact) as U1.
    assert (Zceil q <= Zceil exact + 1)%Z.
    { apply Zceil_glb. rewrite plus_IZR. lra. }
    assert (Zceil exact <= Zceil q + 1)%Z.
    { apply Zceil_glb. rewrite plus_IZR. lra. }
    lia.
  - replace (number - 1)%Z with (Zceil q) by lia.
    assert (K : y <= IZR (Zceil q) * (1 + 3 * u)).
    { destruct (Rle_or_lt (bpow radix2 (-940)) y) as [N|N].
      - pose proof (eta_rel y N) as Et. rewrite Hu in *. lra.
      - assert (bpow radix2 (-940) <= 1) by (change 1 with (bpow radix2 0); apply bpow_le; lia).
        assert (1 <= IZR (Zceil q)) by (apply (IZR_le 1); lia). rewrite Hu. lra. }
    replace T with (y * V desired) by (unfold y; field; lra).
    replace (IZR (Zceil q) * (V desired * (1 + 3 * u)))
      with (IZR (Zceil q) * (1 + 3 * u) * V desired) by ring.
    apply Rmult_le_compat_r; lra.
Qed.

Lemma step_bound : forall debug tstart tend desired number d,
  let span := dminus tend tstart in
  is_finite span = true -> bpow radix2 (-900) <= V span <= bpow radix2 900 ->
  0 < V desired ->
  timedata_number64 tstart tend desired = Ok number -> (1 < number)%Z ->
  state_data64 debug tstart tend desired = Ok d ->
  0 < V (delta64 d) <= V desired * (1 + bpow radix2 (-50)).
Proof.
  intros debug tstart tend desired number d span Fs Bs Pd HN LN HD.
  pose proof (number_of_points debug tstart tend desired number d Fs Bs HN LN HD) as P.
  destruct (exact_count tstart tend desired number Fs Bs Pd HN LN) as (_ & U).
  pose proof (timedata_number_ok _ _ _ _ HN) as (_ & _ & BN).
  unfold state_data64 in HD. rewrite HN in HD. cbn [obind] in HD.
  apply delta_end_ok in HD. destruct HD as (n & _ & -> & _ & _ & _). cbn [number64 delta64] in *.
  fold span in U |- *. rewrite Z.mod_small by lia.
  destruct (divide_span span (n - 1) Fs Bs ltac:(lia)) as (_ & P1 & E & _ & _).
  pose proof u_val as Hu. split; [exact P1|].
  assert (B50 : bpow radix2 (-50) = 8 * u).
  { unfold u. change 8 with (bpow radix2 3). now rewrite <- bpow_plus. }
  rewrite B50. apply abs_diff in E.
  assert (N1 : 1 <= IZR (number - 1)) by (apply (IZR_le 1); lia).
  assert (N2 : IZR (number - 1) <= IZR (n - 1)) by (apply IZR_le; lia).
  assert (Q : V span / IZR (n - 1) <= V desired * (1 + 3 * u)).
  { apply Rmult_le_reg_r with (IZR (n - 1)); [lra|].
    unfold Rdiv. rewrite Rmult_assoc, Rinv_l, Rmult_1_r by lra.
    eapply Rle_trans; [exact U|]. rewrite Rmult_comm. apply Rmult_le_compat_l; [|exact N2].
    apply Rmult_le_pos; rewrite ?Hu; lra. }
  rewrite Hu in *. lra.
Qed.
