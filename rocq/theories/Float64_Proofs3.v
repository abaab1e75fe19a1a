(** Short grids: the accumulated points stay within EPSILON of the interval. *)
From Coq Require Import ZArith List Bool Reals Lra Lia.
From Flocq Require Import Core IEEE754.BinarySingleNaN Relative Plus_error.
From Verif Require Import Base Float64_Model Float64_Proofs Float64_Proofs2.
Import ListNotations.
Local Open Scope R_scope.

Lemma get_nth : forall {A} (l : list A) i x, nth_error l i = Some x -> get l i = Ok x.
Proof. intros A l i x H. unfold get. now rewrite H. Qed.

Section Points.
Variables (c d : double) (n : nat).
Hypothesis Fc : is_finite c = true.
Hypothesis Fd : is_finite d = true.
Hypothesis Pc : 0 <= V c.
Hypothesis Pd : 0 <= V d.
Hypothesis B : (V c + INR n * V d) * (1 + u) ^ n <= bpow radix2 1023.

Let p := point64 c d.

Lemma point_finite : forall i, (i <= n)%nat -> is_finite (p i) = true.
Proof. intros i H. exact (proj1 (accumulate_error c d n Fc Fd Pc Pd B i H)). Qed.

Lemma point_bound : forall i, (i <= n)%nat -> Rabs (V (p i)) <= bpow radix2 1023.
Proof.
  intros i H. destruct (accumulate_error c d n Fc Fd Pc Pd B i H) as (_ & E).
  apply abs_diff in E. fold (p i) in E. pose proof (pow_ge_1 i). pose proof (pos_INR i).
  assert (0 <= V c + INR i * V d) by nra.
  assert (V c + INR i * V d <= V c + INR n * V d).
  { assert (INR i <= INR n) by (apply le_INR; lia). nra. }
  assert ((1 + u) ^ i <= (1 + u) ^ n) by (apply Rle_pow; [pose proof u_pos; lra | lia]).
  assert ((1 + u) ^ i * (V c + INR i * V d) <= bpow radix2 1023).
  { eapply Rle_trans; [|exact B]. rewrite Rmult_comm. apply Rmult_le_compat; lra. }
  apply Rabs_le. split; nra.
Qed.

Lemma point_step : forall i, (i < n)%nat -> V (p i) <= V (p (S i)).
Proof.
  intros i H.
  assert (Fi := point_finite i ltac:(lia)). assert (Fs := point_finite (S i) ltac:(lia)).
  assert (Bs := point_bound (S i) ltac:(lia)).
  unfold p in *. cbn [point64] in *. fold (point64 c d i) in *.
  set (q := point64 c d i) in *.
  pose proof (Bplus_correct prec64 emax64 eq_refl eq_refl mode_NE q d Fi Fd) as C.
  destruct Rlt_bool.
  - destruct C as (C & _ & _). unfold dplus. rewrite C.
    change (V q <= rnd (V q + V d)). rewrite <- (rnd_id (V q) (fmt_V q)) at 1.
    apply rnd_mono. lra.
  - exfalso. destruct C as (C & _). unfold dplus in Fs.
    destruct (Bplus mode_NE q d); try discriminate Fs; discriminate C.
Qed.

Lemma point_mono : forall i j, (i <= j)%nat -> (j <= n)%nat -> V (p i) <= V (p j).
Proof.
  intros i j H. induction H as [|j H IH]; intro Hj; [lra|].
  apply Rle_trans with (V (p j)); [apply IH; lia | apply point_step; lia].
Qed.

End Points.

Lemma sorted_accumulate : forall n c d,
  (forall i, (i < n)%nat -> dlt (point64 c d (S i)) (point64 c d i) = false) ->
  is_sorted64 (accumulate64 c d (S n)) = true.
Proof.
  induction n as [|n IH]; intros c d H; [reflexivity|].
  change (negb (dlt (dplus c d) c) && is_sorted64 (accumulate64 (dplus c d) d (S n)) = true).
  rewrite IH.
  - pose proof (H O ltac:(lia)) as H0. cbn [point64] in H0. rewrite H0. reflexivity.
  - intros i Hi. rewrite !point64_shift. apply H. lia.
Qed.

Lemma INR_to_nat : forall k, (0 <= k)%Z -> INR (Z.to_nat k) = IZR k.
Proof. intros k H. rewrite INR_IZR_INZ, Z2Nat.id by exact H. reflexivity. Qed.

(** All facts about a short grid of k steps from [first] to [last]. *)
Lemma short_grid : forall (first last : double) (k : Z),
  is_finite first = true -> is_finite last = true ->
  0 <= V first < V last -> (1 <= k <= 2 ^ 40)%Z ->
  V last * IZR (k + 5) <= 800000 ->
  let delta := ddiv (dminus last first) (of_Z k) in
  let p := point64 first delta in
  let m := Z.to_nat k in
  (forall i, (i <= m)%nat -> is_finite (p i) = true) /\
  (forall i j, (i <= j <= m)%nat -> V (p i) <= V (p j)) /\
  Rabs (V (p m) - V last) <= / 10000000000 /\
  dlt (dplus last EPSILON64) (p m) = false /\
  dlt (dabs (dminus (p m) (dplus first (dmult (of_Z k) delta)))) EPSILON64 = true.
Proof.
  intros first last k Ff Fl H1 Hk HT delta p m.
  pose proof u_val as Hu. pose proof u_pos as Pu. pose proof tiny_val as Ht.
  assert (K1 : 1 <= IZR k) by (apply (IZR_le 1); lia).
  assert (K2 : IZR k * u <= / 8192).
  { rewrite Hu. assert (IZR k <= 1099511627776) by (apply IZR_le; lia). lra. }
  assert (HT' : V last * IZR k + 5 * V last <= 800000).
  { rewrite plus_IZR in HT. lra. }
  assert (Q : 0 <= V last * IZR k) by nra.
  destruct (grid_quantities first last k Ff Fl H1 ltac:(lra) ltac:(lia))
    as (Fd & Fr & Pd & Ps & Es & Ek & Ep & Er & Pp).
  fold delta in Fd, Fr, Pd, Ek, Ep, Er, Pp.
  set (span := dminus last first) in *. set (product := dmult (of_Z k) delta) in *.
  set (reached := dplus first product) in *.
  set (tiny := bpow radix2 (-1000)) in *. clearbody tiny.
  apply abs_diff in Es, Ek, Ep, Er.
  set (z := IZR k * V delta) in *.
  set (T := V last) in *. set (f := V first) in *.
  assert (Km : INR m = IZR k) by (apply INR_to_nat; lia).
  assert (X1 : f + z - T <= 3 * u * T + tiny) by (rewrite Hu in *; lra).
  assert (X2 : T - (f + z) <= 3 * u * T + tiny) by (rewrite Hu in *; lra).
  assert (Z0 : 0 <= z) by (unfold z; apply Rmult_le_pos; lra).
  assert (X0 : 0 <= f + z) by lra.
  assert (X3 : f + z <= 200000) by (rewrite Hu in *; lra).
  assert (G : (1 + u) ^ m - 1 <= 102 / 100 * (IZR k * u)).
  { rewrite <- Km. apply growth. rewrite Km. lra. }
  assert (W1 := pow_ge_1 m).
  assert (Bnd : (f + INR m * V delta) * (1 + u) ^ m <= bpow radix2 1023).
  { rewrite Km. fold z. apply Rle_trans with (bpow radix2 40); [|apply bpow_le; lia].
    rewrite two_pow by lia. change (IZR (2 ^ 40)) with 1099511627776.
    apply Rle_trans with (200000 * 2); [|lra]. apply Rmult_le_compat; lra. }
  assert (Fp : forall i, (i <= m)%nat -> is_finite (p i) = true).
  { intros i Hi. apply (point_finite first delta m); try assumption; unfold f in *; lra. }
  assert (Mp : forall i j, (i <= j <= m)%nat -> V (p i) <= V (p j)).
  { intros i j Hij. apply (point_mono first delta m); try assumption; unfold f in *; try lra; lia. }
  destruct (accumulate_error first delta m Ff Fd ltac:(unfold f in *; lra) Pd Bnd m ltac:(lia))
    as (_ & E).
  fold p in E. rewrite Km in E. fold z in E. fold f in E.
  assert (S1 : ((1 + u) ^ m - 1) * (f + z) <= 103 / 100 * u * (T * IZR k) + u * T + tiny).
  { apply Rle_trans with (102 / 100 * (IZR k * u) * (f + z)).
    - apply Rmult_le_compat_r; lra.
    - assert (f + z <= T + 3 * u * T + tiny) by lra.
      apply Rle_trans with (102 / 100 * (IZR k * u) * (T + 3 * u * T + tiny)).
      + apply Rmult_le_compat_l; [|lra]. repeat apply Rmult_le_pos; lra.
      + assert (IZR k * u * (u * T) <= / 8192 * (u * T)).
        { apply Rmult_le_compat_r; [|lra]. apply Rmult_le_pos; lra. }
        assert (IZR k * u * tiny <= / 8192 * tiny) by (apply Rmult_le_compat_r; lra).
        assert (0 <= u * (T * IZR k)) by (apply Rmult_le_pos; lra).
        assert (0 <= u * T) by (apply Rmult_le_pos; lra).
        replace (102 / 100 * (IZR k * u) * (T + 3 * u * T + tiny))
          with (102 / 100 * (u * (T * IZR k)) + 306 / 100 * (IZR k * u * (u * T))
                + 102 / 100 * (IZR k * u * tiny)) by field.
        lra. }
  apply abs_diff in E.
  assert (TK : T * IZR k <= 800000 - 5 * T) by lra.
  set (tk := T * IZR k) in *. clearbody tk.
  set (w := ((1 + u) ^ m - 1) * (f + z)) in *. clearbody w.
  clearbody z. clear K2 G W1 Bnd HT.
  pose proof eps_bounds as Eb. pose proof eps_small as Esm.
  split; [exact Fp|]. split; [exact Mp|].
  assert (Fpm := Fp m ltac:(lia)).
  assert (E1 : V (p m) - T <= 103 / 100 * u * tk + 4 * u * T + 2 * tiny) by lra.
  assert (E2 : T - V (p m) <= 103 / 100 * u * tk + 4 * u * T + 2 * tiny) by lra.
  split; [apply Rabs_le; rewrite Hu in *; lra|].
  split.
  - destruct (plus_eps last Fl) as (F1 & V1). rewrite dlt_val by assumption. rewrite V1.
    pose proof (err_plus T eps (fmt_V _) ltac:(rewrite <- eps_val; apply fmt_V)) as X.
    rewrite (Rabs_pos_eq (T + eps)) in X by lra. apply abs_diff in X.
    fold T. apply Rlt_bool_false. rewrite Hu in *. lra.
  - assert (R1 : V (p m) - V reached <= 103 / 100 * u * tk + 4 * u * T + 4 * tiny)
      by (rewrite Hu in *; lra).
    assert (R2 : V reached - V (p m) <= 103 / 100 * u * tk + 4 * u * T + 4 * tiny)
      by (rewrite Hu in *; lra).
    assert (A : Rabs (V (p m) - V reached) <= / 10500000000)
      by (apply Rabs_le; rewrite Hu in *; lra).
    destruct (minus_range (p m) reached Fpm Fr) as (Fm & Vm).
    { apply range_1000. lra. }
    pose proof (err_minus (V (p m)) (V reached) (fmt_V _) (fmt_V _)) as X.
    rewrite <- Vm in X.
    assert (X' : Rabs (V (dminus (p m) reached) - (V (p m) - V reached)) <= u * (/ 10500000000)).
    { eapply Rle_trans; [exact X|]. apply Rmult_le_compat_l; lra. }
    apply abs_diff in X'. apply Rabs_le_inv in A.
    assert (A' : Rabs (V (dminus (p m) reached)) < eps)
      by (apply Rabs_lt; rewrite Hu in *; lra).
    unfold dlt. rewrite Bltb_correct.
    + unfold dabs. rewrite B2R_Babs, eps_val. now apply Rlt_bool_true.
    + unfold dabs. rewrite is_finite_Babs. exact Fm.
    + reflexivity.
Qed.
