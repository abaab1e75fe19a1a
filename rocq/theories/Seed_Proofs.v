(** * Proofs about seed sequences *)
From Coq Require Import ZArith List Lia Bool Arith Znumtheory Zpow_facts.
From Verif Require Import Base Seed_Model Seed_Spec.
Import ListNotations.
Local Open Scope Z_scope.

(** ** Words *)
Lemma w32_word x : is_word (w32 x).
Proof. unfold is_word, w32. apply Z.mod_pos_bound. lia. Qed.
Lemma w32_id x : is_word x -> w32 x = x.
Proof. intro H. unfold w32. apply Z.mod_small, H. Qed.
Lemma mod_nonneg x : 0 <= x -> Z.land x (Z.ones 32) = w32 x.
Proof. intro H. unfold w32. apply Z.land_ones. lia. Qed.
Lemma lxor_word a b : is_word a -> is_word b -> is_word (Z.lxor a b).
Proof.
  intros Ha Hb. pose proof (w32_word (Z.lxor a b)) as H.
  replace (Z.lxor a b) with (w32 (Z.lxor a b)); [exact H|].
  unfold w32. apply Z.bits_inj'. intros n Hn.
  destruct (Z.ltb_spec n 32).
  - rewrite Z.mod_pow2_bits_low by lia. reflexivity.
  - rewrite Z.mod_pow2_bits_high by lia. rewrite Z.lxor_spec.
    rewrite <- (w32_id a Ha), <- (w32_id b Hb). unfold w32. rewrite !Z.mod_pow2_bits_high by lia. reflexivity.
Qed.
Lemma shiftr_word a k : 0 <= k -> is_word a -> is_word (Z.shiftr a k).
Proof.
  unfold is_word. intros Hk [H1 H2]. rewrite Z.shiftr_div_pow2 by lia. split.
  - apply Z.div_pos; [lia|]. apply Z.pow_pos_nonneg; lia.
  - assert (0 < 2 ^ k) by (apply Z.pow_pos_nonneg; lia).
    eapply Z.le_lt_trans; [|exact H2]. apply Z.div_le_upper_bound; [assumption|].
    rewrite <- (Z.mul_1_l a) at 1. apply Z.mul_le_mono_nonneg_r; lia.
Qed.
Lemma xorshift_word a : is_word a -> is_word (xorshift a).
Proof. intro H. apply lxor_word; [exact H|]. apply shiftr_word; [change XSHIFT with 16; lia|exact H]. Qed.
Lemma xorshift_twice a : is_word a -> xorshift (xorshift a) = a.
Proof.
  intro H. unfold xorshift. rewrite Z.shiftr_lxor, Z.shiftr_shiftr by (change XSHIFT with 16; lia).
  replace (Z.shiftr a (XSHIFT + XSHIFT)) with 0.
  - rewrite Z.lxor_0_r, Z.lxor_assoc, Z.lxor_nilpotent. apply Z.lxor_0_r.
  - symmetry. rewrite Z.shiftr_div_pow2 by (change XSHIFT with 16; lia). apply Z.div_small. exact H.
Qed.
Lemma lxor_twice a b : Z.lxor (Z.lxor a b) b = a.
Proof. rewrite Z.lxor_assoc, Z.lxor_nilpotent. apply Z.lxor_0_r. Qed.

(** ** Arithmetic modulo 2^32 *)
Lemma w32_mul_l a b : w32 (w32 a * b) = w32 (a * b).
Proof. unfold w32. apply Z.mul_mod_idemp_l. lia. Qed.
Lemma w32_mul_r a b : w32 (a * w32 b) = w32 (a * b).
Proof. unfold w32. apply Z.mul_mod_idemp_r. lia. Qed.
Lemma w32_add_l a b : w32 (w32 a + b) = w32 (a + b).
Proof. unfold w32. apply Z.add_mod_idemp_l. lia. Qed.
Lemma w32_add_r a b : w32 (a + w32 b) = w32 (a + b).
Proof. unfold w32. apply Z.add_mod_idemp_r. lia. Qed.
Lemma w32_sub_l a b : w32 (w32 a - b) = w32 (a - b).
Proof. unfold w32. rewrite Zminus_mod_idemp_l. reflexivity. Qed.
Lemma w32_sub_r a b : w32 (a - w32 b) = w32 (a - b).
Proof. unfold w32. rewrite Zminus_mod_idemp_r. reflexivity. Qed.

Lemma odd_power (x : Z) (k : nat) : Z.odd x = true -> (2 ^ Z.of_nat k | x ^ (2 ^ Z.of_nat k) - 1).
Proof.
  intro H. induction k as [|k [q IH]].
  - exists (x - 1). cbn. lia.
  - rewrite Nat2Z.inj_succ, Z.pow_succ_r by lia.
    replace (x ^ (2 * 2 ^ Z.of_nat k)) with (x ^ (2 ^ Z.of_nat k) * x ^ (2 ^ Z.of_nat k)).
    2: { rewrite <- Z.pow_add_r by (apply Z.pow_nonneg; lia). f_equal. lia. }
    set (y := x ^ (2 ^ Z.of_nat k)) in *.
    assert (Hy : Z.odd y = true).
    { unfold y. rewrite Z.odd_pow; [exact H|]. apply Z.pow_pos_nonneg; lia. }
    apply Zodd_bool_iff in Hy. destruct (Zodd_ex y Hy) as [r Hr].
    exists (q * (r + 1)). replace (y * y - 1) with ((y - 1) * (y + 1)) by ring. rewrite IH. rewrite Hr at 1. ring.
Qed.
Lemma order (x : Z) : Z.odd x = true -> w32 (x ^ (2 ^ 32)) = 1.
Proof.
  intro H. destruct (odd_power x 32 H) as [q Hq]. change (Z.of_nat 32) with 32 in Hq.
  set (y := x ^ 2 ^ 32) in *. clearbody y. unfold w32. replace y with (1 + q * 2 ^ 32) by lia.
  rewrite Z.mod_add by lia. reflexivity.
Qed.

(** ** Powers *)
Lemma w32_pow x n : 0 <= n -> w32 (w32 x ^ n) = w32 (x ^ n).
Proof.
  intro Hn. unfold w32. rewrite <- Zpower_mod by lia. reflexivity.
Qed.
Lemma loop_pow (fuel : nat) : forall result multiplier power,
  0 <= power < 2 ^ Z.of_nat fuel -> is_word result ->
  fast_exp_loop fuel result multiplier power = w32 (result * multiplier ^ power).
Proof.
  induction fuel as [|f IH]; intros result multiplier power Hp Hr; cbn [fast_exp_loop].
  - change (2 ^ Z.of_nat 0) with 1 in Hp. replace power with 0 by lia. rewrite Z.pow_0_r, Z.mul_1_r. symmetry. apply w32_id, Hr.
  - destruct (Z.eqb_spec power 0) as [->|N].
    + rewrite Z.pow_0_r, Z.mul_1_r. symmetry. apply w32_id, Hr.
    + rewrite Nat2Z.inj_succ, Z.pow_succ_r in Hp by lia.
      assert (Hd : Z.shiftr power 1 = power / 2) by (rewrite Z.shiftr_div_pow2 by lia; reflexivity).
      assert (Hl : Z.land power 1 = power mod 2) by (change 1 with (Z.ones 1); rewrite Z.land_ones by lia; reflexivity).
      rewrite IH; [| |apply w32_word].
      2: { rewrite Hd. split; [apply Z.div_pos; lia|]. apply Z.div_lt_upper_bound; lia. }
      rewrite Hd, Hl. pose proof (Z.div_mod power 2 ltac:(lia)) as D.
      assert (Hq : 0 <= power / 2) by (apply Z.div_pos; lia).
      rewrite w32_mul_l. rewrite <- w32_mul_r. rewrite w32_pow by exact Hq. rewrite w32_mul_r.
      assert (P2 : (multiplier * multiplier) ^ (power / 2) = multiplier ^ (2 * (power / 2))).
      { rewrite Z.mul_comm with (n := 2). rewrite Z.mul_comm with (m := 2). rewrite Z.pow_mul_r by lia. f_equal. rewrite Z.pow_2_r. reflexivity. }
      rewrite P2. pose proof (Z.mod_pos_bound power 2 ltac:(lia)) as B.
      destruct (Z.eqb_spec (power mod 2) 0) as [E|E].
      * rewrite Z.mul_1_r. f_equal. f_equal. f_equal. lia.
      * assert (E1 : power mod 2 = 1) by lia. rewrite D at 2. rewrite E1.
        rewrite Z.pow_add_r by lia. rewrite Z.pow_1_r. f_equal. ring.
Qed.
Lemma fast_exp_power x p : is_word p -> fast_exp x p = w32 (x ^ p).
Proof.
  intro H. unfold fast_exp. rewrite loop_pow; [f_equal; ring|exact H|]. split; reflexivity || (cbn; lia).
Qed.
Lemma inverse x : Z.odd x = true -> w32 (x * fast_exp x (w32 (-1))) = 1.
Proof.
  intro H. rewrite fast_exp_power by apply w32_word. rewrite w32_mul_r.
  change (w32 (-1)) with (2 ^ 32 - 1).
  rewrite <- Z.pow_succ_r by (apply Z.leb_le; reflexivity).
  replace (Z.succ (2 ^ 32 - 1)) with (2 ^ 32) by reflexivity. apply order, H.
Qed.
Lemma power_reduced x n : Z.odd x = true -> 0 <= n -> w32 (x ^ w32 n) = w32 (x ^ n).
Proof.
  intros H Hn. rewrite (Z.div_mod n (2 ^ 32)) at 2 by lia. fold (w32 n).
  pose proof (w32_word n) as [W _]. assert (0 <= n / 2 ^ 32) by (apply Z.div_pos; lia).
  rewrite Z.pow_add_r by lia. rewrite Z.pow_mul_r by lia.
  rewrite <- (w32_mul_l ((x ^ 2 ^ 32) ^ (n / 2 ^ 32))). rewrite <- (w32_pow (x ^ 2 ^ 32)) by lia.
  rewrite order by exact H. rewrite Z.pow_1_l by lia. rewrite w32_mul_l, Z.mul_1_l. reflexivity.
Qed.

Lemma odd_w32 x : Z.odd x = true -> Z.odd (w32 x) = true.
Proof.
  intro H. unfold w32. rewrite Z.mod_eq by lia. rewrite Z.odd_sub, Z.odd_mul. rewrite H. reflexivity.
Qed.
Lemma odd_step h : Z.odd h = true -> Z.odd (w32 (h * MULT_A)) = true.
Proof. intro H. apply odd_w32. rewrite Z.odd_mul, H. reflexivity. Qed.

Definition INV_A := fast_exp MULT_A (w32 (-1)).
Definition MIX_INV_L := fast_exp MIX_MULT_L (w32 (-1)).
Lemma forth_back h : is_word h -> w32 (w32 (h * MULT_A) * INV_A) = h.
Proof.
  intro H. rewrite w32_mul_l, <- Z.mul_assoc. rewrite <- w32_mul_r. unfold INV_A. rewrite inverse by reflexivity.
  rewrite Z.mul_1_r. apply w32_id, H.
Qed.
Lemma back_forth h : is_word h -> w32 (w32 (h * INV_A) * MULT_A) = h.
Proof.
  intro H. rewrite w32_mul_l. replace (h * INV_A * MULT_A) with (h * (MULT_A * INV_A)) by ring.
  rewrite <- w32_mul_r. unfold INV_A. rewrite inverse by reflexivity.
  rewrite Z.mul_1_r. apply w32_id, H.
Qed.
Lemma odd_back h : Z.odd h = true -> Z.odd (w32 (h * INV_A)) = true.
Proof.
  intro H. apply odd_w32. rewrite Z.odd_mul, H. vm_compute. reflexivity.
Qed.

(** ** hash and mix *)
Lemma hash_word h v : is_word (fst (hash h v)).
Proof. cbn. apply xorshift_word, w32_word. Qed.
Lemma hash_const_next h v : snd (hash h v) = w32 (h * MULT_A).
Proof. reflexivity. Qed.
Definition unhash (c h v : Z) : Z := Z.lxor (w32 (xorshift v * fast_exp c (w32 (-1)))) h.
Lemma unhash_hash h v : Z.odd h = true -> is_word h -> is_word v ->
  unhash (w32 (h * MULT_A)) h (fst (hash h v)) = v.
Proof.
  intros Ho Hh Hv. unfold unhash, hash. cbn [fst]. rewrite xorshift_twice by apply w32_word.
  rewrite w32_mul_l, <- Z.mul_assoc. rewrite <- w32_mul_r.
  rewrite inverse by (apply odd_step, Ho). rewrite Z.mul_1_r. rewrite w32_id by (apply lxor_word; assumption).
  apply lxor_twice.
Qed.
Lemma hash_unhash h v : Z.odd h = true -> is_word h -> is_word v ->
  fst (hash h (unhash (w32 (h * MULT_A)) h v)) = v.
Proof.
  intros Ho Hh Hv. unfold unhash, hash. cbn [fst]. rewrite lxor_twice.
  rewrite w32_mul_l. rewrite <- Z.mul_assoc. rewrite (Z.mul_comm (fast_exp _ _)).
  rewrite <- w32_mul_r. rewrite inverse by (apply odd_step, Ho). rewrite Z.mul_1_r.
  rewrite w32_id by (apply xorshift_word, Hv). apply xorshift_twice, Hv.
Qed.
Lemma unhash_word c h v : is_word h -> is_word (unhash c h v).
Proof. intro H. apply lxor_word; [apply w32_word|exact H]. Qed.

Definition unmix (v y : Z) : Z := w32 (w32 (xorshift v + w32 (MIX_MULT_R * y)) * MIX_INV_L).
Lemma mix_word x y : is_word (mix x y).
Proof. apply xorshift_word, w32_word. Qed.
Lemma unmix_word v y : is_word (unmix v y).
Proof. apply w32_word. Qed.
Lemma unmix_mix x y : is_word x -> unmix (mix x y) y = x.
Proof.
  intro H. unfold unmix, mix. rewrite xorshift_twice by apply w32_word.
  rewrite w32_sub_l, w32_sub_r, w32_add_l, w32_add_r.
  replace (MIX_MULT_L * x - MIX_MULT_R * y + MIX_MULT_R * y) with (MIX_MULT_L * x) by ring.
  rewrite w32_mul_l. replace (MIX_MULT_L * x * MIX_INV_L) with (x * (MIX_MULT_L * MIX_INV_L)) by ring.
  rewrite <- w32_mul_r. unfold MIX_INV_L. rewrite inverse by reflexivity. rewrite Z.mul_1_r. apply w32_id, H.
Qed.
Lemma mix_unmix v y : is_word v -> mix (unmix v y) y = v.
Proof.
  intro H. unfold unmix, mix. rewrite w32_mul_r, w32_sub_l, w32_sub_r.
  replace (MIX_MULT_L * (w32 (xorshift v + w32 (MIX_MULT_R * y)) * MIX_INV_L) - MIX_MULT_R * y)
    with (w32 (xorshift v + w32 (MIX_MULT_R * y)) * (MIX_MULT_L * MIX_INV_L) - MIX_MULT_R * y) by ring.
  rewrite <- w32_sub_l. rewrite <- w32_mul_r. unfold MIX_INV_L. rewrite inverse by reflexivity. rewrite Z.mul_1_r.
  rewrite w32_sub_l. rewrite <- w32_sub_l. rewrite w32_add_r. rewrite !w32_sub_l.
  replace (xorshift v + MIX_MULT_R * y - MIX_MULT_R * y) with (xorshift v) by ring.
  rewrite w32_id by (apply xorshift_word, H). apply xorshift_twice, H.
Qed.
