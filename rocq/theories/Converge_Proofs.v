(** * Convergence of the Newton solver: norms and the estimate of the residual *)
From Coq Require Import Reals List Arith Lra Lia FunctionalExtensionality.
From Coquelicot Require Import Coquelicot.
From Verif Require Import Base Calc Net_Model Sim_Model Converge_Spec.
Local Open Scope R_scope.

Definition dot (n : nat) (a b : vec) : R := vsum n (fun k => a k * b k).

Lemma vsum_mono n f g : (forall k, (k < n)%nat -> f k <= g k) -> vsum n f <= vsum n g.
Proof.
  induction n as [|n IH]; intro H; cbn [vsum]; [lra|].
  apply Rplus_le_compat; [apply IH; intros; apply H; lia|apply H; lia].
Qed.
Lemma squares_pos n v : 0 <= vsum n (fun k => v k ^ 2).
Proof.
  induction n as [|n IH]; cbn [vsum]; [lra|]. pose proof (pow2_ge_0 (v n)). lra.
Qed.
Lemma norm_length n v : euclidean_norm n v = length_of n v.
Proof.
  unfold euclidean_norm, length_of. f_equal. induction n as [|n IH]; cbn [sum_squares vsum]; [reflexivity|]. rewrite IH. ring.
Qed.
Lemma length_pos n v : 0 <= length_of n v.
Proof. apply sqrt_pos. Qed.
Lemma length_sqr n v : length_of n v ^ 2 = vsum n (fun k => v k ^ 2).
Proof. unfold length_of. replace (_ ^ 2) with (sqrt (vsum n (fun k => v k ^ 2)) * sqrt (vsum n (fun k => v k ^ 2))) by ring. apply sqrt_sqrt, squares_pos. Qed.
Lemma length_ext n v w : (forall k, (k < n)%nat -> v k = w k) -> length_of n v = length_of n w.
Proof. intro H. unfold length_of. f_equal. apply vsum_ext. intros k K. rewrite H by exact K. reflexivity. Qed.

Lemma cauchy_schwarz n a b : dot n a b <= length_of n a * length_of n b.
Proof.
  assert (H : dot n a b ^ 2 <= vsum n (fun k => a k ^ 2) * vsum n (fun k => b k ^ 2)).
  { unfold dot. induction n as [|n IH]; cbn [vsum]; [lra|].
    set (S := vsum n (fun k => a k * b k)) in *. set (A := vsum n (fun k => a k ^ 2)) in *. set (B := vsum n (fun k => b k ^ 2)) in *.
    assert (A0 : 0 <= A) by apply squares_pos. assert (B0 : 0 <= B) by apply squares_pos. clearbody S A B.
    set (x := a n). set (y := b n). clearbody x y.
    assert (Q : 2 * S * (x * y) <= A * y ^ 2 + B * x ^ 2).
    { assert (P : 0 <= A * y ^ 2 + B * x ^ 2).
      { apply Rplus_le_le_0_compat; apply Rmult_le_pos; auto; apply pow2_ge_0. }
      apply Rle_trans with (Rabs (2 * S * (x * y))); [apply Rle_abs|].
      rewrite <- (Rabs_pos_eq _ P). apply Rsqr_le_abs_0. unfold Rsqr.
      assert (K : S ^ 2 * (x * y) ^ 2 <= A * B * (x * y) ^ 2) by (apply Rmult_le_compat_r; [apply pow2_ge_0|exact IH]).
      pose proof (pow2_ge_0 (A * y ^ 2 - B * x ^ 2)). nra. }
    nra. }
  rewrite <- !length_sqr in H.
  destruct (Rle_lt_dec (dot n a b) 0) as [D|D].
  - eapply Rle_trans; [exact D|]. apply Rmult_le_pos; apply length_pos.
  - apply Rsqr_incr_0_var; [unfold Rsqr; nra|]. apply Rmult_le_pos; apply length_pos.
Qed.

Lemma length_add n a b : length_of n (fun k => a k + b k) <= length_of n a + length_of n b.
Proof.
  apply Rsqr_incr_0_var.
  - unfold Rsqr. replace (length_of n (fun k => a k + b k) * length_of n (fun k => a k + b k)) with (length_of n (fun k => a k + b k) ^ 2) by ring.
    rewrite length_sqr, (vsum_ext n _ (fun k => (a k ^ 2 + b k ^ 2) + 2 * (a k * b k))) by (intros; ring).
    rewrite !vsum_plus, vsum_scal. pose proof (cauchy_schwarz n a b) as C. unfold dot in C. rewrite <- !length_sqr. nra.
  - pose proof (length_pos n a). pose proof (length_pos n b). lra.
Qed.
Lemma length_scal n c a : length_of n (fun k => c * a k) = Rabs c * length_of n a.
Proof.
  unfold length_of. rewrite (vsum_ext n _ (fun k => c ^ 2 * a k ^ 2)) by (intros; ring). rewrite vsum_scal, sqrt_mult_alt by apply pow2_ge_0.
  f_equal. rewrite <- (sqrt_Rsqr_abs c). f_equal. unfold Rsqr. ring.
Qed.
Lemma length_opp n a : length_of n (fun k => - a k) = length_of n a.
Proof.
  rewrite (length_ext n _ (fun k => -1 * a k)) by (intros; ring). rewrite length_scal, Rabs_left by lra. ring.
Qed.
Lemma length_zero n a : length_of n a <= 0 -> forall k, (k < n)%nat -> a k = 0.
Proof.
  intros H k K. assert (Z : vsum n (fun k => a k ^ 2) = 0).
  { rewrite <- length_sqr. pose proof (length_pos n a). replace (length_of n a) with 0 by lra. ring. }
  clear H. induction n as [|n IH]; [lia|]. cbn [vsum] in Z. pose proof (squares_pos n a). pose proof (pow2_ge_0 (a n)).
  destruct (Nat.eq_dec k n) as [->|N]; [|apply IH; [lia|lra]]. apply Rsqr_0_uniq. unfold Rsqr. nra.
Qed.
Lemma length_of_zero n a : (forall k, (k < n)%nat -> a k = 0) -> length_of n a = 0.
Proof.
  intro H. unfold length_of. rewrite (vsum_ext n _ (fun _ => 0)) by (intros k K; rewrite (H k K); ring). rewrite vsum_zero. apply sqrt_0.
Qed.
Lemma distance_sym n x y : distance n x y = distance n y x.
Proof. unfold distance. rewrite <- length_opp. apply length_ext. intros; ring. Qed.
Lemma distance_refl n x : distance n x x = 0.
Proof. apply length_of_zero. intros; ring. Qed.
Lemma distance_triangle n x y z : distance n x z <= distance n x y + distance n y z.
Proof.
  unfold distance. rewrite (length_ext n (fun k => x k - z k) (fun k => (x k - y k) + (y k - z k))) by (intros; ring). apply length_add.
Qed.
(** Balls are convex. *)
Lemma ball_convex n x y z r t : distance n x z <= r -> distance n y z <= r -> 0 <= t <= 1 ->
  distance n (fun k => x k + t * (y k - x k)) z <= r.
Proof.
  intros Hx Hy Ht. unfold distance in *.
  rewrite (length_ext n _ (fun k => (1 - t) * (x k - z k) + t * (y k - z k))) by (intros; ring).
  eapply Rle_trans; [apply length_add|]. rewrite !length_scal, !Rabs_pos_eq by lra. nra.
Qed.

(** ** The estimate of the residual *)

Lemma derive_along n F x h t J i : derivative_at n F (fun k => x k + t * h k) J -> has_size n h -> (i < n)%nat ->
  is_derive (fun s => F (fun k => x k + s * h k) i) t (times n J h i).
Proof.
  intros D S I. specialize (D h i S I).
  apply (is_derive_ext (fun s => (fun r => F (fun k => x k + t * h k + r * h k) i) (s - t))).
  - intro s. f_equal. extensionality k. ring.
  - apply (is_derive_value _ _ (1 * times n J h i)); [|ring].
    apply (is_derive_comp (fun r => F (fun k => x k + t * h k + r * h k) i) (fun s => s - t)).
    + replace (t - t) with 0 by ring. exact D.
    + auto_derive; [exact Logic.I|ring].
Qed.

Lemma derive_vsum n (f : nat -> R -> R) (d : nat -> R) t : (forall k, (k < n)%nat -> is_derive (f k) t (d k)) ->
  is_derive (fun s => vsum n (fun k => f k s)) t (vsum n d).
Proof.
  induction n as [|n IH]; intro H; cbn [vsum].
  - apply @is_derive_const.
  - apply (is_derive_plus (fun s => vsum n (fun k => f k s)) (f n)); [apply IH; intros; apply H; lia|apply H; lia].
Qed.

(** If the derivative along the segment from [x] to [x + h] differs from [A] by at most
    [a + b * t] in the direction [h], then the linear approximation with [A] is wrong by at most
    [a + b / 2]. *)
Lemma approximation n F J A x h a b : has_size n h ->
  (forall t, 0 <= t <= 1 -> derivative_at n F (fun k => x k + t * h k) (J t)) ->
  (forall t, 0 <= t <= 1 -> length_of n (fun i => times n (J t) h i - times n A h i) <= a + b * t) ->
  length_of n (fun i => F (fun k => x k + h k) i - F x i - times n A h i) <= a + b / 2.
Proof.
  intros S D B. set (d := fun i => F (fun k => x k + h k) i - F x i - times n A h i).
  set (psi := fun t => vsum n (fun i => d i * (F (fun k => x k + t * h k) i - t * times n A h i)) - length_of n d * (a * t + b * t ^ 2 / 2)).
  set (dpsi := fun t => vsum n (fun i => d i * (times n (J t) h i - times n A h i)) - length_of n d * (a + b * t)).
  assert (Dp : forall t, 0 <= t <= 1 -> is_derive psi t (dpsi t)).
  { intros t Ht. unfold psi, dpsi. apply (is_derive_minus (fun t => vsum n (fun i => d i * (F (fun k => x k + t * h k) i - t * times n A h i))) (fun t => length_of n d * (a * t + b * t ^ 2 / 2))).
    - apply (derive_vsum n (fun i t => d i * (F (fun k => x k + t * h k) i - t * times n A h i))). intros i I.
      apply (is_derive_scal (fun t => F (fun k => x k + t * h k) i - t * times n A h i)).
      apply (is_derive_minus (fun t => F (fun k => x k + t * h k) i) (fun t => t * times n A h i)).
      + apply derive_along; [apply D; exact Ht|exact S|exact I].
      + auto_derive; [exact Logic.I|ring].
    - auto_derive; [exact Logic.I|field]. }
  assert (M : psi 1 <= psi 0).
  { destruct (MVT_gen psi 0 1 dpsi) as (c & Hc & E).
    - intros t Ht. rewrite Rmin_left, Rmax_right in Ht by lra. apply Dp. lra.
    - intros t Ht. rewrite Rmin_left, Rmax_right in Ht by lra. apply continuity_pt_filterlim.
      apply (ex_derive_continuous psi t). exists (dpsi t). apply Dp. exact Ht.
    - rewrite Rmin_left, Rmax_right in Hc by lra. enough (dpsi c <= 0) by lra. unfold dpsi.
      pose proof (cauchy_schwarz n d (fun i => times n (J c) h i - times n A h i)) as C. unfold dot in C.
      pose proof (B c Hc). pose proof (length_pos n d). nra. }
  unfold psi in M.
  assert (E : vsum n (fun i => d i * (F (fun k => x k + 1 * h k) i - 1 * times n A h i)) - vsum n (fun i => d i * (F (fun k => x k + 0 * h k) i - 0 * times n A h i)) = length_of n d ^ 2).
  { rewrite length_sqr. replace (fun k => x k + 1 * h k) with (fun k => x k + h k) by (extensionality k; ring).
    replace (fun k => x k + 0 * h k) with x by (extensionality k; ring).
    transitivity (vsum n (fun i => d i * (F (fun k => x k + h k) i - 1 * times n A h i)) + -1 * vsum n (fun i => d i * (F x i - 0 * times n A h i))); [ring|].
    rewrite <- vsum_scal, <- vsum_plus. apply vsum_ext. intros i _. unfold d. ring. }
  pose proof (length_pos n d) as P. destruct (Rle_lt_dec (length_of n d) (a + b / 2)) as [Q|Q]; [exact Q|exfalso].
  assert (0 <= a + b / 2).
  { pose proof (B 0 ltac:(lra)). pose proof (B 1 ltac:(lra)).
    pose proof (length_pos n (fun i => times n (J 0) h i - times n A h i)). pose proof (length_pos n (fun i => times n (J 1) h i - times n A h i)). lra. }
  nra.
Qed.
