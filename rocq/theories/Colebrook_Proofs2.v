(** * The Newton steps of exact_turbulent_lambda *)
From Coq Require Import Reals Lra Lia Psatz.
From Coquelicot Require Import Coquelicot.
From Verif Require Import Base Interp_Model Interp_Proofs Euler_Model Colebrook_Model Colebrook_Spec Colebrook_Proofs.
Local Open Scope R_scope.

Definition cc : R := 2 / ln 10.
Lemma cc_bounds : 8 / 10 < cc < 91 / 100.
Proof.
  pose proof ln10_lo. pose proof ln10_up. unfold cc. split.
  - apply (Rmult_lt_reg_r (ln 10)); [lra|]. unfold Rdiv at 2. rewrite Rmult_assoc, Rinv_l by lra. lra.
  - apply (Rmult_lt_reg_r (ln 10)); [lra|]. unfold Rdiv at 1. rewrite Rmult_assoc, Rinv_l by lra. lra.
Qed.
Lemma log10_cc x : 2 * log10 x = cc * ln x.
Proof. unfold log10, cc. pose proof ln10_lo. field. lra. Qed.

(** One step for mu + cc ln (a mu + b). *)
Section Step.
  Variables a b : R.
  Hypothesis Ha : 0 < a.
  Hypothesis Hb : 0 <= b.
  Definition inn mu := a * mu + b.
  Definition g mu := mu + cc * ln (inn mu).
  Definition nstep mu := mu - g mu / (1 + cc * a / inn mu).
  Definition rel mu := a * (g mu / (1 + cc * a / inn mu)) / inn mu.

  Lemma inn_pos mu : 0 < mu -> 0 < inn mu.
  Proof using Ha Hb. intro. unfold inn. nra. Qed.
  Lemma slope_pos mu : 0 < mu -> 1 < 1 + cc * a / inn mu.
  Proof using Ha Hb.
    intro H. pose proof (inn_pos mu H). pose proof cc_bounds.
    assert (0 < cc * a / inn mu); [|lra]. apply Rdiv_lt_0_compat; nra.
  Qed.
  Lemma inn_step mu : 0 < mu -> inn (nstep mu) = inn mu * (1 - rel mu).
  Proof using Ha Hb.
    intro H. pose proof (inn_pos mu H) as P. pose proof (slope_pos mu H) as S.
    unfold rel, nstep. set (s := g mu / _) in *. unfold inn at 1. unfold inn in P |- *. field. lra.
  Qed.
  Lemma g_rel mu : 0 < mu -> rel mu * (inn mu + cc * a) = a * g mu.
  Proof using Ha Hb.
    intro H. pose proof (inn_pos mu H) as P. pose proof cc_bounds as C. unfold rel.
    field. split; [lra|]. nra.
  Qed.
  Lemma g_step mu : 0 < mu -> rel mu < 1 -> g (nstep mu) = cc * (ln (1 - rel mu) + rel mu).
  Proof using Ha Hb.
    intros H W. pose proof (inn_pos mu H) as P. pose proof (slope_pos mu H) as S.
    unfold g at 1. rewrite inn_step by assumption. rewrite ln_mult by lra.
    assert (E : nstep mu = mu - g mu + cc * rel mu).
    { unfold nstep, rel. field. split; [lra|]. pose proof cc_bounds. nra. }
    rewrite E. unfold g. ring.
  Qed.
  Lemma step_le0 mu : 0 < mu -> rel mu < 1 -> g (nstep mu) <= 0.
  Proof using Ha Hb.
    intros H W. rewrite g_step by assumption. pose proof cc_bounds.
    pose proof (ln_le_sub (1 - rel mu) ltac:(lra)). nra.
  Qed.
  Lemma rel_sign mu : 0 < mu -> g mu <= 0 -> rel mu <= 0.
  Proof using Ha Hb.
    intros H G. pose proof (g_rel mu H) as E. pose proof (inn_pos mu H). pose proof cc_bounds.
    destruct (Rle_dec (rel mu) 0) as [|N]; [assumption|exfalso].
    assert (0 < inn mu + cc * a) by nra. assert (0 < rel mu * (inn mu + cc * a)) by (apply Rmult_lt_0_compat; lra).
    assert (0 <= a * - g mu) by (apply Rmult_le_pos; lra). lra.
  Qed.
  (** From a point with inner value below one, the step stays among the positive numbers. *)
  Lemma step_pos mu : 0 < mu -> inn mu < 1 \/ g mu <= 0 -> 0 < nstep mu /\ rel mu < 1.
  Proof using Ha Hb.
    intros H D. pose proof (inn_pos mu H) as P. pose proof (slope_pos mu H) as S. pose proof cc_bounds as C.
    assert (Q : 0 < nstep mu).
    { unfold nstep. destruct D as [D|D].
      - assert (E : mu - g mu / (1 + cc * a / inn mu)
                    = (mu * (cc * a / inn mu) - cc * ln (inn mu)) / (1 + cc * a / inn mu)).
        { unfold g. field. split; [lra|]. nra. }
        rewrite E. apply Rdiv_lt_0_compat; [|lra].
        assert (ln (inn mu) < 0) by (rewrite <- ln_1; apply ln_increasing; lra).
        assert (0 < cc * a / inn mu) by lra. nra.
      - assert (0 <= - g mu / (1 + cc * a / inn mu)); [|unfold Rdiv in *; lra].
        apply Rmult_le_pos; [lra|]. left. apply Rinv_0_lt_compat. lra. }
    split; [exact Q|]. pose proof (inn_pos _ Q) as P'. rewrite inn_step in P' by assumption. nra.
  Qed.
  Lemma rel_bound mu : 0 < mu -> Rabs (rel mu) * (mu + cc) <= Rabs (g mu).
  Proof using Ha Hb.
    intro H. pose proof (g_rel mu H) as E. pose proof (inn_pos mu H) as P. pose proof cc_bounds as C.
    assert (A : Rabs (rel mu) * (inn mu + cc * a) = a * Rabs (g mu)).
    { assert (K : Rabs (rel mu * (inn mu + cc * a)) = Rabs (a * g mu)) by (rewrite E; reflexivity).
      rewrite !Rabs_mult, (Rabs_pos_eq a), (Rabs_pos_eq (inn mu + cc * a)) in K by nra. exact K. }
    assert (B : a * (mu + cc) <= inn mu + cc * a) by (unfold inn; nra).
    pose proof (Rabs_pos (rel mu)). apply (Rmult_le_reg_l a); [assumption|]. rewrite <- A. nra.
  Qed.
  (** Steps from below. *)
  Lemma below_square mu : 0 < mu -> g mu <= 0 -> - (g mu * g mu) <= g (nstep mu).
  Proof using Ha Hb.
    intros H G. destruct (step_pos mu H (or_intror G)) as (_ & W).
    pose proof (rel_sign mu H G) as W0. pose proof (rel_bound mu H) as B. pose proof cc_bounds as C.
    rewrite g_step by assumption.
    rewrite (Rabs_left1 (rel mu)), (Rabs_left1 (g mu)) in B by lra.
    pose proof (ln_lower_pos (- rel mu) ltac:(lra)) as L. replace (1 + - rel mu) with (1 - rel mu) in L by ring.
    set (w := - rel mu) in *. set (q := - g mu) in *. 
    replace (g mu * g mu) with (q * q) by (unfold q; ring).
    replace (rel mu) with (- w) in * by (unfold w; ring).
    assert (w * cc <= q) by nra.
    assert ((w * cc) * (w * cc) <= q * q) by (apply Rmult_le_compat; nra).
    assert (cc * (w * w) / 2 <= q * q) by nra. nra.
  Qed.
  (** A step from above, not too far away. *)
  Lemma above_square mu : / 2 <= mu -> 0 <= g mu -> g mu <= 1 / 2 -> - (g mu * g mu) <= g (nstep mu).
  Proof using Ha Hb.
    intros H G U. assert (M : 0 < mu) by lra. pose proof (rel_bound mu M) as B. pose proof cc_bounds as C.
    pose proof (g_rel mu M) as E. pose proof (inn_pos mu M) as P.
    assert (W0 : 0 <= rel mu).
    { destruct (Rle_dec 0 (rel mu)) as [|N]; [assumption|exfalso].
      assert (0 < inn mu + cc * a) by nra. nra. }
    rewrite (Rabs_pos_eq (rel mu)), (Rabs_pos_eq (g mu)) in B by lra.
    assert (W : rel mu <= / 2) by nra.
    rewrite g_step by lra. pose proof (ln_lower_neg (rel mu) ltac:(lra)) as L.
    set (w := rel mu) in *. set (q := g mu) in *.
    assert (w * (/ 2 + cc) <= q) by nra.
    assert ((w * (/ 2 + cc)) * (w * (/ 2 + cc)) <= q * q) by (apply Rmult_le_compat; nra).
    assert (cc * (w * w) <= q * q) by nra. nra.
  Qed.
  Lemma g_increasing x y : 0 < x -> x < y -> y - x <= g y - g x.
  Proof using Ha Hb.
    intros X Y. unfold g. pose proof cc_bounds.
    assert (ln (inn x) <= ln (inn y)); [|nra].
    apply Rcomplements.ln_le; [apply inn_pos; assumption|unfold inn; nra].
  Qed.
  Lemma g_cont x : 0 < x -> continuous g x.
  Proof using Ha Hb.
    intro X. apply (ex_derive_continuous g). unfold g, inn. auto_derive. pose proof (inn_pos x X) as P.
    unfold inn in P. exact P.
  Qed.
End Step.

Lemma model_step Re D k mu :
  mu - cb_f Re D k mu / cb_df Re D k mu = nstep (251 / 100 / Re) (k / (371 / 100 * D)) mu.
Proof.
  unfold nstep, g, inn, cb_f, cb_df, cb_inner. rewrite log10_cc. unfold cc. reflexivity.
Qed.
Lemma model_f Re D k mu : cb_f Re D k mu = g (251 / 100 / Re) (k / (371 / 100 * D)) mu.
Proof. unfold g, inn, cb_f, cb_inner. rewrite log10_cc. reflexivity. Qed.

(** The loop makes one or two steps. *)
Lemma loop_steps Re D k mu :
  0 < Re -> 0 < D -> 0 <= k -> 0 < mu -> cb_inner Re D k mu < 1 ->
  let a := 251 / 100 / Re in let b := k / (371 / 100 * D) in
  cb_loop 10 Re D k mu = if Rltb (cb_f Re D k mu) (/ 10 ^ 12) then nstep a b mu else nstep a b (nstep a b mu).
Proof.
  intros HR HD Hk M I a b.
  assert (Ha : 0 < a) by (unfold a; apply Rdiv_lt_0_compat; lra).
  assert (Hb : 0 <= b) by (unfold b; apply Rmult_le_pos; [lra|]; left; apply Rinv_0_lt_compat; lra).
  cbn [cb_loop]. rewrite model_step. fold a b.
  destruct (Rltb (cb_f Re D k mu) (/ 10 ^ 12)) eqn:Q; [reflexivity|].
  rewrite model_step. fold a b.
  destruct (step_pos a b Ha Hb mu M (or_introl I)) as (_ & W).
  pose proof (step_le0 a b Ha Hb mu M W) as G. rewrite (model_f Re D k (nstep a b mu)). fold a b.
  unfold Rltb at 1. destruct (Rlt_dec _ _) as [|N]; [reflexivity|].
  exfalso. apply N. eapply Rle_lt_trans; [exact G|]. apply Rinv_0_lt_compat. apply pow_lt. lra.
Qed.

(** ** The start value *)
Definition arg (Re D k : R) : R := k / (37 / 10 * D) + 574 / 100 / Rpower Re (9 / 10).

Lemma tenth_root Re : 0 < Re -> exists y, 0 < y /\ Re = y ^ 10 /\ Rpower Re (9 / 10) = y ^ 9.
Proof.
  intro H. exists (Rpower Re (/ 10)). split; [apply exp_pos|].
  rewrite <- !Rpower_pow by apply exp_pos. rewrite !Rpower_mult. split.
  - rewrite <- (Rpower_1 Re H) at 1. f_equal. simpl. lra.
  - f_equal. simpl. lra.
Qed.

Lemma root_lower y : 0 < y -> 4000 - / 10 ^ 10 <= y ^ 10 -> 22 / 10 < y.
Proof.
  intros P H. destruct (Rlt_dec (22 / 10) y) as [|N]; [assumption|exfalso].
  assert (y ^ 10 <= (22 / 10) ^ 10) by (apply pow_incr; lra).
  assert ((22 / 10) ^ 10 < 3000) by (simpl; lra).
  assert (/ 10 ^ 10 < 1). { rewrite <- Rinv_1. apply Rinv_lt_contravar; simpl; lra. } lra.
Qed.
Lemma ln3_up : ln 3 < 12 / 10.
Proof.
  assert (H : ln 3 * 5 < ln (26 / 10) * 6).
  { replace 6 with (INR 6) by (simpl; lra). replace 5 with (INR 5) by (simpl; lra).
    rewrite !(Rmult_comm (ln _)), <- !Rcomplements.ln_pow by lra. apply ln_increasing; simpl; lra. }
  assert (ln (26 / 10) < 1).
  { rewrite <- (ln_exp 1). apply ln_increasing; [lra|apply exp1_lo]. }
  lra.
Qed.

Lemma start_value Re D k : turbulent_pipe Re D k ->
  let mu := - (cc * ln (arg Re D k)) in
  0 < Re /\ / 2 <= mu /\ cb_inner Re D k mu < 1 /\ cb_f Re D k mu <= 1 / 2 /\
  log10 (arg Re D k) < 0.
Proof.
  intros (HR & HD & Hk) mu.
  assert (E10 : / 10 ^ 10 < 1). { rewrite <- Rinv_1. apply Rinv_lt_contravar; simpl; lra. }
  assert (R0 : 0 < Re) by lra. destruct (tenth_root Re R0) as (y & Y & ER & E9).
  pose proof (root_lower y Y ltac:(rewrite <- ER; exact HR)) as Y2.
  pose proof cc_bounds as C. pose proof ln10_lo as LL.
  assert (P9 : 1200 < y ^ 9).
  { eapply Rlt_le_trans; [|apply pow_incr; split; [|left; exact Y2]; lra]. simpl. lra. }
  set (kd := k / D). assert (K : 0 <= kd <= 2).
  { unfold kd. split; [apply Rmult_le_pos; [lra|left; apply Rinv_0_lt_compat; lra]|].
    apply (Rmult_le_reg_r D); [assumption|]. unfold Rdiv. rewrite Rmult_assoc, Rinv_l by lra. lra. }
  assert (EA : arg Re D k = kd / (37 / 10) + 574 / 100 / y ^ 9).
  { unfold arg, kd. rewrite E9. field. split; lra. }
  set (z := / y ^ 9) in *. 
  assert (Z : 0 < z < / 1200).
  { unfold z. split; [apply Rinv_0_lt_compat; lra|]. apply Rinv_lt_contravar; nra. }
  assert (EA' : arg Re D k = kd * (10 / 37) + 574 / 100 * z) by (rewrite EA; unfold z; field; lra).
  assert (A0 : 574 / 100 * z <= arg Re D k) by (rewrite EA'; lra).
  assert (AP : 0 < arg Re D k) by lra.
  assert (A1 : arg Re D k < 56 / 100) by (rewrite EA'; lra).
  assert (LA : ln (arg Re D k) <= - (ln 10 / 4)).
  { pose proof (pow_ln_le (arg Re D k) (/ 10) 4 1 AP ltac:(lra)) as H.
    rewrite ln_Rinv in H by lra. simpl INR in H. assert (arg Re D k ^ 4 <= (/ 10) ^ 1); [|specialize (H H0); lra].
    eapply Rle_trans; [apply pow_incr; split; [left; exact AP|left; exact A1]|]. simpl. lra. }
  assert (M : / 2 <= mu).
  { unfold mu. assert (cc * (ln 10 / 4) = / 2) by (unfold cc; field; lra). nra. }
  assert (MU : mu <= 2995 / 1000 * y).
  { assert (L1 : ln (574 / 100) + - (9 * ln y) <= ln (arg Re D k)).
    { assert (Q : ln (574 / 100 * z) = ln (574 / 100) + - (9 * ln y)).
      { rewrite ln_mult by lra. unfold z. rewrite ln_Rinv by lra. rewrite Rcomplements.ln_pow by assumption.
        simpl INR. ring_simplify. lra. }
      rewrite <- Q. apply Rcomplements.ln_le; lra. }
    assert (L2 : 3 * ln 10 <= 4 * ln (574 / 100)).
    { pose proof (pow_ln_le 10 (574 / 100) 3 4 ltac:(lra) ltac:(lra) ltac:(simpl; lra)) as H. simpl INR in H. lra. }
    assert (L3 : cc * ln 10 = 2) by (unfold cc; field; lra).
    assert (L4 : 15 / 10 <= cc * ln (574 / 100)) by nra.
    pose proof (ln_le_scaled y 3 Y ltac:(lra)) as L5. pose proof ln3_up as L6.
    assert (L7 : ln y <= y / 3 + 2 / 10) by lra.
    assert (L8 : cc * (9 * ln y) <= 91 / 100 * (9 * (y / 3 + 2 / 10))).
    { assert (0 < ln y) by (rewrite <- ln_1; apply ln_increasing; lra). apply Rmult_le_compat; lra. }
    assert (L9 : mu <= cc * (9 * ln y) - cc * ln (574 / 100)) by (unfold mu; nra). lra. }
  assert (EI : cb_inner Re D k mu = 251 / 100 * (mu / y) * z + kd * (100 / 371)).
  { unfold cb_inner, kd, z. rewrite ER. field. repeat split; lra. }
  assert (MY : mu / y <= 2995 / 1000).
  { apply (Rmult_le_reg_r y); [assumption|]. unfold Rdiv at 1. rewrite Rmult_assoc, Rinv_l by lra. lra. }
  assert (MY0 : 0 < mu / y) by (apply Rdiv_lt_0_compat; lra).
  assert (MZ : 251 / 100 * (mu / y) * z <= 251 / 100 * (2995 / 1000) * z) by nra.
  split; [assumption|]. split; [assumption|]. split; [rewrite EI; lra|]. split.
  - unfold cb_f. rewrite log10_cc. unfold mu at 1.
    assert (IP : 0 < cb_inner Re D k mu) by (rewrite EI; nra).
    assert (L : ln (cb_inner Re D k mu) <= ln (131 / 100 * arg Re D k)).
    { apply Rcomplements.ln_le; [assumption|]. rewrite EI, EA'. lra. }
    rewrite ln_mult in L by lra. pose proof (ln_le_sub (131 / 100) ltac:(lra)). nra.
  - unfold log10. assert (ln (arg Re D k) < 0) by lra.
    apply (Rmult_lt_reg_r (ln 10)); [lra|]. unfold Rdiv. rewrite Rmult_assoc, Rinv_l by lra. lra.
Qed.

Lemma sqrt_lambda aux : aux < 0 -> 1 / sqrt (1 / 4 / (aux * aux)) = - (2 * aux).
Proof.
  intro H. replace (1 / 4 / (aux * aux)) with ((/ - (2 * aux)) * (/ - (2 * aux))) by (field; lra).
  rewrite sqrt_square by (left; apply Rinv_0_lt_compat; lra). field. lra.
Qed.
Lemma residual_mu Re D k mu : 0 < Re -> 0 < mu -> colebrook_residual Re D k (1 / (mu * mu)) = cb_f Re D k mu.
Proof.
  intros HR M. unfold colebrook_residual, cb_f, cb_inner, log10.
  replace (1 / (mu * mu)) with ((/ mu) * (/ mu)) by (field; lra).
  rewrite sqrt_square by (left; apply Rinv_0_lt_compat; lra). rewrite Rinv_inv.
  replace (251 / 100 / (Re * / mu)) with (251 / 100 / Re * mu) by (field; lra). reflexivity.
Qed.
Lemma Swamee_ok Re D k : turbulent_pipe Re D k ->
  exists l0, Swamee_Jain Re D k = Ok l0 /\ 1 / sqrt l0 = - (cc * ln (arg Re D k)) /\
    exists mu0, l0 = 1 / (mu0 * mu0) /\ mu0 = - (cc * ln (arg Re D k)).
Proof.
  intro T. destruct (start_value Re D k T) as (R0 & M & _ & _ & L). destruct T as (HR & _).
  unfold Swamee_Jain, turbulent_border, EPSILON. unfold Rltb. destruct (Rlt_dec _ _); [lra|].
  fold (arg Re D k). cbv zeta. eexists. split; [reflexivity|].
  assert (Q : - (2 * log10 (arg Re D k)) = - (cc * ln (arg Re D k))) by (rewrite log10_cc; reflexivity).
  split; [rewrite sqrt_lambda by assumption; exact Q|].
  exists (- (2 * log10 (arg Re D k))). split; [field; lra|exact Q].
Qed.

(** ** The result *)
Lemma result_main Re D k : turbulent_pipe Re D k ->
  exists mu0 mu, Swamee_Jain Re D k = Ok (1 / (mu0 * mu0)) /\
    exact_turbulent_lambda Re D k = Ok (1 / (mu * mu)) /\ 0 < Re /\ 0 < mu0 /\ 0 < mu /\
    cb_f Re D k mu <= 0 /\ - (cb_f Re D k mu0 * cb_f Re D k mu0) <= cb_f Re D k mu.
Proof.
  intro T. destruct (start_value Re D k T) as (R0 & M & I & U & _).
  destruct (Swamee_ok Re D k T) as (l0 & S & Q & mu0 & E0 & E1). rewrite <- E1 in *. clear E1.
  pose proof T as (HR & HD & Hk).
  set (a := 251 / 100 / Re) in *. set (b := k / (371 / 100 * D)) in *.
  assert (Ha : 0 < a) by (unfold a; apply Rdiv_lt_0_compat; lra).
  assert (Hb : 0 <= b) by (unfold b; apply Rmult_le_pos; [lra|]; left; apply Rinv_0_lt_compat; lra).
  assert (M0 : 0 < mu0) by lra.
  destruct (step_pos a b Ha Hb mu0 M0 (or_introl I)) as (P1 & W1).
  pose proof (step_le0 a b Ha Hb mu0 M0 W1) as G1.
  destruct (step_pos a b Ha Hb _ P1 (or_intror G1)) as (P2 & W2).
  pose proof (step_le0 a b Ha Hb _ P1 W2) as G2.
  assert (SQ : - (g a b mu0 * g a b mu0) <= g a b (nstep a b mu0)).
  { destruct (Rle_dec (g a b mu0) 0) as [N|N]; [apply below_square; assumption|].
    apply above_square; try assumption; [lra|]. rewrite model_f in U. exact U. }
  exists mu0, (cb_loop 10 Re D k mu0). rewrite <- E0. split; [exact S|].
  unfold exact_turbulent_lambda. unfold turbulent_border, EPSILON, Rltb at 1.
  destruct (Rlt_dec _ _); [lra|]. rewrite S. cbn [obind]. rewrite Q. split; [reflexivity|].
  split; [assumption|]. split; [assumption|]. rewrite !model_f. fold a b.
  rewrite (loop_steps Re D k mu0 R0 HD (proj1 Hk) M0 I). fold a b.
  unfold Rltb. destruct (Rlt_dec _ _) as [B|B].
  - split; [assumption|]. split; assumption.
  - split; [assumption|]. split; [assumption|].
    rewrite model_f in B, U. fold a b in B, U.
    pose proof (below_square a b Ha Hb _ P1 G1) as SQ2.
    assert (0 < / 10 ^ 12) by (apply Rinv_0_lt_compat, pow_lt; lra).
    set (g0 := g a b mu0) in *. set (g1 := g a b (nstep a b mu0)) in *.
    assert (0 <= g0 <= 1 / 2) by lra. assert (- g1 <= g0 * g0) by lra. assert (- g1 <= 1) by nra. nra.
Qed.
