From Coq Require Import Reals Lra Lia ZArith List Bool Arith.
From Verif Require Import Base Interp_Model Interp_Proofs Stoch_Model.
Import ListNotations.
Local Open Scope R_scope.

Lemma trials_ok fuel draw mean sd lower upper : forall k s v n,
  trials fuel draw mean sd lower upper k s = Ok (v, n) ->
  lower <= v <= upper /\
  exists i, (i < fuel)%nat /\ n = (k + i)%nat /\
    v = match i with O => s | S j => draw (k + j)%nat mean sd end /\
    forall j, (j < i)%nat ->
      let w := match j with O => s | S j' => draw (k + j')%nat mean sd end in ~ (lower <= w <= upper).
Proof.
  induction fuel as [|f IH]; intros k s v n H; [discriminate|]. cbn [trials] in H.
  destruct (Rleb lower s && Rleb s upper)%bool eqn:E.
  - injection H as <- <-. apply andb_true_iff in E. rewrite !Rleb_true in E. split; [exact E|].
    exists 0%nat. repeat split; try lia.
  - assert (NS : ~ (lower <= s <= upper)).
    { intros [A B]. apply Rleb_true in A, B. rewrite A, B in E. discriminate. }
    destruct (IH _ _ _ _ H) as [R [i [Hi [Hn [Hv Hm]]]]]. split; [exact R|].
    exists (S i). split; [lia|]. split; [lia|]. split.
    + rewrite Hv. destruct i as [|i]; [rewrite Nat.add_0_r; reflexivity|].
      replace (k + S i)%nat with (S k + i)%nat by lia. reflexivity.
    + intros [|j] Hj; cbv zeta; [exact NS|]. specialize (Hm j ltac:(lia)). cbv zeta in Hm.
      destruct j as [|j]; [rewrite Nat.add_0_r; exact Hm|].
      replace (k + S j)%nat with (S k + j)%nat by lia. exact Hm.
Qed.
Lemma trials_exc fuel draw mean sd lower upper : forall k s,
  trials fuel draw mean sd lower upper k s <> UB /\
  (trials fuel draw mean sd lower upper k s = Exc <->
   forall j, (j < fuel)%nat ->
     let w := match j with O => s | S j' => draw (k + j')%nat mean sd end in ~ (lower <= w <= upper)).
Proof.
  induction fuel as [|f IH]; intros k s.
  - split; [discriminate|]. split; [intros _ j Hj; lia|reflexivity].
  - cbn [trials]. destruct (Rleb lower s && Rleb s upper)%bool eqn:E.
    + split; [discriminate|]. split; [discriminate|]. intro H. exfalso. apply andb_true_iff in E. rewrite !Rleb_true in E.
      apply (H 0%nat); [lia|exact E].
    + assert (NS : ~ (lower <= s <= upper)).
      { intros [A B]. apply Rleb_true in A, B. rewrite A, B in E. discriminate. }
      destruct (IH (S k) (draw k mean sd)) as [U X]. split; [exact U|]. rewrite X. split; intros H j Hj.
      * destruct j as [|j]; cbv zeta; [exact NS|]. specialize (H j ltac:(lia)). cbv zeta in H.
        destruct j as [|j]; [rewrite Nat.add_0_r; exact H|].
        replace (k + S j)%nat with (S k + j)%nat by lia. exact H.
      * specialize (H (S j) ltac:(lia)). cbv zeta in H |- *.
        destruct j as [|j]; [rewrite Nat.add_0_r in H; exact H|].
        replace (S k + j)%nat with (k + S j)%nat by lia. exact H.
Qed.

(** ** Number of steps *)
Lemma steps_ok a theta dt n N :
  compute_stable_number_of_oup_steps a theta dt n = Ok N ->
  0 < a < 2 /\ 0 <= theta /\ (0 <= n <= N)%Z /\
  (N <> 0%Z -> theta * (dt / IZR N) < a) /\ (N = 0%Z -> ~ (0 < theta /\ 0 < dt)) /\
  (N = n \/ ((N <= int_max)%Z /\ (IZR N < theta * dt / a + 2))).
Proof.
  unfold compute_stable_number_of_oup_steps.
  destruct (Rleb a 0 || Rleb 2 a)%bool eqn:A; [discriminate|]. apply orb_false_iff in A. rewrite !Rleb_false in A.
  destruct (Rltb theta 0) eqn:T; [discriminate|]. apply Rltb_false in T.
  destruct (Z.ltb_spec n 0); [discriminate|].
  destruct (if (n =? 0)%Z then _ else _) eqn:U; intro H1.
  - set (m := (Rceil (theta * dt / a) + 1)%Z) in *. destruct (Z.leb_spec m int_max) as [L|L]; [|discriminate].
    injection H1 as <-.
    destruct (Rceil_spec (theta * dt / a)) as [C1 C2].
    assert (P : 0 < theta * dt / a /\ (IZR n <= theta * dt / a)).
    { destruct (Z.eqb_spec n 0) as [->|Z0].
      - apply andb_true_iff in U. rewrite !Rltb_true in U. split.
        + apply Rdiv_lt_0_compat; [apply Rmult_lt_0_compat; apply U|apply A].
        + left. apply Rdiv_lt_0_compat; [apply Rmult_lt_0_compat; apply U|apply A].
      - apply Rleb_true in U. assert (Hn : 0 < IZR n) by (apply IZR_lt; lia).
        assert (IZR n * a <= theta * dt).
        { replace (theta * dt) with (IZR n * (theta * (dt / IZR n))) by (field; lra).
          apply Rmult_le_compat_l; lra. }
        assert (IZR n <= theta * dt / a).
        { apply (Rmult_le_reg_r a); [lra|]. unfold Rdiv. rewrite Rmult_assoc, Rinv_l by lra. lra. }
        split; lra. }
    assert (M : IZR m = IZR (Rceil (theta * dt / a)) + 1) by (unfold m; rewrite plus_IZR; reflexivity).
    assert (NM : (n <= m)%Z) by (apply le_IZR; lra).
    assert (M0 : (0 < m)%Z) by (apply lt_IZR; lra).
    split; [lra|]. split; [exact T|]. split; [lia|]. split; [|split; [intro; lia|right; split; [exact L|lra]]].
    intros _. apply (Rmult_lt_reg_r (IZR m)); [lra|].
    replace (theta * (dt / IZR m) * IZR m) with (theta * dt) by (field; lra).
    assert (theta * dt = a * (theta * dt / a)) by (field; lra).
    rewrite H0. apply Rmult_lt_compat_l; lra.
  - injection H1 as <-. split; [lra|]. split; [exact T|]. split; [lia|]. split; [|split; [|left; reflexivity]].
    + intro Z0. destruct (Z.eqb_spec n 0); [contradiction|]. apply Rleb_false in U. exact U.
    + intros -> [P Q]. cbn in U. apply Rltb_true in P, Q. rewrite P, Q in U. discriminate.
Qed.

Lemma stable_factor x a : 0 <= x -> x < a -> a < 2 -> Rabs (1 - x) <= 1 /\ (0 < x -> Rabs (1 - x) < 1).
Proof. intros. unfold Rabs. destruct (Rcase_abs (1 - x)); lra. Qed.

(** ** Range of one step *)
Lemma sgn_pos x : 0 < x -> sgn x = 1.
Proof.
  intro H. unfold sgn. apply Rltb_true in H. rewrite H.
  assert (E : Rltb x 0 = false) by (apply Rltb_false; apply Rltb_true in H; lra). rewrite E. ring.
Qed.
Lemma sgn_neg x : x < 0 -> sgn x = -1.
Proof.
  intro H. unfold sgn. apply Rltb_true in H. rewrite H.
  assert (E : Rltb 0 x = false) by (apply Rltb_false; apply Rltb_true in H; lra). rewrite E. ring.
Qed.
Lemma sgn_zero : sgn 0 = 0.
Proof. unfold sgn. assert (E : Rltb 0 0 = false) by (apply Rltb_false; lra). rewrite E. ring. Qed.

Definition clamp_step cut mu v :=
  if Rltb (sgn mu * v) ((1 - cut) * sgn mu * mu) then (1 - cut) * mu
  else if Rltb ((1 + cut) * sgn mu * mu) (sgn mu * v) then (1 + cut) * mu
  else v.
Lemma clamp_range cut mu v : mu <> 0 -> 0 <= cut ->
  (0 < mu -> (1 - cut) * mu <= clamp_step cut mu v <= (1 + cut) * mu) /\
  (mu < 0 -> (1 + cut) * mu <= clamp_step cut mu v <= (1 - cut) * mu).
Proof.
  intros M C. unfold clamp_step. destruct (Rlt_le_dec mu 0) as [N|P].
  - rewrite (sgn_neg mu N). split; [lra|]. intros _.
    assert (0 <= cut * - mu) by (apply Rmult_le_pos; lra).
    destruct (Rltb _ _) eqn:E1; [lra|]. apply Rltb_false in E1.
    destruct (Rltb ((1 + cut) * -1 * mu) _) eqn:E2; [lra|]. apply Rltb_false in E2. lra.
  - assert (P' : 0 < mu) by lra. rewrite (sgn_pos mu P'). split; [|lra]. intros _.
    assert (0 <= cut * mu) by (apply Rmult_le_pos; lra).
    destruct (Rltb _ _) eqn:E1; [lra|]. apply Rltb_false in E1.
    destruct (Rltb ((1 + cut) * 1 * mu) _) eqn:E2; [lra|]. apply Rltb_false in E2. lra.
Qed.
Lemma clamp_contract cut mu v w : 0 <= cut -> Rabs (clamp_step cut mu v - clamp_step cut mu w) <= Rabs (v - w).
Proof.
  intro C. destruct (Req_dec mu 0) as [->|M].
  - unfold clamp_step. rewrite sgn_zero.
    assert (E : forall a b c, Rltb (0 * a) (b * 0 * c) = false /\ Rltb (b * 0 * c) (0 * a) = false)
      by (intros; split; apply Rltb_false; lra).
    rewrite !(proj1 (E _ _ _)), !(proj2 (E _ _ _)). lra.
  - unfold clamp_step. destruct (Rlt_le_dec mu 0) as [N|P].
    + rewrite (sgn_neg mu N). assert (0 <= cut * - mu) by (apply Rmult_le_pos; lra).
      unfold Rltb. repeat destruct (Rlt_dec _ _); unfold Rabs; repeat destruct (Rcase_abs _); lra.
    + assert (P' : 0 < mu) by lra. rewrite (sgn_pos mu P'). assert (0 <= cut * mu) by (apply Rmult_le_pos; lra).
      unfold Rltb. repeat destruct (Rlt_dec _ _); unfold Rabs; repeat destruct (Rcase_abs _); lra.
Qed.
Lemma oup_range cut theta mu sigma h draw : mu <> 0 -> 0 <= cut -> forall n k v, (0 < n)%nat ->
  let r := oup_loop n draw k cut theta mu sigma h v in
  (0 < mu -> (1 - cut) * mu <= r <= (1 + cut) * mu) /\ (mu < 0 -> (1 + cut) * mu <= r <= (1 - cut) * mu).
Proof.
  intros M C. induction n as [|n IH]; intros k v H; [lia|]. cbn [oup_loop]. destruct n as [|n].
  - cbn [oup_loop]. apply clamp_range; auto.
  - apply IH. lia.
Qed.
Lemma oup_contract cut theta mu sigma h draw : 0 <= cut -> forall n k v w,
  Rabs (oup_loop n draw k cut theta mu sigma h v - oup_loop n draw k cut theta mu sigma h w)
    <= Rabs (1 - theta * h) ^ n * Rabs (v - w).
Proof.
  intro C. induction n as [|n IH]; intros k v w; cbn [oup_loop pow]; [lra|].
  eapply Rle_trans; [apply IH|]. rewrite (Rmult_comm (Rabs (1 - theta * h))), Rmult_assoc.
  apply Rmult_le_compat_l; [apply pow_le, Rabs_pos|].
  eapply Rle_trans; [apply (clamp_contract cut mu _ _ C)|]. rewrite <- Rabs_mult. right. f_equal. ring.
Qed.
