(** * Properties of random samples and stochastic demand: C46, C47 *)
From Coq Require Import Reals Lra Lia ZArith List Bool Arith.
From Verif Require Import Base Interp_Model Interp_Proofs Stoch_Model Stoch_Proofs.
Import ListNotations.
Local Open Scope R_scope.

Lemma Rabs_le_iff' : forall x a, Rabs x <= a <-> - a <= x <= a.
Proof.
  intros x a. split; [|apply Rabs_le]. intros H. unfold Rabs in H. destruct (Rcase_abs x); lra.
Qed.

(** ** C46: truncated samples *)

(** A returned sample lies in the bounds; it is the first drawn sample that does. *)
Theorem C46_range :
  forall draw k mean sd lower upper v n,
    truncated_sample draw k mean sd lower upper = Ok (v, n) ->
    lower <= v <= upper /\
    exists i, v = draw (k + i)%nat mean sd /\ n = (k + i + 1)%nat /\ (Z.of_nat i < 100000)%Z /\
      forall j, (j < i)%nat -> ~ (lower <= draw (k + j)%nat mean sd <= upper).
Proof.
  intros draw k mean sd lower upper v n H. unfold truncated_sample in H.
  destruct (trials_ok _ _ _ _ _ _ _ _ _ _ H) as [R [i [Hi [Hn [Hv Hm]]]]]. split; [exact R|].
  exists i. split; [|split; [lia|split; [unfold maximum_number_of_trials in Hi; lia|]]].
  - rewrite Hv. destruct i; [f_equal; lia|]. f_equal. lia.
  - intros j Hj. specialize (Hm j Hj). cbv zeta in Hm. destruct j as [|j]; [rewrite Nat.add_0_r; exact Hm|].
    replace (k + S j)%nat with (S k + j)%nat by lia. exact Hm.
Qed.
Print Assumptions C46_range.

(** It throws exactly if 100000 samples in a row are outside. *)
Theorem C46_throws :
  forall draw k mean sd lower upper,
    truncated_sample draw k mean sd lower upper <> UB /\
    (truncated_sample draw k mean sd lower upper = Exc <->
     forall j, (Z.of_nat j < 100000)%Z -> ~ (lower <= draw (k + j)%nat mean sd <= upper)).
Proof.
  intros draw k mean sd lower upper. unfold truncated_sample.
  destruct (trials_exc (Z.to_nat maximum_number_of_trials) draw mean sd lower upper (S k) (draw k mean sd)) as [U X].
  split; [exact U|]. rewrite X. clear. split; intros H j Hj.
  - specialize (H j ltac:(unfold maximum_number_of_trials; lia)). cbv zeta in H. destruct j as [|j]; [rewrite Nat.add_0_r; exact H|].
    replace (k + S j)%nat with (S k + j)%nat by lia. exact H.
  - unfold maximum_number_of_trials in Hj. specialize (H j ltac:(lia)). cbv zeta.
    destruct j as [|j]; [rewrite Nat.add_0_r in H; exact H|].
    replace (S k + j)%nat with (k + S j)%nat by lia. exact H.
Qed.
Print Assumptions C46_throws.

(** Exactly the first sample within the bounds, among 100000, is returned. *)
Definition first_within (draw : stream) (k : nat) (mean sd : R) (within : R -> Prop) (v : R) (n : nat) : Prop :=
  exists i, v = draw (k + i)%nat mean sd /\ n = (k + i + 1)%nat /\ (Z.of_nat i < 100000)%Z /\ within v /\
    forall j, (j < i)%nat -> ~ within (draw (k + j)%nat mean sd).
Theorem C46_first :
  forall draw k mean sd lower upper v n,
    truncated_sample draw k mean sd lower upper = Ok (v, n) <->
    first_within draw k mean sd (fun x => lower <= x <= upper) v n.
Proof.
  intros draw k mean sd lower upper v n. split.
  - intros H. destruct (C46_range _ _ _ _ _ _ _ _ H) as [R (i & Hv & Hn & Hi & Hj)]. exists i. auto.
  - intros (i & Hv & Hn & Hi & Hw & Hj).
    destruct (C46_throws draw k mean sd lower upper) as [U X].
    destruct (truncated_sample draw k mean sd lower upper) as [[v' n']| |] eqn:E; [|exfalso|congruence].
    + destruct (C46_range _ _ _ _ _ _ _ _ E) as [R (i' & Hv' & Hn' & Hi' & Hj')].
      destruct (Nat.lt_trichotomy i i') as [L|[->|L]].
      * exfalso. apply (Hj' i L). rewrite <- Hv. exact Hw.
      * subst. reflexivity.
      * exfalso. apply (Hj i' L). rewrite <- Hv'. exact R.
    + apply (proj1 X eq_refl i Hi). rewrite <- Hv. exact Hw.
Qed.
Print Assumptions C46_first.

(** The overloads: within two standard deviations of the mean, which is zero if not given. *)
Theorem C46_overloads :
  forall draw k mean sd lower upper v n,
    (truncated_sample_mean_sd draw k mean sd = Ok (v, n) <->
       first_within draw k mean sd (fun x => Rabs (x - mean) <= 2 * sd) v n) /\
    (truncated_sample_sd draw k sd = Ok (v, n) <->
       first_within draw k 0 sd (fun x => Rabs x <= 2 * sd) v n) /\
    (truncated_sample_bounds draw k sd lower upper = Ok (v, n) <->
       first_within draw k 0 sd (fun x => lower <= x <= upper) v n).
Proof.
  assert (P : forall draw k mean sd (A B : R -> Prop) v n, (forall x, A x <-> B x) ->
    first_within draw k mean sd A v n <-> first_within draw k mean sd B v n).
  { intros draw k mean sd A B v n E. split; intros (i & H1 & H2 & H3 & H4 & H5); exists i;
      (split; [exact H1|split; [exact H2|split; [exact H3|split; [apply E; exact H4|]]]]);
      intros j Hj K; apply (H5 j Hj); apply E; exact K. }
  intros draw k mean sd lower upper v n. split; [|split].
  - unfold truncated_sample_mean_sd. rewrite C46_first. apply P. intros x. rewrite Rabs_le_iff'. split; intros; lra.
  - unfold truncated_sample_sd. cbv zeta. rewrite C46_first. apply P. intros x.
    rewrite Rabs_le_iff'. split; intros; lra.
  - unfold truncated_sample_bounds. rewrite C46_first. reflexivity.
Qed.
Print Assumptions C46_overloads.

(** The first samples are outside. *)
Lemma third_trial n : (3 <= n)%nat ->
  trials n (fun k m sd => 3 - INR k) 0 1 (0 - 2 * 1) (0 + 2 * 1) 1 (3 - INR 0) = Ok (2, 2%nat) /\
  trials n (fun k m sd => INR k) 1 1 2 3 1 (INR 0) = Ok (2, 3%nat).
Proof.
  assert (T : forall a b, a <= b -> Rleb a b = true) by (intros; apply Rleb_true; auto).
  assert (F : forall a b, b < a -> Rleb a b = false) by (intros; apply Rleb_false; auto).
  destruct n as [|[|[|n]]]; try lia. intros _. cbn [trials]. cbv beta. split.
  - rewrite (T (0 - 2 * 1) (3 - INR 0)) by (cbn; lra). rewrite (F (3 - INR 0)) by (cbn; lra). cbn [andb].
    rewrite (T (0 - 2 * 1) (3 - INR 1)) by (cbn; lra). rewrite (T (3 - INR 1)) by (cbn; lra). cbn [andb].
    f_equal. f_equal. cbn. lra.
  - rewrite (F 2 (INR 0)) by (cbn; lra). rewrite (F 2 (INR 1)) by (cbn; lra). cbn [andb].
    rewrite (T 2 (INR 2)) by (cbn; lra). rewrite (T (INR 2) 3) by (cbn; lra). reflexivity.
Qed.
Example C46_case :
  truncated_sample_sd (fun k m sd => 3 - INR k) 0 1 = Ok (2, 2%nat) /\
  truncated_sample (fun k m sd => INR k) 0 1 1 2 3 = Ok (2, 3%nat).
Proof. apply third_trial. unfold maximum_number_of_trials. lia. Qed.

(** ** C47 *)

(** The scheme is stable for the chosen number of steps, which is never smaller than requested;
    bad parameters are rejected. *)
Theorem C47_stable :
  forall stability theta delta_t steps n,
    compute_stable_number_of_oup_steps stability theta delta_t steps = Ok n ->
    0 < stability < 2 /\ 0 <= theta /\ (0 <= steps <= n)%Z /\
    (0 <= delta_t -> n <> 0%Z ->
       let h := delta_t / IZR n in
       theta * h < stability /\ Rabs (1 - theta * h) <= 1 /\ (0 < theta * delta_t -> Rabs (1 - theta * h) < 1)).
Proof.
  intros a theta dt s n H. destruct (steps_ok _ _ _ _ _ H) as [A [T [S [U _]]]].
  split; [exact A|]. split; [exact T|]. split; [exact S|]. intros D Z0. cbv zeta. specialize (U Z0).
  assert (P : 0 < IZR n) by (apply IZR_lt; lia).
  assert (Q : 0 <= dt / IZR n) by (apply Rmult_le_pos; [exact D|left; apply Rinv_0_lt_compat; exact P]).
  split; [exact U|]. destruct (stable_factor (theta * (dt / IZR n)) a) as [V W]; try lra.
  { apply Rmult_le_pos; auto. }
  split; [exact V|]. intro X. apply W. unfold Rdiv. rewrite <- Rmult_assoc.
  apply Rmult_lt_0_compat; [exact X|apply Rinv_0_lt_compat; exact P].
Qed.
Print Assumptions C47_stable.

(** The result is defined unless the number of steps does not fit into an int. *)
Theorem C47_defined :
  forall stability theta delta_t steps,
    0 < stability < 2 -> 0 <= theta -> (0 <= steps)%Z -> 0 <= delta_t ->
    theta * delta_t / stability <= IZR int_max - 2 ->
    exists n, compute_stable_number_of_oup_steps stability theta delta_t steps = Ok n.
Proof.
  intros a theta dt s A T S D L. unfold compute_stable_number_of_oup_steps.
  assert (E1 : Rleb a 0 = false) by (apply Rleb_false; lra). assert (E2 : Rleb 2 a = false) by (apply Rleb_false; lra).
  assert (E3 : Rltb theta 0 = false) by (apply Rltb_false; lra). rewrite E1, E2, E3. cbn [orb].
  destruct (Z.ltb_spec s 0); [lia|].
  destruct (if (s =? 0)%Z then _ else _); [|eauto].
  destruct (Z.leb_spec (Rceil (theta * dt / a) + 1) int_max) as [Q|Q]; [eauto|]. exfalso.
  destruct (Rceil_spec (theta * dt / a)) as [_ C].
  assert (IZR (Rceil (theta * dt / a)) < IZR (int_max - 1)) by (rewrite minus_IZR; lra).
  apply lt_IZR in H0. lia.
Qed.
Print Assumptions C47_defined.

(** Two paths with the same random numbers move together. *)
Theorem C47_contracts :
  forall stability cut_off theta mu delta_t sigma draw k steps v w r s n,
    0 <= cut_off ->
    compute_stable_number_of_oup_steps stability theta delta_t steps = Ok n ->
    euler_maruyama_oup stability cut_off v theta mu delta_t sigma draw k steps = Ok r ->
    euler_maruyama_oup stability cut_off w theta mu delta_t sigma draw k steps = Ok s ->
    Rabs (r - s) <= Rabs (1 - theta * (delta_t / IZR n)) ^ Z.to_nat n * Rabs (v - w).
Proof.
  intros a c theta mu dt sigma draw k st v w r s n C H E F. unfold euler_maruyama_oup in *. rewrite H in E, F.
  injection E as <-. injection F as <-. apply oup_contract. exact C.
Qed.
Print Assumptions C47_contracts.

(** The cut-off is respected for a mean other than zero and at least one requested step. *)
Theorem C47_range_partial :
  forall stability cut_off last theta mu delta_t sigma draw k steps r,
    mu <> 0 -> 0 <= cut_off -> (0 < steps)%Z ->
    euler_maruyama_oup stability cut_off last theta mu delta_t sigma draw k steps = Ok r ->
    (0 < mu -> (1 - cut_off) * mu <= r <= (1 + cut_off) * mu) /\
    (mu < 0 -> (1 + cut_off) * mu <= r <= (1 - cut_off) * mu).
Proof.
  intros a c last theta mu dt sigma draw k st r M C S H. unfold euler_maruyama_oup in H.
  destruct (compute_stable_number_of_oup_steps a theta dt st) as [n| |] eqn:E; try discriminate.
  destruct (steps_ok _ _ _ _ _ E) as [_ [_ [L _]]]. injection H as <-.
  apply oup_range; auto. lia.
Qed.
Print Assumptions C47_range_partial.

(** There is no cut-off at all for mean zero. *)
Theorem C47_zero_mean_refuted :
  exists stability cut_off last theta delta_t sigma draw steps r,
    0 <= cut_off <= 1 /\ (0 < steps)%Z /\
    euler_maruyama_oup stability cut_off last theta 0 delta_t sigma draw 0 steps = Ok r /\
    ~ ((1 - cut_off) * 0 <= r <= (1 + cut_off) * 0).
Proof.
  exists 1, (1/2), 0, 0, 1, 1, (fun _ _ _ => 7), 1%Z.
  assert (E : compute_stable_number_of_oup_steps 1 0 1 1 = Ok 1%Z).
  { unfold compute_stable_number_of_oup_steps.
    assert (E1 : Rleb 1 0 = false) by (apply Rleb_false; lra). assert (E2 : Rleb 2 1 = false) by (apply Rleb_false; lra).
    assert (E3 : Rltb 0 0 = false) by (apply Rltb_false; lra). rewrite E1, E2, E3. cbn [orb Z.ltb Z.eqb Z.compare].
    assert (E4 : Rleb 1 (0 * (1 / 1)) = false) by (apply Rleb_false; lra). rewrite E4. reflexivity. }
  unfold euler_maruyama_oup. rewrite E. exists 7. split; [lra|]. split; [lia|]. split; [|lra].
  cbn [omap obind]. change (Z.to_nat 1) with 1%nat. cbn [oup_loop]. unfold oup_step. rewrite sgn_zero.
  assert (F : forall a b c, Rltb (0 * a) (b * 0 * c) = false /\ Rltb (b * 0 * c) (0 * a) = false)
    by (intros; split; apply Rltb_false; lra).
  cbv zeta. rewrite (proj1 (F _ _ _)), (proj2 (F _ _ _)). f_equal. lra.
Qed.
Print Assumptions C47_zero_mean_refuted.

(** Zero requested steps with theta = 0 are accepted, and the last value is returned as it is. *)
Theorem C47_zero_steps_refuted :
  exists stability cut_off last delta_t sigma draw r,
    0 <= cut_off <= 1 /\
    euler_maruyama_oup stability cut_off last 0 1 delta_t sigma draw 0 0 = Ok r /\
    ~ ((1 - cut_off) * 1 <= r <= (1 + cut_off) * 1).
Proof.
  exists 1, (1/2), 9, 1, 1, (fun _ _ _ => 7).
  assert (E : compute_stable_number_of_oup_steps 1 0 1 0 = Ok 0%Z).
  { unfold compute_stable_number_of_oup_steps.
    assert (E1 : Rleb 1 0 = false) by (apply Rleb_false; lra). assert (E2 : Rleb 2 1 = false) by (apply Rleb_false; lra).
    assert (E3 : Rltb 0 0 = false) by (apply Rltb_false; lra). rewrite E1, E2, E3. reflexivity. }
  unfold euler_maruyama_oup. rewrite E. exists 9. split; [lra|]. split; [reflexivity|lra].
Qed.
Print Assumptions C47_zero_steps_refuted.

(** theta = 3, delta_t = 2, one requested step: seven steps are chosen, and a path with mean -1
    stays within 10 per cent. *)
Example C47_case :
  compute_stable_number_of_oup_steps 1 3 2 1 = Ok 7%Z /\
  exists r, euler_maruyama_oup 1 (1 / 10) 5 3 (-1) 2 1 (fun k _ _ => INR k) 0 1 = Ok r /\ - (11 / 10) <= r <= - (9 / 10).
Proof.
  assert (E : compute_stable_number_of_oup_steps 1 3 2 1 = Ok 7%Z).
  { unfold compute_stable_number_of_oup_steps.
    assert (E1 : Rleb 1 0 = false) by (apply Rleb_false; lra). assert (E2 : Rleb 2 1 = false) by (apply Rleb_false; lra).
    assert (E3 : Rltb 3 0 = false) by (apply Rltb_false; lra). rewrite E1, E2, E3. cbn [orb Z.ltb Z.eqb Z.compare].
    assert (E4 : Rleb 1 (3 * (2 / 1)) = true) by (apply Rleb_true; lra). rewrite E4.
    rewrite (Rceil_unique (3 * 2 / 1) 6) by lra. reflexivity. }
  split; [exact E|].
  assert (X : exists r, euler_maruyama_oup 1 (1 / 10) 5 3 (-1) 2 1 (fun k _ _ => INR k) 0 1 = Ok r)
    by (unfold euler_maruyama_oup; rewrite E; eexists; reflexivity).
  destruct X as [r Hr]. exists r. split; [exact Hr|].
  assert (A : -1 <> 0) by lra. assert (B : 0 <= 1 / 10) by lra. assert (D : (0 < 1)%Z) by lia.
  destruct (C47_range_partial _ _ _ _ _ _ _ _ _ _ _ A B D Hr) as [_ Q]. lra.
Qed.
