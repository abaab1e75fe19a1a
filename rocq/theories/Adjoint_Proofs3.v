From Coq Require Import List Arith Reals Lra Lia Bool ZArith.
From Coquelicot Require Import Coquelicot.
From Verif Require Import Base Interp_Model Interp_Spec Interp_Proofs Interp_Proofs2
  Jac_Model Jac_Spec Jac_Proofs Jac_Proofs2 Ctimes_Model Ctimes_Spec Ctimes_Proofs
  Adjoint_Model Adjoint_Spec Adjoint_Proofs Adjoint_Proofs2.
Import ListNotations.
Open Scope R_scope.

(** ** Rows *)
Definition row_of (v : ivec) (t : R) : list R := match interp_at v t with Ok r => r | _ => [] end.

Lemma interp_grid pts m table i t : increasing pts -> table_of pts m table -> nth_error pts i = Some t ->
  interp_at (mk_ivec pts m table) t = Ok (row_of (mk_ivec pts m table) t) /\
  forall k, (k < m)%nat -> nth k (row_of (mk_ivec pts m table) t) 0 = entry table m i k.
Proof.
  intros Hinc Htab Hi.
  assert (Hne : pts <> []) by (intro; subst; destruct i; discriminate).
  assert (Hlt : (i < length pts)%nat) by (eapply nth_error_lt_inv; eauto).
  assert (Hcov : covered EPSILON pts t).
  { destruct (nth_error_lt pts 0) as [a Ha]; [lia|].
    destruct (nth_error_lt pts (length pts - 1)) as [b Hb]; [lia|].
    exists a, b. repeat split; auto.
    - pose proof (increasing_nth_le pts Hinc 0 i a t ltac:(lia) Ha Hi). pose proof EPSILON_pos. lra.
    - pose proof (increasing_nth_le pts Hinc i (length pts - 1) t b ltac:(lia) Hi Hb). pose proof EPSILON_pos. lra. }
  destruct (interp_in (mk_ivec pts m table) Hinc Hne Htab t Hcov) as (row & E & L & P).
  unfold row_of. rewrite E. split; [reflexivity|]. intros k Hk.
  apply (piecewise_linear_unique EPSILON pts (fun j => entry table m j k) t).
  - apply Rlt_le, EPSILON_pos.
  - exact Hinc.
  - apply (P k Hk).
  - left. exists i. auto.
Qed.

Lemma index_lambda_inv ct t u la : increasing ct -> compute_index_lambda ct t = Ok (u, la) ->
  exists a b, nth_error ct 0 = Some a /\ nth_error ct (length ct - 1) = Some b /\ a <= t < b + tolerance.
Proof.
  intros Hinc E. unfold compute_index_lambda in E. destruct ct as [|p0 rest] eqn:Ec; [discriminate|]. rewrite <- Ec in *.
  assert (Hne : ct <> []) by (rewrite Ec; discriminate).
  pose proof (nth_error_last ct 0 Hne) as Hlast.
  destruct (Rltb t p0) eqn:E1; [discriminate|]. apply Rltb_false in E1.
  destruct (Rltb (last ct 0 + EPSILON) t) eqn:E2; [discriminate|]. apply Rltb_false in E2.
  exists p0, (last ct 0). split; [rewrite Ec; reflexivity|]. split; [auto|]. split; [auto|].
  change tolerance with EPSILON.
  destruct (Rltb (last ct 0) t && Rltb t (last ct 0 + EPSILON))%bool eqn:E3.
  - apply andb_true_iff in E3. destruct E3 as [_ E3]. apply Rltb_true in E3. auto.
  - apply obind_Ok in E. destruct E as (tu & Gu & _). apply get_Ok in Gu.
    pose proof (lower_bound_at ct t tu Gu) as Hle.
    assert (Hlt : (lower_bound ct t < length ct)%nat) by (eapply nth_error_lt_inv; eauto).
    assert (Hx : (lower_bound ct t <= length ct - 1)%nat) by lia.
    pose proof (increasing_nth_le ct Hinc _ _ tu _ Hx Gu Hlast). pose proof EPSILON_pos. lra.
Qed.

Lemma control_at_time ct m table t u la : increasing ct -> table_of ct m table ->
  compute_index_lambda ct t = Ok (u, la) ->
  interp_at (mk_ivec ct m table) t = Ok (row_of (mk_ivec ct m table) t) /\
  (u < length ct)%nat /\ (la <> 1 -> (1 <= u)%nat) /\
  forall k, (k < m)%nat -> nth k (row_of (mk_ivec ct m table) t) 0 = weighted u la (fun j => entry table m j k).
Proof.
  intros Hinc Htab E. destruct (index_lambda_inv ct t u la Hinc E) as (a & b & Ha & Hb & Ht).
  destruct (index_lambda_full ct t a b Hinc Ha Hb Ht) as (u' & la' & E' & Hu & Hla & Hu1 & Hf).
  assert (u' = u /\ la' = la) as [-> ->] by (split; congruence).
  assert (Hne : ct <> []) by (intro; subst; discriminate).
  assert (Hcov : covered EPSILON ct t).
  { exists a, b. pose proof EPSILON_pos. change tolerance with EPSILON in Ht. repeat split; auto; lra. }
  destruct (interp_in (mk_ivec ct m table) Hinc Hne Htab t Hcov) as (row & Er & L & P).
  unfold row_of. rewrite Er. split; [auto|]. split; [auto|]. split; [auto|]. intros k Hk. apply (Hf m table row Htab Er k Hk).
Qed.

Lemma omapM_nth {A B} (f : A -> outcome B) l ys : omapM f l = Ok ys ->
  length ys = length l /\ forall i x, nth_error l i = Some x -> exists y, nth_error ys i = Some y /\ f x = Ok y.
Proof.
  revert ys. induction l as [|x l IH]; intros ys H; cbn [omapM] in H.
  - injection H as <-. split; [reflexivity|]. intros i x Hx. destruct i; discriminate.
  - apply obind_Ok in H. destruct H as (y & Hy & H). apply obind_Ok in H. destruct H as (ys' & Hys & H).
    injection H as <-. destruct (IH ys' Hys) as [L P]. split; [simpl; lia|].
    intros i x' Hx. destruct i as [|i]; simpl in Hx.
    + injection Hx as <-. exists y. auto.
    + apply (P i x' Hx).
Qed.

(** ** The constructor's scan *)
Lemma scan_inv states : forall cons, scan_constraints states cons = Ok [] ->
  increasing states -> increasing cons /\ forall c, In c cons -> In c states.
Proof.
  induction states as [|t states IH]; intros cons H Hinc; cbn [scan_constraints] in H.
  - injection H as ->. split; [constructor|]. intros c [].
  - destruct cons as [|c cons']; [split; [constructor|intros c []]|].
    assert (Hs : increasing states) by (inversion Hinc; auto).
    destruct (Rltb t c).
    + destruct (IH (c :: cons') H Hs) as [A B]. split; [auto|]. intros x Hx. right. auto.
    + destruct (Reqb t c) eqn:Ee; [|discriminate]. apply Reqb_true in Ee. subst c.
      destruct (IH cons' H Hs) as [A B]. split.
      * constructor; [auto|]. apply Forall_forall. intros x Hx. apply B in Hx.
        inversion Hinc; subst. rewrite Forall_forall in H3. auto.
      * intros x [<-|Hx]; [left; auto|right; auto].
Qed.

Lemma ctor_accepts_inv st ct cons : increasing st -> ctor_time_checks st ct cons = Ok tt ->
  increasing cons /\
  forall q c, nth_error cons q = Some c -> exists m, (1 <= m < length st)%nat /\ nth_error st m = Some c.
Proof.
  intros Hinc H. unfold ctor_time_checks in H.
  destruct (negb (is_sorted st)); [discriminate|]. destruct (negb (is_sorted ct)); [discriminate|].
  destruct (negb (is_sorted cons)); [discriminate|].
  destruct ct as [|c0 ct']; [discriminate|]. destruct st as [|s0 states]; [discriminate|].
  destruct (Rltb _ _); [discriminate|]. destruct (Rltb _ _); [discriminate|].
  apply obind_Ok in H. destruct H as (rest & H & H'). destruct rest; [|discriminate].
  destruct (scan_inv states cons H) as [A B]; [inversion Hinc; auto|].
  split; [auto|]. intros q c Hq. apply nth_error_In in Hq. apply B in Hq. apply In_nth_error in Hq.
  destruct Hq as [m Hm]. exists (S m). split; [|auto]. apply nth_error_lt_inv in Hm. simpl. lia.
Qed.

(** ** Derivatives of sums *)
Lemma is_derive_Rsum n (f : nat -> R -> R) (df : nat -> R) x :
  (forall i, (i < n)%nat -> is_derive (f i) x (df i)) ->
  is_derive (fun s => Rsum n (fun i => f i s)) x (Rsum n df).
Proof.
  induction n as [|n IH]; intro H; cbn [Rsum].
  - apply (is_derive_const 0).
  - apply (is_derive_plus (fun s => Rsum n (fun i => f i s)) (f n)); [apply IH; auto|apply H; lia].
Qed.

Lemma is_derive_weighted u la (f : nat -> R -> R) (df : nat -> R) x :
  is_derive (f u) x (df u) -> (la <> 1 -> is_derive (f (u - 1)%nat) x (df (u - 1)%nat)) ->
  is_derive (fun s => weighted u la (fun j => f j s)) x (weighted u la df).
Proof.
  intros H1 H2. unfold weighted. destruct (Req_EM_T la 1) as [E|E]; [exact H1|].
  apply (is_derive_plus (fun s => la * f u s) (fun s => (1 - la) * f (u - 1)%nat s)).
  - apply (is_derive_scal (f u)). exact H1.
  - apply (is_derive_scal (f (u - 1)%nat)). apply H2. auto.
Qed.

Lemma Rsum_shift n (g : nat -> R) : Rsum n g + g n = g 0%nat + Rsum n (fun j => g (S j)).
Proof. induction n as [|n IH]; cbn [Rsum]; [ring|]. rewrite IH. ring. Qed.

Section Family.
Variables (p : problem) (solve : solver_type) (l : layout) (st ct cons : list R).
Variables (W : R -> list R) (W' : nat -> nat -> R) (X : R -> list R).
Hypothesis Hinc : increasing st.
Hypothesis Hlen : (2 <= length st)%nat.
Hypothesis Huinc : increasing ct.
Hypothesis Hmake : make_data (ng p) (nu p) cons ct = Some (Ok l).
Hypothesis Hctor : ctor_time_checks st ct cons = Ok tt.
Hypothesis Hsol : solver_correct (nx p) solve.
Hypothesis Hfam : smooth_family p st ct W W' X.

Let cv s := mk_ivec ct (nu p) (W s).
Let xv s := mk_ivec st (nx p) (X s).
Let N := (length st - 1)%nat.
Let time i := nth i st 0.
Let z i k := Derive (fun s => entry (X s) (nx p) i k) 0.
Let xr s i := row_of (xv s) (time i).
Let ur s i := row_of (cv s) (time i).

Lemma time_nth i : (i <= N)%nat -> nth_error st i = Some (time i).
Proof. intro H. apply nth_error_nth'. unfold N in H. lia. Qed.

Lemma xr_ok s i : (i <= N)%nat -> interp_at (xv s) (time i) = Ok (xr s i) /\
  forall k, (k < nx p)%nat -> nth k (xr s i) 0 = entry (X s) (nx p) i k.
Proof. intro H. apply interp_grid; auto. apply (sf_X_table _ _ _ _ _ _ Hfam). apply time_nth; auto. Qed.

Variable pairs : list (nat * R).
Hypothesis Hpairs : compute_index_lambda_vector ct st = Ok pairs.
Let pr i := nth i pairs (0%nat, 1).

Lemma pr_ok i : (i <= N)%nat -> nth_error pairs i = Some (pr i) /\ compute_index_lambda ct (time i) = Ok (pr i).
Proof.
  intro H. destruct (omapM_nth _ _ _ Hpairs) as [L P].
  destruct (P i (time i) (time_nth i H)) as (y & Hy & Ey).
  assert (pr i = y) by (unfold pr; apply nth_error_nth with (d := (0%nat, 1)) in Hy; auto).
  subst y. auto.
Qed.

Let v i k := weighted (fst (pr i)) (snd (pr i)) (fun j => W' j k).

Lemma ur_ok s i : (i <= N)%nat -> interp_at (cv s) (time i) = Ok (ur s i) /\
  (fst (pr i) < length ct)%nat /\ (snd (pr i) <> 1 -> (1 <= fst (pr i))%nat) /\
  forall k, (k < nu p)%nat -> nth k (ur s i) 0 = weighted (fst (pr i)) (snd (pr i)) (fun j => entry (W s) (nu p) j k).
Proof.
  intro H. apply control_at_time; auto. apply (sf_W_table _ _ _ _ _ _ Hfam).
  rewrite <- surjective_pairing. apply pr_ok; auto.
Qed.

Lemma x_curve i : (i <= N)%nat -> curve_through (nx p) (fun s => vec_of (xr s i)) (vec_of (xr 0 i)) (z i).
Proof.
  intro H. split; [reflexivity|]. intros k Hk.
  apply (is_derive_ext (fun s => entry (X s) (nx p) i k)).
  - intro s. unfold vec_of. symmetry. apply xr_ok; auto.
  - apply Derive_correct. apply (sf_X_derive _ _ _ _ _ _ Hfam); auto. unfold N in H. lia.
Qed.

Lemma u_curve i : (i <= N)%nat -> curve_through (nu p) (fun s => vec_of (ur s i)) (vec_of (ur 0 i)) (v i).
Proof.
  intro H. split; [reflexivity|]. intros k Hk. destruct (ur_ok 0 i H) as (_ & Hu & Hu1 & _).
  apply (is_derive_ext (fun s => weighted (fst (pr i)) (snd (pr i)) (fun j => entry (W s) (nu p) j k))).
  - intro s. unfold vec_of. symmetry. apply ur_ok; auto.
  - apply (is_derive_weighted _ _ (fun j s => entry (W s) (nu p) j k) (fun j => W' j k)).
    + apply (sf_W_derive _ _ _ _ _ _ Hfam); auto.
    + intro Hl. apply (sf_W_derive _ _ _ _ _ _ Hfam); auto. lia.
Qed.

Hypothesis Hright : right_derivatives p st (cv 0) (xv 0).

Let D i := mk_step_data
        (d_new p (time (i - 1)) (time i) (vec_of (xr 0 (i - 1))) (vec_of (xr 0 i)) (vec_of (ur 0 i)))
        (d_last p (time (i - 1)) (time i) (vec_of (xr 0 (i - 1))) (vec_of (xr 0 i)) (vec_of (ur 0 i)))
        (d_control p (time (i - 1)) (time i) (vec_of (xr 0 (i - 1))) (vec_of (xr 0 i)) (vec_of (ur 0 i)))
        (fun k => cost_dx p (time i) (vec_of (xr 0 i)) (vec_of (ur 0 i)) k
                + penalty_dx p (time i) (vec_of (xr 0 i)) (vec_of (ur 0 i)) k)
        (fun k => cost_du p (time i) (vec_of (xr 0 i)) (vec_of (ur 0 i)) k
                + penalty_du p (time i) (vec_of (xr 0 i)) (vec_of (ur 0 i)) k)
        (constr_dx p (time i) (vec_of (xr 0 i)) (vec_of (ur 0 i)))
        (constr_du p (time i) (vec_of (xr 0 i)) (vec_of (ur 0 i))).

Lemma update_ok i : (1 <= i <= N)%nat -> update_matrices p st (cv 0) (xv 0) i = Ok (D i).
Proof.
  intro H. unfold update_matrices.
  rewrite (proj2 (get_Ok st (i - 1)%nat (time (i - 1)%nat))) by (apply time_nth; lia).
  rewrite (proj2 (get_Ok st i (time i))) by (apply time_nth; lia).
  cbn [obind]. unfold row_at.
  rewrite (proj1 (xr_ok 0 (i - 1)%nat ltac:(lia))), (proj1 (xr_ok 0 i ltac:(lia))), (proj1 (ur_ok 0 i ltac:(lia))).
  reflexivity.
Qed.

Lemma right_at i : (1 <= i <= N)%nat ->
  residual_jacobians p (time (i - 1)) (time i) (vec_of (xr 0 (i - 1))) (vec_of (xr 0 i)) (vec_of (ur 0 i)) /\
    has_gradient (nx p) (nu p) (cost p (time i)) (vec_of (xr 0 i)) (vec_of (ur 0 i))
      (cost_dx p (time i) (vec_of (xr 0 i)) (vec_of (ur 0 i))) (cost_du p (time i) (vec_of (xr 0 i)) (vec_of (ur 0 i))) /\
    has_gradient (nx p) (nu p) (penalty p (time i)) (vec_of (xr 0 i)) (vec_of (ur 0 i))
      (penalty_dx p (time i) (vec_of (xr 0 i)) (vec_of (ur 0 i))) (penalty_du p (time i) (vec_of (xr 0 i)) (vec_of (ur 0 i))) /\
    forall r, (r < ng p)%nat ->
      has_gradient (nx p) (nu p) (fun x u => constr p (time i) x u r) (vec_of (xr 0 i)) (vec_of (ur 0 i))
        (constr_dx p (time i) (vec_of (xr 0 i)) (vec_of (ur 0 i)) r) (constr_du p (time i) (vec_of (xr 0 i)) (vec_of (ur 0 i)) r).
Proof.
  intro H. apply (Hright (i - 1)%nat).
  - apply time_nth. lia.
  - replace (S (i - 1)) with i by lia. apply time_nth. lia.
  - apply xr_ok. lia.
  - apply xr_ok. lia.
  - apply ur_ok. lia.
Qed.

Lemma linearised i : (1 <= i <= N)%nat -> forall e, (e < nx p)%nat ->
  dot (nx p) (sB (D i) e) (z (i - 1)) + dot (nx p) (sA (D i) e) (z i) + dot (nu p) (sC (D i) e) (v i) = 0.
Proof.
  intros H e He. destruct (right_at i H) as [HJ _].
  pose proof (HJ _ _ _ _ _ _ (x_curve (i - 1)%nat ltac:(lia)) (x_curve i ltac:(lia)) (u_curve i ltac:(lia)) e He) as Hd.
  apply is_derive_unique in Hd. unfold dot. unfold inner in Hd. cbn [sA sB sC D]. rewrite <- Hd.
  rewrite (Derive_ext_loc _ (fun _ => 0)); [apply Derive_const|].
  apply (filter_imp _ _ ltac:(intros s Hs; exact Hs)).
  pose proof (sf_solves _ _ _ _ _ _ Hfam) as Hl. revert Hl. apply filter_imp. intros s Hs.
  apply (Hs (i - 1)%nat); auto.
  - apply time_nth. lia.
  - replace (S (i - 1)) with i by lia. apply time_nth. lia.
  - apply xr_ok. lia.
  - apply xr_ok. lia.
  - apply ur_ok. lia.
Qed.

Lemma z_start k : (k < nx p)%nat -> z 0 k = 0.
Proof.
  intro Hk. unfold z. rewrite (Derive_ext _ (fun _ => entry (X 0) (nx p) 0 k)).
  - apply Derive_const.
  - intro s. apply (sf_start _ _ _ _ _ _ Hfam). auto.
Qed.

Lemma weights_nth i : (i <= N)%nat -> nth_error (quadrature_weights st) i = Some (nth i (quadrature_weights st) 0).
Proof.
  intro H. apply nth_error_nth'. unfold quadrature_weights. rewrite map_length, seq_length. unfold N in H. lia.
Qed.

(** evaluation of integrals *)
Lemma integral_loop_ok f s n : forall i acc, (i + n <= S N)%nat ->
  integral_loop f st (cv s) (xv s) (seq i n) acc
  = Ok (acc + Rsum n (fun j => nth (i + j) (quadrature_weights st) 0
        * f (time (i + j)) (vec_of (xr s (i + j))) (vec_of (ur s (i + j))))).
Proof.
  induction n as [|n IH]; intros i acc H; cbn [seq integral_loop Rsum].
  - f_equal. ring.
  - rewrite (proj2 (get_Ok st i (time i))) by (apply time_nth; lia). cbn [obind]. unfold row_at.
    rewrite (proj1 (xr_ok s i ltac:(lia))), (proj1 (ur_ok s i ltac:(lia))). cbn [omap obind].
    rewrite (proj2 (get_Ok _ i _) (weights_nth i ltac:(lia))). cbn [obind].
    rewrite IH by lia. f_equal.
    rewrite (Rsum_shift n (fun j => nth (i + j) (quadrature_weights st) 0
        * f (time (i + j)) (vec_of (xr s (i + j))) (vec_of (ur s (i + j))))).
    rewrite Nat.add_0_r. rewrite <- Rplus_assoc. f_equal. apply Rsum_ext. intros j Hj.
    replace (i + S j)%nat with (S i + j)%nat by lia. reflexivity.
Qed.

Lemma objective_ok s : evaluate_objective p st (cv s) (xv s)
  = Ok (Rsum N (fun j => nth (S j) (quadrature_weights st) 0
          * cost p (time (S j)) (vec_of (xr s (S j))) (vec_of (ur s (S j))))
      + Rsum N (fun j => nth (S j) (quadrature_weights st) 0
          * penalty p (time (S j)) (vec_of (xr s (S j))) (vec_of (ur s (S j))))).
Proof.
  unfold evaluate_objective, evaluate_integral. cbn [ipoints xv].
  rewrite !integral_loop_ok by (unfold N; lia). cbn [obind]. f_equal. rewrite !Rplus_0_l. reflexivity.
Qed.

Variables (G : nat -> vec) (J : nat -> R).
Hypothesis Hcomp : compute_derivatives p solve l st ct cons (cv 0) (xv 0) = Ok (Some (G, J)).

Lemma sweep_result :
  gradient_along (length ct) (nu p) G W' = Rsum N (fun j => nth (S j) (quadrature_weights st) 0
      * (dot (nx p) (sfx (D (S j))) (z (S j)) + dot (nu p) (sfu (D (S j))) (v (S j)))) /\
  ((0 < ng p)%nat -> forall q r m, (1 <= m <= N)%nat -> nth_error cons q = Some (time m) -> (r < ng p)%nat ->
     jacobian_along ct (nu p) l J W' (q * ng p + r)
     = dot (nx p) (sgx (D m) r) (z m) + dot (nu p) (sgu (D m) r) (v m)).
Proof.
  destruct (ctor_accepts_inv st ct cons Hinc Hctor) as [Hcinc Hpos].
  unfold compute_derivatives in Hcomp. rewrite Hpairs in Hcomp. cbn [obind] in Hcomp.
  apply obind_Ok in Hcomp. destruct Hcomp as (r & Hr & E). destruct r as [s'|]; [|discriminate].
  injection E as <- <-.
  apply (sweep_total p solve l st ct cons pairs (cv 0) (xv 0) D (fun i => nth i (quadrature_weights st) 0)
     time pr z v W'); auto.
  - exact update_ok.
  - exact time_nth.
  - exact weights_nth.
  - intros i Hi. apply pr_ok. fold N in Hi. lia.
  - exact linearised.
  - intros q c Hq. destruct (Hpos q c Hq) as (m & Hm & Em). exists m. split; [lia|].
    assert (Hmm := time_nth m ltac:(unfold N; lia)). congruence.
  - exact z_start.
Qed.

Lemma gradient_derivative :
  exists Jf, (forall s, evaluate_objective p st (cv s) (xv s) = Ok (Jf s)) /\
    is_derive Jf 0 (Rsum (length ct) (fun j => Rsum (nu p) (fun k => G j k * W' j k))).
Proof.
  eexists. split; [exact objective_ok|].
  change (Rsum (length ct) (fun j => Rsum (nu p) (fun k => G j k * W' j k)))
    with (gradient_along (length ct) (nu p) G W').
  rewrite (proj1 sweep_result).
  rewrite (Rsum_ext N _ (fun j =>
     nth (S j) (quadrature_weights st) 0 * (inner (nx p) (cost_dx p (time (S j)) (vec_of (xr 0 (S j))) (vec_of (ur 0 (S j)))) (z (S j))
       + inner (nu p) (cost_du p (time (S j)) (vec_of (xr 0 (S j))) (vec_of (ur 0 (S j)))) (v (S j)))
     + nth (S j) (quadrature_weights st) 0 * (inner (nx p) (penalty_dx p (time (S j)) (vec_of (xr 0 (S j))) (vec_of (ur 0 (S j)))) (z (S j))
       + inner (nu p) (penalty_du p (time (S j)) (vec_of (xr 0 (S j))) (vec_of (ur 0 (S j)))) (v (S j))))).
  2:{ intros j Hj. cbn [sfx sfu D]. rewrite !dot_plus. unfold inner, dot. ring. }
  rewrite Rsum_plus.
  apply (is_derive_plus (fun s => Rsum N (fun j => nth (S j) (quadrature_weights st) 0
          * cost p (time (S j)) (vec_of (xr s (S j))) (vec_of (ur s (S j)))))
     (fun s => Rsum N (fun j => nth (S j) (quadrature_weights st) 0
          * penalty p (time (S j)) (vec_of (xr s (S j))) (vec_of (ur s (S j)))))).
  - apply (is_derive_Rsum N (fun j s => nth (S j) (quadrature_weights st) 0
          * cost p (time (S j)) (vec_of (xr s (S j))) (vec_of (ur s (S j))))).
    intros j Hj. apply (is_derive_scal (fun s => cost p (time (S j)) (vec_of (xr s (S j))) (vec_of (ur s (S j))))).
    destruct (right_at (S j) ltac:(lia)) as (_ & H & _).
    apply H; [apply x_curve; lia|apply u_curve; lia].
  - apply (is_derive_Rsum N (fun j s => nth (S j) (quadrature_weights st) 0
          * penalty p (time (S j)) (vec_of (xr s (S j))) (vec_of (ur s (S j))))).
    intros j Hj. apply (is_derive_scal (fun s => penalty p (time (S j)) (vec_of (xr s (S j))) (vec_of (ur s (S j))))).
    destruct (right_at (S j) ltac:(lia)) as (_ & _ & H & _).
    apply H; [apply x_curve; lia|apply u_curve; lia].
Qed.

Lemma jacobian_derivative q r : (q < length cons)%nat -> (r < ng p)%nat ->
  exists Gf, (forall s, evaluate_constraint_row p cons (cv s) (xv s) q = Ok (Gf s)) /\
    is_derive (fun s => Gf s r) 0
      (Rsum (length ct) (fun j => Rsum (nu p) (fun k =>
         whole_matrix l J (q * ng p + r) (j * nu p + k) * W' j k))).
Proof.
  intros Hq Hr. destruct (ctor_accepts_inv st ct cons Hinc Hctor) as [Hcinc Hpos].
  destruct (nth_error_lt cons q Hq) as [c Hc]. destruct (Hpos q c Hc) as (m & Hm & Em).
  assert (HmN : (1 <= m <= N)%nat) by (unfold N; lia).
  assert (Hcm : c = time m) by (pose proof (time_nth m ltac:(lia)); congruence). subst c.
  exists (fun s => constr p (time m) (vec_of (xr s m)) (vec_of (ur s m))). split.
  - intro s. unfold evaluate_constraint_row. rewrite (proj2 (get_Ok cons q _) Hc). cbn [obind]. unfold row_at.
    rewrite (proj1 (xr_ok s m ltac:(lia))), (proj1 (ur_ok s m ltac:(lia))). reflexivity.
  - destruct sweep_result as [_ Hg].
    assert (E := Hg ltac:(lia) q r m HmN Hc Hr). unfold jacobian_along in E.
    change (Rsum (length ct) (fun j => Rsum (nu p) (fun k => whole_matrix l J (q * ng p + r) (j * nu p + k) * W' j k)))
      with (Rsum (length ct) (fun j => Rsum (nu p) (fun k => whole_matrix l J (q * ng p + r) (j * nu p + k) * W' j k))) in E.
    rewrite E. cbn [sgx sgu D].
    destruct (right_at m HmN) as (_ & _ & _ & H).
    apply (H r Hr); [apply x_curve; lia|apply u_curve; lia].
Qed.

End Family.

(** ** Safety (C11) *)

Section Safety.
Variables (p : problem) (solve : solver_type) (l : layout) (st ct cons W X : list R) (pairs : list (nat * R)).
Hypothesis Hinc : increasing st.
Hypothesis Hlen : (2 <= length st)%nat.
Hypothesis Huinc : increasing ct.
Hypothesis Hmake : make_data (ng p) (nu p) cons ct = Some (Ok l).
Hypothesis Hctor : ctor_time_checks st ct cons = Ok tt.
Hypothesis Hpairs : compute_index_lambda_vector ct st = Ok pairs.
Hypothesis TW : table_of ct (nu p) W.
Hypothesis TX : table_of st (nx p) X.
Let cv := mk_ivec ct (nu p) W.
Let xv := mk_ivec st (nx p) X.
Let time := fun i => nth i st 0.
Let pr := fun i => nth i pairs (0%nat, 1).
Let D := fun i => match update_matrices p st cv xv i with Ok d => d | _ =>
     mk_step_data (fun _ _ => 0) (fun _ _ => 0) (fun _ _ => 0) (fun _ => 0) (fun _ => 0) (fun _ _ => 0) (fun _ _ => 0) end.
Let s0 := mk_sweep (fun _ => 0) (fun _ _ => 0) (length cons) false (fun _ _ => 0) (fun _ => 0).
Let N := (length st - 1)%nat.

Lemma s_time i : (i <= N)%nat -> nth_error st i = Some (time i).
Proof. intros Hi. apply nth_error_nth'. unfold N in Hi. lia. Qed.

Lemma s_pr i : (i <= N)%nat -> nth_error pairs i = Some (pr i) /\ compute_index_lambda ct (time i) = Ok (pr i).
Proof.
  intro H. destruct (omapM_nth _ _ _ Hpairs) as [L P].
  destruct (P i (time i) (s_time i H)) as (y & Hy & Ey).
  assert (pr i = y) by (unfold pr; apply nth_error_nth with (d := (0%nat, 1)) in Hy; auto).
  subst y. auto.
Qed.

Lemma s_x i : (i <= N)%nat -> interp_at xv (time i) = Ok (row_of xv (time i)).
Proof. intros Hi. apply (interp_grid st (nx p) X i); auto. apply s_time; auto. Qed.

Lemma s_u i : (i <= N)%nat -> interp_at cv (time i) = Ok (row_of cv (time i)) /\
     (fst (pr i) < length ct)%nat /\ (snd (pr i) <> 1 -> (1 <= fst (pr i))%nat).
Proof.
  intros Hi. destruct (control_at_time ct (nu p) W (time i) (fst (pr i)) (snd (pr i)) Huinc TW) as (A & B & C' & _); auto.
  rewrite <- surjective_pairing. apply s_pr. auto.
Qed.

Lemma s_upd i : (1 <= i <= N)%nat -> update_matrices p st cv xv i = Ok (D i).
Proof.
  intros Hi. unfold D, update_matrices.
  rewrite (proj2 (get_Ok st (i - 1)%nat (time (i - 1)%nat))) by (apply s_time; lia).
  rewrite (proj2 (get_Ok st i (time i))) by (apply s_time; lia).
  cbn [obind]. unfold row_at.
  rewrite (s_x (i - 1)%nat ltac:(lia)), (s_x i ltac:(lia)), (proj1 (s_u i ltac:(lia))). reflexivity.
Qed.

Lemma s_w i : (i <= N)%nat -> nth_error (quadrature_weights st) i = Some (nth i (quadrature_weights st) 0).
Proof. intros Hi. apply nth_error_nth'. unfold quadrature_weights. rewrite map_length, seq_length. unfold N in Hi. lia. Qed.

Lemma s_pos q c : nth_error cons q = Some c -> exists m, (1 <= m <= N)%nat /\ c = time m.
Proof.
  intro Hq. destruct (ctor_accepts_inv st ct cons Hinc Hctor) as [_ Hpos].
  destruct (Hpos q c Hq) as (m & Hm & Em). exists m. split; [unfold N; lia|].
  assert (Hmm := s_time m ltac:(unfold N; lia)). congruence.
Qed.

Lemma s_inv : index_inv p st cons time N s0.
Proof.
  intro Hg. cbn [w_index w_active s0]. split; [lia|]. split; [symmetry; apply Nat.ltb_ge; lia|]. split.
  - intros q c _ Hq. apply s_pos in Hq. auto.
  - intros q c Hq Hqc. apply nth_error_lt_inv in Hqc. lia.
Qed.

Lemma s_nofail : solver_accepts p solve st cv xv -> forall i, (1 <= i <= N)%nat -> no_failure solve D i.
Proof.
  intros H i Hi b. pose proof (s_upd i Hi) as E. unfold update_matrices in E.
  rewrite (proj2 (get_Ok st (i - 1)%nat (time (i - 1)%nat))) in E by (apply s_time; lia).
  rewrite (proj2 (get_Ok st i (time i))) in E by (apply s_time; lia).
  cbn [obind] in E. unfold row_at in E.
  rewrite (s_x (i - 1)%nat ltac:(lia)), (s_x i ltac:(lia)), (proj1 (s_u i ltac:(lia))) in E.
  cbn [omap obind] in E.
  assert (E' : sA (D i) = d_new p (time (i - 1)%nat) (time i) (vec_of (row_of xv (time (i - 1)%nat)))
      (vec_of (row_of xv (time i))) (vec_of (row_of cv (time i)))) by (injection E as <-; reflexivity).
  rewrite E'. unfold transpose. apply (H (i - 1)%nat); try apply s_x; try apply s_u; try lia.
  - apply s_time. lia.
  - replace (S (i - 1)) with i by lia. apply s_time. lia.
Qed.

Lemma derivatives_safe :
  (ng p = 0%nat \/ nth_error cons 0 = nth_error st 1) ->
  exists r, compute_derivatives p solve l st ct cons cv xv = Ok r /\
    (solver_accepts p solve st cv xv -> r <> None).
Proof.
  intros Hfirst. destruct (ctor_accepts_inv st ct cons Hinc Hctor) as [Hcinc _].
  unfold compute_derivatives. rewrite Hpairs. cbn [obind].
  edestruct (sweep_loop_safe p solve l st ct cons pairs cv xv D (fun i => nth i (quadrature_weights st) 0) time pr)
    with (n := N) (s := s0) as (r & Hr & Hn).
  all: eauto using s_upd, s_time, s_w, s_inv.
  - intros i Hi. apply s_pr. fold N in Hi. lia.
  - intros i Hi. destruct (s_u i ltac:(fold N in Hi; lia)) as (_ & B & C'). split; [apply s_pr; fold N in Hi; lia|auto].
  - intros Hg _. destruct Hfirst as [Z|Z]; [lia|]. rewrite Z. apply s_time. unfold N. lia.
  - fold N. fold s0. rewrite Hr. cbn [obind]. eexists. split; [reflexivity|].
    intro Hacc. specialize (Hn (s_nofail Hacc)). destruct r; [discriminate|congruence].
Qed.

Lemma derivatives_unsafe : (0 < ng p)%nat -> nth_error cons 0 <> nth_error st 1 ->
  solver_accepts p solve st cv xv ->
  compute_derivatives p solve l st ct cons cv xv = UB.
Proof.
  intros Hg Hfirst Hacc. destruct (ctor_accepts_inv st ct cons Hinc Hctor) as [Hcinc _].
  unfold compute_derivatives. rewrite Hpairs. cbn [obind].
  fold N. fold s0.
  rewrite (sweep_loop_unsafe p solve l st ct cons pairs cv xv D (fun i => nth i (quadrature_weights st) 0) time pr); auto.
  - exact s_upd.
  - exact s_time.
  - exact s_w.
  - intros i Hi. apply s_pr. fold N in Hi. lia.
  - intros i Hi. destruct (s_u i ltac:(fold N in Hi; lia)) as (_ & B & C'). split; [apply s_pr; fold N in Hi; lia|auto].
  - lia.
  - rewrite <- s_time; [auto|unfold N; lia].
  - apply s_nofail. auto.
  - unfold N. lia.
  - exact s_inv.
Qed.

End Safety.
