From Coq Require Import List Arith Reals Lra Lia ZArith Sorted.
From Verif Require Import Base Interp_Model Interp_Spec Interp_Proofs.
Import ListNotations.
Open Scope R_scope.

(** ** State grid from the user's settings *)
Lemma state_grid_ok tstart tend desired : tstart < tend -> 0 < desired ->
  exists g n, state_grid tstart tend desired = Ok g /\ (0 < n)%nat /\
    equidistant_grid tstart tend n g /\
    (tend - tstart) / INR n <= desired /\
    (forall m, (0 < m)%nat -> (tend - tstart) / INR m <= desired -> (n <= m)%nat).
Proof.
  intros Hlt Hd. unfold state_grid, timedata_number.
  destruct (Reqb desired 0) eqn:E0; [apply Reqb_true in E0; lra|]. cbn [obind].
  set (z := Rceil ((tend - tstart) / desired)).
  assert (Hq : 0 < (tend - tstart) / desired) by (apply Rdiv_lt_0_compat; lra).
  destruct (Rceil_spec ((tend - tstart) / desired)) as [C1 C2]. fold z in C1, C2.
  assert (Hz : (0 < z)%Z) by (apply lt_IZR; lra).
  unfold timedata_delta. rewrite (proj2 (Z.eqb_neq (z + 1) 1)) by lia.
  replace (z + 1 - 1)%Z with z by lia.
  assert (Hz' : 0 < IZR z) by (apply IZR_lt; auto).
  assert (Hdl : 0 < (tend - tstart) / IZR z) by (apply Rdiv_lt_0_compat; lra).
  destruct (delta_end_grid tstart ((tend - tstart) / IZR z) tend Hlt Hdl)
    as (d & n & Ed & Hn & Nd & Gd & Sd & Md).
  cbn [make_from_start_xdelta_end]. rewrite Ed. cbn [omap obind].
  exists (equidistant_points d), n. split; [reflexivity|]. split; [exact Hn|]. split; [exact Gd|].
  assert (Hdes : (tend - tstart) / IZR z <= desired).
  { apply Rmult_le_reg_r with (IZR z); [lra|]. field_simplify; [|lra].
    apply Rmult_le_compat_r with (r := desired) in C1; [|lra].
    field_simplify in C1; lra. }
  split; [lra|].
  intros m Hm Hle.
  (* n <= z by minimality, and z <= m *)
  assert (HnZ : (n <= Z.to_nat z)%nat).
  { apply Md; [lia|]. rewrite INR_IZR_INZ, Z2Nat.id by lia. lra. }
  assert (0 < INR m) by (apply lt_0_INR; auto).
  assert ((tend - tstart) / desired <= INR m).
  { apply Rmult_le_compat_r with (r := INR m) in Hle; [|lra]. field_simplify in Hle; [|lra].
    apply Rmult_le_reg_r with desired; [lra|]. field_simplify; lra. }
  assert (Hzm : IZR z < INR m + 1) by lra.
  rewrite INR_IZR_INZ, <- plus_IZR in Hzm. apply lt_IZR in Hzm. lia.
Qed.

Lemma state_grid_end_before_start tstart tend desired : tend <= tstart -> desired <> 0 ->
  (forall g, state_grid tstart tend desired <> Ok g).
Proof.
  intros Hle Hd g. unfold state_grid, timedata_number.
  destruct (Reqb desired 0) eqn:E0; [discriminate|]. cbn [obind].
  set (x := timedata_delta _ _ _). destruct x; cbn [make_from_start_xdelta_end].
  - rewrite delta_end_reject by (left; auto). discriminate.
  - destruct (Rleb tend tstart) eqn:A; [discriminate|]. apply Rleb_false in A. lra.
  - discriminate.
  - destruct (Rleb tend tstart) eqn:A; [discriminate|]. apply Rleb_false in A. lra.
Qed.

Lemma state_grid_negative_step_accepted :
  exists tstart tend desired, tstart < tend /\ desired < 0 /\
    state_grid tstart tend desired = Ok [tstart].
Proof.
  exists 0, 1, (-10). split; [lra|]. split; [lra|].
  unfold state_grid, timedata_number.
  destruct (Reqb (-10) 0) eqn:E0; [apply Reqb_true in E0; lra|]. cbn [obind].
  rewrite (Rceil_unique ((1 - 0) / -10) 0%Z) by lra.
  unfold timedata_delta. simpl (0 + 1 =? 1)%Z. cbv iota.
  destruct (Rltb 0 (1 - 0)) eqn:A; [|apply Rltb_false in A; lra].
  cbn [make_from_start_xdelta_end].
  destruct (Rleb 1 0) eqn:B; [apply Rleb_true in B; lra|]. reflexivity.
Qed.

(** ** Index/weight pairs *)

Lemma index_lambda_ok pts t a b : increasing pts ->
  nth_error pts 0 = Some a -> nth_error pts (length pts - 1) = Some b ->
  a <= t < b + EPSILON ->
  exists u la, compute_index_lambda pts t = Ok (u, la) /\
    (u < length pts)%nat /\ 0 < la <= 1 /\ (la <> 1 -> (1 <= u)%nat) /\
    forall f, piecewise_linear EPSILON pts f t (weighted u la f).
Proof.
  intros Hi Ha Hb Ht. pose proof EPSILON_pos as Ep.
  assert (Hne : pts <> []) by (intro; subst; discriminate).
  pose proof (nth_error_last pts 0 Hne) as Hl. rewrite Hb in Hl. injection Hl as Hl.
  assert (Hn : (0 < length pts)%nat) by (eapply nth_error_lt_inv; eauto).
  unfold compute_index_lambda. destruct pts as [|p0 l] eqn:E; [congruence|]. rewrite <- E in *.
  assert (p0 = a) as -> by (rewrite E in Ha; simpl in Ha; congruence).
  clear E l. rewrite <- Hl.
  destruct (Rltb t a) eqn:A; [apply Rltb_true in A; lra|]. clear A.
  destruct (Rltb (b + EPSILON) t) eqn:A; [apply Rltb_true in A; lra|]. clear A.
  destruct (Rltb b t) eqn:A; [apply Rltb_true in A | apply Rltb_false in A].
  - destruct (Rltb t (b + EPSILON)) eqn:B; [|apply Rltb_false in B; lra]. cbn [andb].
    exists (length pts - 1)%nat, 1. split; [reflexivity|]. split; [lia|]. split; [lra|].
    split; [lra|]. intro f. unfold weighted. destruct (Req_EM_T 1 1); [|lra].
    right; right; right. exists (length pts - 1)%nat, b. repeat split; auto; try lra. lia.
  - cbn [andb]. set (it := lower_bound pts t).
    assert (Hit : (it < length pts)%nat).
    { pose proof (lower_bound_le pts t) as L. fold it in L.
      destruct (Nat.eq_dec it (length pts)) as [Eq|]; [|lia].
      exfalso. assert (b < t); [|lra].
      apply (lower_bound_before pts t (length pts - 1)); auto. fold it. lia. }
    destruct (nth_error_lt _ _ Hit) as [tn Htn].
    rewrite (proj2 (get_Ok _ _ _) Htn). cbn [obind].
    assert (Htn' : t <= tn) by (apply (lower_bound_at pts t); auto).
    destruct (it =? 0)%nat eqn:E0; [apply Nat.eqb_eq in E0|apply Nat.eqb_neq in E0].
    + exists it, 1. split; [reflexivity|]. split; [auto|]. split; [lra|]. split; [lra|].
      intro f. unfold weighted. destruct (Req_EM_T 1 1); [|lra].
      left. exists it. rewrite E0 in *. assert (tn = t) as -> by (replace tn with a by congruence; replace tn with a in Htn' by congruence; lra).
      auto.
    + destruct (nth_error_lt pts (it - 1)) as [tp Htp]; [lia|].
      rewrite (proj2 (get_Ok _ _ _) Htp). cbn [obind].
      assert (Htp' : tp < t).
      { apply (lower_bound_before pts t (it - 1)); auto. fold it. lia. }
      exists it, ((t - tp) / (tn - tp)). split; [reflexivity|]. split; [auto|].
      assert (L1 : 0 < (t - tp) / (tn - tp)) by (apply Rdiv_lt_0_compat; lra).
      assert (L2 : (t - tp) / (tn - tp) <= 1).
      { apply Rmult_le_reg_r with (tn - tp); [lra|]. field_simplify; lra. }
      split; [lra|]. split; [intros _; lia|].
      intro f. unfold weighted.
      destruct (Req_EM_T ((t - tp) / (tn - tp)) 1) as [Eq|Nq].
      * left. exists it. split; auto.
        apply Rmult_eq_compat_r with (r := tn - tp) in Eq. field_simplify in Eq; [|lra].
        replace t with tn by lra. auto.
      * right; left. exists (it - 1)%nat, tp, tn. replace (S (it - 1)) with it by lia.
        repeat split; auto; try lra.
        destruct (Req_dec t tn) as [->|]; [|lra]. exfalso. apply Nq. field. lra.
Qed.

(** End-iterator dereference at exactly back + EPSILON. *)
Lemma lower_bound_past pts t : (forall a, In a pts -> a < t) -> lower_bound pts t = length pts.
Proof.
  induction pts as [|x l IH]; intro H; [reflexivity|]. simpl.
  destruct (Rltb x t) eqn:A; [|apply Rltb_false in A; specialize (H x (or_introl eq_refl)); lra].
  rewrite IH; auto. intros a Ha. apply H. right; auto.
Qed.
Lemma index_lambda_edge_ub : forall b, 0 < b ->
  compute_index_lambda [0; b] (b + EPSILON) = UB.
Proof.
  intros b Hb. pose proof EPSILON_pos as Ep. unfold compute_index_lambda.
  assert (El : last [0; b] 0 = b) by reflexivity. rewrite El.
  destruct (Rltb (b + EPSILON) 0) eqn:A; [reflexivity|]. clear A.
  destruct (Rltb (b + EPSILON) (b + EPSILON)) eqn:A; [reflexivity|].
  rewrite Bool.andb_false_r.
  rewrite lower_bound_past; [reflexivity|].
  intros a [<-|[<-|[]]]; lra.
Qed.

(** ** Quadrature *)
Lemma Rsum_ext n f g : (forall i, (i < n)%nat -> f i = g i) -> Rsum n f = Rsum n g.
Proof. induction n; intro H; simpl; [reflexivity|]. rewrite IHn, H by auto. reflexivity. Qed.
Lemma Rsum_plus n f g : Rsum n (fun i => f i + g i) = Rsum n f + Rsum n g.
Proof. induction n; simpl; [ring|]. rewrite IHn. ring. Qed.
Lemma Rsum_scal n c f : Rsum n (fun i => c * f i) = c * Rsum n f.
Proof. induction n; simpl; [ring|]. rewrite IHn. ring. Qed.
Lemma Rsum_telescope n p : Rsum n (fun i => p (S i) - p i) = p n - p 0%nat.
Proof. induction n; simpl; [ring|]. rewrite IHn. ring. Qed.

Lemma quadrature_partial pts f m : (2 <= length pts)%nat -> (m < length pts - 1)%nat ->
  Rsum (S m) (fun i => quadrature_weight pts i * f i) =
  Rsum m (fun i => (nth (S i) pts 0 - nth i pts 0) * ((f i + f (S i)) / 2))
  + (nth (S m) pts 0 - nth m pts 0) / 2 * f m.
Proof.
  intros H2. induction m as [|m IH]; intro Hm.
  - simpl. unfold quadrature_weight.
    rewrite (proj2 (Nat.eqb_neq (length pts) 1)) by lia. simpl. field.
  - cbn [Rsum]. cbn [Rsum] in IH. rewrite IH by lia.
    unfold quadrature_weight at 1.
    rewrite (proj2 (Nat.eqb_neq (length pts) 1)) by lia.
    rewrite (proj2 (Nat.eqb_neq (S m) 0)) by lia.
    rewrite (proj2 (Nat.eqb_neq (S m) (length pts - 1))) by lia.
    replace (S m + 1)%nat with (S (S m)) by lia. replace (S m - 1)%nat with m by lia. field.
Qed.

Lemma quadrature_is_trapezoid pts f : (2 <= length pts)%nat ->
  Rsum (length pts) (fun i => quadrature_weight pts i * f i) = trapezoid pts f.
Proof.
  intro H2. unfold trapezoid.
  destruct (length pts) as [|[|n]] eqn:E; try lia.
  replace (S (S n) - 1)%nat with (S n) by lia.
  change (Rsum (S (S n)) (fun i => quadrature_weight pts i * f i))
    with (Rsum (S n) (fun i => quadrature_weight pts i * f i) + quadrature_weight pts (S n) * f (S n)).
  rewrite quadrature_partial by lia. cbn [Rsum].
  unfold quadrature_weight. rewrite E.
  rewrite (proj2 (Nat.eqb_neq (S (S n)) 1)) by lia.
  rewrite (proj2 (Nat.eqb_neq (S n) 0)) by lia.
  rewrite (proj2 (Nat.eqb_eq (S n) (S (S n) - 1))) by lia.
  replace (S n - 1)%nat with n by lia. field.
Qed.

Lemma sorted_nth_le pts : increasing pts -> forall i j, (i <= j < length pts)%nat ->
  nth i pts 0 <= nth j pts 0.
Proof.
  intros Hi i j H.
  apply (increasing_nth_le pts Hi i j); [lia| |]; apply nth_error_nth'; lia.
Qed.

Lemma quadrature_nonneg pts i : (2 <= length pts)%nat -> increasing pts -> (i < length pts)%nat ->
  0 <= quadrature_weight pts i.
Proof.
  intros H2 Hi Hlt. unfold quadrature_weight.
  rewrite (proj2 (Nat.eqb_neq (length pts) 1)) by lia.
  destruct (i =? 0)%nat eqn:E0; [|destruct (i =? length pts - 1)%nat eqn:E1];
    apply Nat.eqb_eq in E0 || apply Nat.eqb_neq in E0.
  - pose proof (sorted_nth_le pts Hi 0 1). lra || (assert (nth 0 pts 0 <= nth 1 pts 0) by (apply H; lia); lra).
  - apply Nat.eqb_eq in E1. assert (nth (i - 1) pts 0 <= nth i pts 0) by (apply sorted_nth_le; auto; lia). lra.
  - apply Nat.eqb_neq in E1. assert (nth (i - 1) pts 0 <= nth (i + 1) pts 0) by (apply sorted_nth_le; auto; lia). lra.
Qed.

Lemma trapezoid_affine pts c d : (2 <= length pts)%nat ->
  trapezoid pts (fun i => c + d * nth i pts 0) =
  let a := nth 0 pts 0 in let b := nth (length pts - 1) pts 0 in
  c * (b - a) + d * (b * b - a * a) / 2.
Proof.
  intro H2. unfold trapezoid. cbv zeta.
  set (p := fun i => nth i pts 0).
  rewrite (Rsum_ext _ _ (fun i => (c * p (S i) + d * (p (S i) * p (S i)) / 2) - (c * p i + d * (p i * p i) / 2))).
  - rewrite (Rsum_telescope _ (fun i => c * p i + d * (p i * p i) / 2)). unfold p. field.
  - intros i _. unfold p. field.
Qed.

Lemma weights_list pts i : (i < length pts)%nat ->
  nth_error (quadrature_weights pts) i = Some (quadrature_weight pts i).
Proof.
  intro H. unfold quadrature_weights. rewrite nth_error_map.
  rewrite (nth_error_nth' _ 0%nat) by (rewrite seq_length; auto).
  rewrite seq_nth by auto. reflexivity.
Qed.

(** ** Resampling *)
Lemma set_row_ok v i row : length (ivalues v) = (length (ipoints v) * iinner v)%nat ->
  (i < length (ipoints v))%nat -> length row = iinner v ->
  exists v', set_row v i row = Ok v' /\ ipoints v' = ipoints v /\ iinner v' = iinner v /\
    length (ivalues v') = length (ivalues v) /\
    forall j k, (j < length (ipoints v))%nat -> (k < iinner v)%nat ->
      entry (ivalues v') (iinner v) j k =
      if Nat.eq_dec j i then nth k row 0 else entry (ivalues v) (iinner v) j k.
Proof.
  intros Hlen Hi Hrow. unfold set_row.
  assert (Hb : (iinner v * i + iinner v <= length (ivalues v))%nat) by (rewrite Hlen; nia).
  rewrite (proj2 (Nat.ltb_ge _ _) Hb).
  rewrite (proj2 (Nat.eqb_eq (length row) (iinner v)) Hrow). cbn [negb].
  eexists; split; [reflexivity|]. cbn [ipoints iinner ivalues].
  split; [reflexivity|]. split; [reflexivity|]. split.
  - rewrite !app_length, firstn_length, skipn_length. lia.
  - intros j k Hj Hk. unfold entry.
    assert (Lf : length (firstn (iinner v * i) (ivalues v)) = (iinner v * i)%nat)
      by (rewrite firstn_length; lia).
    destruct (Nat.eq_dec j i) as [->|N].
    + rewrite app_nth2 by (rewrite Lf; lia). rewrite Lf.
      rewrite app_nth1 by nia. f_equal. nia.
    + destruct (le_lt_dec i j) as [L|L].
      * assert (i < j)%nat by lia.
        rewrite app_nth2 by (rewrite Lf; nia). rewrite Lf.
        rewrite app_nth2 by nia. rewrite nth_skipn. f_equal. nia.
      * rewrite app_nth1 by (rewrite Lf; nia).
        rewrite nth_firstn_lt by nia. reflexivity.
Qed.

Lemma interpolate_loop_ok src : increasing (ipoints src) -> ipoints src <> [] ->
  length (ivalues src) = (length (ipoints src) * iinner src)%nat ->
  forall todo done dst, ipoints dst = done ++ todo ->
    length (ivalues dst) = (length (ipoints dst) * iinner dst)%nat ->
    iinner dst = iinner src ->
    (forall t, In t todo -> covered EPSILON (ipoints src) t) ->
    exists v', interpolate_loop todo (length done) dst src = Ok v' /\
      ipoints v' = ipoints dst /\ iinner v' = iinner dst /\
      length (ivalues v') = length (ivalues dst) /\
      (forall j k, (j < length done)%nat -> (k < iinner dst)%nat ->
         entry (ivalues v') (iinner dst) j k = entry (ivalues dst) (iinner dst) j k) /\
      (forall j k t, (length done <= j)%nat -> nth_error (ipoints dst) j = Some t ->
         (k < iinner dst)%nat ->
         piecewise_linear EPSILON (ipoints src) (fun i => entry (ivalues src) (iinner src) i k) t
           (entry (ivalues v') (iinner dst) j k)).
Proof.
  intros Hi Hne Hls. induction todo as [|t todo IH]; intros done dst Hp Hl Hm Hc.
  - exists dst. simpl. repeat split; auto. intros j k t Hj Hn Hk.
    exfalso. apply nth_error_lt_inv in Hn. rewrite Hp, app_nil_r in Hn. lia.
  - cbn [interpolate_loop].
    destruct (interp_in src Hi Hne Hls t) as (row & Er & Lr & Pr); [apply Hc; left; auto|].
    rewrite Er. cbn [obind].
    assert (Hidx : (length done < length (ipoints dst))%nat) by (rewrite Hp, app_length; simpl; lia).
    destruct (set_row_ok dst (length done) row Hl Hidx ltac:(lia)) as (d1 & E1 & P1 & M1 & L1 & N1).
    rewrite E1. cbn [obind].
    assert (Hp' : ipoints d1 = (done ++ [t]) ++ todo) by (rewrite P1, Hp, <- app_assoc; reflexivity).
    destruct (IH (done ++ [t]) d1) as (v' & Ev & Pv & Mv & Lv & Nold & Nnew); auto.
    { rewrite L1, P1, M1. auto. } { rewrite M1; auto. } { intros x Hx. apply Hc. right; auto. }
    rewrite app_length in Ev. simpl in Ev. replace (length done + 1)%nat with (S (length done)) in Ev by lia.
    exists v'. split; [exact Ev|]. split; [congruence|]. split; [congruence|]. split; [congruence|].
    rewrite M1 in *. rewrite app_length in Nold, Nnew. simpl in Nold, Nnew. split.
    + intros j k Hj Hk. rewrite Nold by (auto; lia). rewrite N1 by (auto; lia).
      destruct (Nat.eq_dec j (length done)); [lia|reflexivity].
    + intros j k t' Hj Ht' Hk. destruct (Nat.eq_dec j (length done)) as [->|N].
      * rewrite Nold by (auto; lia). rewrite N1 by (auto; lia).
        destruct (Nat.eq_dec (length done) (length done)); [|lia].
        assert (t' = t) as ->.
        { rewrite Hp, nth_error_app2, Nat.sub_diag in Ht' by lia. simpl in Ht'. congruence. }
        apply Pr. lia.
      * apply Nnew; auto; [lia|]. rewrite P1. auto.
Qed.

Lemma interpolate_from_ok dst src :
  increasing (ipoints src) -> increasing (ipoints dst) ->
  length (ivalues src) = (length (ipoints src) * iinner src)%nat ->
  length (ivalues dst) = (length (ipoints dst) * iinner dst)%nat ->
  iinner dst = iinner src -> inside_span (ipoints src) (ipoints dst) ->
  exists v', interpolate_from dst src = Ok v' /\
    ipoints v' = ipoints dst /\ iinner v' = iinner dst /\
    length (ivalues v') = length (ivalues dst) /\
    (forall j k t, nth_error (ipoints dst) j = Some t -> (k < iinner dst)%nat ->
       piecewise_linear EPSILON (ipoints src) (fun i => entry (ivalues src) (iinner src) i k) t
         (entry (ivalues v') (iinner dst) j k)).
Proof.
  intros Hi Hi' Hl Hl' Hm (a & b & a' & b' & Ha & Hb & Ha' & Hb' & L1 & L2).
  pose proof EPSILON_pos as Ep.
  assert (Hne : ipoints src <> []) by (intro E; rewrite E in Ha; discriminate).
  assert (Hne' : ipoints dst <> []) by (intro E; rewrite E in Ha'; discriminate).
  unfold interpolate_from. rewrite (proj2 (Nat.eqb_eq _ _) Hm). cbn [negb].
  rewrite (proj2 (get_Ok _ _ _) Ha). cbn [obind]. rewrite (proj2 (get_Ok _ _ _) Ha'). cbn [obind].
  destruct (Rltb a' a) eqn:A; [apply Rltb_true in A; lra|].
  pose proof (nth_error_last (ipoints src) 0 Hne) as E1. rewrite Hb in E1. injection E1 as E1.
  pose proof (nth_error_last (ipoints dst) 0 Hne') as E2. rewrite Hb' in E2. injection E2 as E2.
  rewrite <- E1, <- E2.
  destruct (Rltb b b') eqn:B; [apply Rltb_true in B; lra|].
  destruct (interpolate_loop_ok src Hi Hne Hl (ipoints dst) [] dst) as (v' & Ev & Pv & Mv & Lv & _ & Nv); auto.
  { intros t Ht. apply In_nth_error in Ht. destruct Ht as [j Hj].
    exists a, b. split; [auto|]. split; [auto|].
    pose proof (nth_error_lt_inv _ _ _ Hj).
    assert (a' <= t) by (apply (increasing_nth_le _ Hi' 0%nat j); auto; lia).
    assert (t <= b') by (apply (increasing_nth_le _ Hi' j (length (ipoints dst) - 1)%nat); auto; lia).
    lra. }
  exists v'. split; [exact Ev|]. repeat split; auto. intros j k t Hj Hk. apply Nv; auto. simpl; lia.
Qed.

Lemma list_eq_nth (l1 l2 : list R) : length l1 = length l2 ->
  (forall i, (i < length l1)%nat -> nth i l1 0 = nth i l2 0) -> l1 = l2.
Proof. intros. apply nth_ext with 0 0; auto. Qed.

Lemma table_eq m n (l1 l2 : list R) : length l1 = (n * m)%nat -> length l2 = (n * m)%nat ->
  (forall j k, (j < n)%nat -> (k < m)%nat -> entry l1 m j k = entry l2 m j k) -> l1 = l2.
Proof.
  intros H1 H2 H. apply list_eq_nth; [congruence|]. intros i Hi. rewrite H1 in Hi.
  destruct m as [|m]; [lia|].
  specialize (H (i / S m)%nat (i mod S m)%nat). unfold entry in H.
  assert (E : (i / S m * S m + i mod S m = i)%nat) by (rewrite (Nat.div_mod i (S m)) at 3 by lia; lia).
  rewrite E in H. apply H.
  - apply Nat.div_lt_upper_bound; lia.
  - apply Nat.mod_upper_bound. lia.
Qed.

Lemma resample_same_grid dst src :
  increasing (ipoints src) -> ipoints src <> [] ->
  length (ivalues src) = (length (ipoints src) * iinner src)%nat ->
  length (ivalues dst) = (length (ipoints dst) * iinner dst)%nat ->
  iinner dst = iinner src -> ipoints dst = ipoints src ->
  interpolate_from dst src = Ok src.
Proof.
  intros Hi Hne Hl Hl' Hm Hp.
  destruct (nth_error_lt (ipoints src) 0) as [a Ha].
  { destruct (ipoints src); [congruence|simpl; lia]. }
  pose proof (nth_error_last (ipoints src) 0 Hne) as Hb.
  destruct (interpolate_from_ok dst src) as (v' & Ev & Pv & Mv & Lv & Nv); auto.
  { rewrite Hp; auto. }
  { exists a, (last (ipoints src) 0), a, (last (ipoints src) 0). rewrite Hp. repeat split; auto; lra. }
  rewrite Ev. f_equal. destruct v' as [pv mv vv], src as [ps ms vs]. simpl in *.
  subst pv. subst mv. rewrite Hp, Hm in *. f_equal.
  apply (table_eq ms (length ps)); [congruence|congruence|].
  intros j k Hj Hk. destruct (nth_error_lt ps j Hj) as [t Ht].
  apply (piecewise_linear_unique EPSILON ps (fun i => entry vs ms i k) t); auto.
  - apply Rlt_le, EPSILON_pos.
  - left. exists j. auto.
Qed.

Lemma piecewise_linear_affine tol pts f t y c d a b :
  piecewise_linear tol pts f t y ->
  nth_error pts 0 = Some a -> nth_error pts (length pts - 1) = Some b -> a <= t <= b ->
  (forall i x, nth_error pts i = Some x -> f i = c + d * x) -> y = c + d * t.
Proof.
  intros H Ha Hb Ht Hf.
  destruct H as [(i & Hi1 & ->)|[(i & a' & b' & Ha' & Hb' & Hab & ->)|[(a' & Ha' & Hab & ->)|(n & b' & Hb' & Hn & Hab & ->)]]].
  - apply Hf; auto.
  - rewrite (Hf i a'), (Hf (S i) b') by auto. field. lra.
  - assert (a' = a) by congruence. lra.
  - rewrite Hn in Hb. replace (S n - 1)%nat with n in Hb by lia. assert (b' = b) by congruence. lra.
Qed.

(** ** Lemmas in the form of the property statements *)
Lemma interpolation_full : forall v t,
  increasing (ipoints v) -> ipoints v <> [] -> table_of (ipoints v) (iinner v) (ivalues v) ->
  (covered tolerance (ipoints v) t ->
     exists row, interp_at v t = Ok row /\ length row = iinner v /\
       forall k, (k < iinner v)%nat ->
         piecewise_linear tolerance (ipoints v)
           (fun i => entry (ivalues v) (iinner v) i k) t (nth k row 0) /\
         forall lo hi, (forall i, (i < length (ipoints v))%nat ->
                          lo <= entry (ivalues v) (iinner v) i k <= hi) ->
                       lo <= nth k row 0 <= hi) /\
  (~ covered tolerance (ipoints v) t -> interp_at v t = Exc).
Proof.
  intros v t Hi Hne Ht. split.
  - intro Hc. destruct (interp_in v Hi Hne Ht t Hc) as (row & Er & Lr & Pr).
    exists row. split; [exact Er|]. split; [exact Lr|]. intros k Hk.
    split; [apply Pr; auto|]. intros lo hi B.
    eapply piecewise_linear_bounds; [apply Pr; exact Hk|]. exact B.
  - intro Hc. apply interp_out; auto.
Qed.

Lemma unsorted_accepted :
  exists pts m g, ~ Sorted Rle pts /\ ctor_from_vector pts m g = Ok (mk_ivec pts m g).
Proof.
  exists [1; 0], 1%nat, [0; 0]. split; [|reflexivity].
  intro S. inversion S as [|? ? ? H]; subst. inversion H; subst. lra.
Qed.

Lemma grid_ends a b n g : (0 < n)%nat -> equidistant_grid a b n g ->
  nth_error g 0 = Some a /\ nth_error g n = Some b.
Proof.
  intros Hn [Hl Hg]. rewrite !Hg by lia. split; f_equal; simpl; [ring|].
  field. apply not_0_INR. lia.
Qed.

Lemma delta_end_grid_full : forall first desired lst, first < lst -> 0 < desired ->
  exists d n, make_from_start_delta_end first desired lst = Ok d /\ (0 < n)%nat /\
    equidistant_grid first lst n (equidistant_points d) /\
    increasing (equidistant_points d) /\
    nth_error (equidistant_points d) 0 = Some first /\
    nth_error (equidistant_points d) n = Some lst /\
    (lst - first) / INR n <= desired /\
    (forall m, (0 < m)%nat -> (lst - first) / INR m <= desired -> (n <= m)%nat).
Proof.
  intros first desired lst H1 H2.
  destruct (delta_end_grid first desired lst H1 H2) as (d & n & E & Hn & _ & G & S & M).
  exists d, n. destruct (grid_ends _ _ _ _ Hn G). 
  assert (increasing (equidistant_points d)) by (eapply equidistant_increasing; [| |exact G]; auto).
  repeat (split; [assumption|]); assumption.
Qed.

Lemma state_grid_full : forall tstart tend desired, tstart < tend -> 0 < desired ->
  exists g n, state_grid tstart tend desired = Ok g /\ (0 < n)%nat /\
    equidistant_grid tstart tend n g /\ increasing g /\
    nth_error g 0 = Some tstart /\ nth_error g n = Some tend /\
    (tend - tstart) / INR n <= desired /\
    (forall m, (0 < m)%nat -> (tend - tstart) / INR m <= desired -> (n <= m)%nat).
Proof.
  intros a b d H1 H2. destruct (state_grid_ok a b d H1 H2) as (g & n & E & Hn & G & S & M).
  exists g, n. destruct (grid_ends _ _ _ _ Hn G). 
  assert (increasing g) by (eapply equidistant_increasing; [| |exact G]; auto).
  repeat (split; [assumption|]); assumption.
Qed.

Lemma number_end_grid : forall first lst n, first < lst -> (2 <= n)%Z ->
  exists d, make_from_start_number_end first lst n = Ok d /\
    equidistant_grid first lst (Z.to_nat n - 1) (equidistant_points d).
Proof.
  intros a b n Hab Hn. unfold make_from_start_number_end.
  rewrite (proj2 (Z.leb_gt n 0)) by lia.
  destruct (Rleb b a) eqn:A; [apply Rleb_true in A; lra|].
  rewrite (proj2 (Z.eqb_neq n 1)) by lia.
  eexists; split; [reflexivity|].
  unfold equidistant_points, equidistant_grid. cbn [first_point delta number_of_entries].
  rewrite accumulate_length. split; [lia|]. intros i Hi. rewrite accumulate_nth by lia.
  replace (INR (Z.to_nat n - 1)) with (IZR (n - 1)); [reflexivity|].
  rewrite INR_IZR_INZ. f_equal. lia.
Qed.

Lemma grid_example : exists d, make_from_start_delta_end 0 (3/10) 1 = Ok d /\ length (equidistant_points d) = 5%nat.
Proof.
  unfold make_from_start_delta_end.
  destruct (Rleb 1 0) eqn:A; [apply Rleb_true in A; lra|].
  destruct (Rleb (3/10) 0) eqn:B; [apply Rleb_true in B; lra|].
  rewrite (Rceil_unique ((1 - 0) / (3/10)) 4%Z) by (split; lra).
  eexists; split; [reflexivity|]. unfold equidistant_points. rewrite accumulate_length. reflexivity.
Qed.

Lemma state_grid_moderate_negative : forall tstart tend desired,
  tstart < tend -> desired < 0 -> - desired <= tend - tstart ->
  state_grid tstart tend desired = Exc.
Proof.
  intros a b d Hab Hd Hm. unfold state_grid, timedata_number.
  destruct (Reqb d 0) eqn:E0; [apply Reqb_true in E0; lra|]. cbn [obind].
  set (z := Rceil ((b - a) / d)).
  assert (Hq : (b - a) / d <= -1).
  { apply Rmult_le_reg_r with (- d); [lra|].
    replace ((b - a) / d * - d) with (a - b) by (field; lra). lra. }
  destruct (Rceil_spec ((b - a) / d)) as [C1 C2]. fold z in C1, C2.
  assert (Hz : (z < 0)%Z) by (apply lt_IZR; lra).
  unfold timedata_delta. rewrite (proj2 (Z.eqb_neq (z + 1) 1)) by lia.
  replace (z + 1 - 1)%Z with z by lia. cbn [make_from_start_xdelta_end].
  rewrite delta_end_reject; [reflexivity|]. right.
  assert (IZR z < 0) by (apply (IZR_lt z 0); auto).
  assert (0 < (b - a) / (- IZR z)) by (apply Rdiv_lt_0_compat; lra).
  replace ((b - a) / IZR z) with (- ((b - a) / (- IZR z))) by (field; lra). lra.
Qed.

Lemma index_lambda_full : forall pts t a b, increasing pts ->
  nth_error pts 0 = Some a -> nth_error pts (length pts - 1) = Some b -> a <= t < b + tolerance ->
  exists u la, compute_index_lambda pts t = Ok (u, la) /\
    (u < length pts)%nat /\ 0 <= la <= 1 /\ (la <> 1 -> (1 <= u)%nat) /\
    forall m table row, table_of pts m table -> interp_at (mk_ivec pts m table) t = Ok row ->
      forall k, (k < m)%nat -> nth k row 0 = weighted u la (fun i => entry table m i k).
Proof.
  intros pts t a b Hi Ha Hb Ht.
  destruct (index_lambda_ok pts t a b Hi Ha Hb Ht) as (u & la & E & Hu & Hla & Hu1 & Hf).
  exists u, la. repeat (split; auto); try lra.
  intros m table row Htab Hrow k Hk.
  assert (Hne : pts <> []) by (intro; subst; discriminate).
  assert (Hc : covered EPSILON pts t).
  { exists a, b. pose proof EPSILON_pos. repeat split; auto; try lra. unfold tolerance, EPSILON in *. lra. }
  destruct (interp_in (mk_ivec pts m table) Hi Hne Htab t Hc) as (row' & Er & Lr & Pr).
  assert (row' = row) as -> by congruence.
  apply (piecewise_linear_unique EPSILON pts (fun i => entry table m i k) t).
  - apply Rlt_le, EPSILON_pos.
  - exact Hi.
  - apply (Pr k Hk).
  - apply Hf.
Qed.

Lemma index_lambda_edge :
  exists pts t b, increasing pts /\ nth_error pts (length pts - 1) = Some b /\
    t <= b + tolerance /\ covered tolerance pts t /\ compute_index_lambda pts t = UB.
Proof.
  exists [0; 1], (1 + EPSILON), 1. pose proof EPSILON_pos. unfold tolerance. fold EPSILON.
  split; [repeat constructor; lra|]. split; [reflexivity|]. split; [lra|].
  split; [exists 0, 1; repeat split; try reflexivity; lra|].
  apply index_lambda_edge_ub. lra.
Qed.

Lemma quadrature_full : forall pts f, (2 <= length pts)%nat -> increasing pts ->
  length (quadrature_weights pts) = length pts /\
  (forall i w, nth_error (quadrature_weights pts) i = Some w -> 0 <= w) /\
  Rsum (length pts) (fun i => nth i (quadrature_weights pts) 0 * f i) = trapezoid pts f /\
  Rsum (length pts) (fun i => nth i (quadrature_weights pts) 0) =
    nth (length pts - 1) pts 0 - nth 0 pts 0 /\
  (forall c d, (forall i, (i < length pts)%nat -> f i = c + d * nth i pts 0) ->
     let a := nth 0 pts 0 in let b := nth (length pts - 1) pts 0 in
     Rsum (length pts) (fun i => nth i (quadrature_weights pts) 0 * f i) =
     (c * b + d * (b * b) / 2) - (c * a + d * (a * a) / 2)).
Proof.
  intros pts f H2 Hi.
  assert (L : length (quadrature_weights pts) = length pts)
    by (unfold quadrature_weights; rewrite map_length, seq_length; reflexivity).
  assert (W : forall i, (i < length pts)%nat -> nth i (quadrature_weights pts) 0 = quadrature_weight pts i).
  { intros i H. apply nth_error_nth. apply weights_list; auto. }
  assert (T : forall g, Rsum (length pts) (fun i => nth i (quadrature_weights pts) 0 * g i) = trapezoid pts g).
  { intro g. rewrite <- quadrature_is_trapezoid by auto. apply Rsum_ext. intros i H. rewrite W by auto. reflexivity. }
  split; [exact L|]. split; [|split; [apply T|split]].
  - intros i w Hw. assert (i < length pts)%nat by (rewrite <- L; eapply nth_error_lt_inv; eauto).
    rewrite weights_list in Hw by auto. injection Hw as <-. apply quadrature_nonneg; auto.
  - rewrite (Rsum_ext _ _ (fun i => nth i (quadrature_weights pts) 0 * (1 + 0 * nth i pts 0)))
      by (intros; ring).
    rewrite (T (fun i => 1 + 0 * nth i pts 0)), trapezoid_affine by auto. cbv zeta. field.
  - intros c d Hf. cbv zeta. rewrite T.
    replace (trapezoid pts f) with (trapezoid pts (fun i => c + d * nth i pts 0)).
    + rewrite trapezoid_affine by auto. cbv zeta. field.
    + unfold trapezoid. apply Rsum_ext. intros i H. rewrite !Hf by lia. reflexivity.
Qed.

Lemma resample_full : forall dst src,
  increasing (ipoints src) -> increasing (ipoints dst) ->
  table_of (ipoints src) (iinner src) (ivalues src) ->
  table_of (ipoints dst) (iinner dst) (ivalues dst) ->
  iinner dst = iinner src -> inside_span (ipoints src) (ipoints dst) ->
  exists v', interpolate_from dst src = Ok v' /\
    ipoints v' = ipoints dst /\ iinner v' = iinner dst /\
    table_of (ipoints v') (iinner v') (ivalues v') /\
    (forall j k t, nth_error (ipoints dst) j = Some t -> (k < iinner dst)%nat ->
       piecewise_linear tolerance (ipoints src) (fun i => entry (ivalues src) (iinner src) i k) t
         (entry (ivalues v') (iinner dst) j k) /\
       forall c d, (forall i x, nth_error (ipoints src) i = Some x ->
                      entry (ivalues src) (iinner src) i k = c + d * x) ->
                   entry (ivalues v') (iinner dst) j k = c + d * t).
Proof.
  intros dst src Hi Hi' Hl Hl' Hm Hs. pose proof Hs as Hspan.
  destruct (interpolate_from_ok dst src Hi Hi' Hl Hl' Hm Hs) as (v' & E & P & M & L & N).
  exists v'. split; [exact E|]. split; [exact P|]. split; [exact M|].
  split; [unfold table_of in *; congruence|].
  intros j k t Hj Hk. split; [apply N; auto|]. intros c d Hf.
  destruct Hspan as (a & b & a' & b' & Ha & Hb & Ha' & Hb' & L1 & L2).
  eapply piecewise_linear_affine; [apply (N j k t Hj Hk)|exact Ha|exact Hb| |exact Hf].
  pose proof (nth_error_lt_inv _ _ _ Hj).
  assert (a' <= t) by (apply (increasing_nth_le _ Hi' 0%nat j); auto; lia).
  assert (t <= b') by (apply (increasing_nth_le _ Hi' j (length (ipoints dst) - 1)%nat); auto; lia).
  lra.
Qed.
