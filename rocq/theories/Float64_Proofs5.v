(** Interpolation in binary64. *)
From Coq Require Import ZArith List Bool Reals Lra Lia Sorting.
From Flocq Require Import Core IEEE754.BinarySingleNaN Relative Plus_error.
From Verif Require Import Base Float64_Model Float64_Proofs Float64_Proofs2 Float64_Proofs3
  Float64_Proofs4.
Import ListNotations.
Local Open Scope R_scope.

(** ** Interpolation *)

Definition strictly (pts : list double) : Prop := StronglySorted Rlt (map V pts).

Lemma strictly_cons : forall p pts, strictly (p :: pts) ->
  strictly pts /\ forall q, In q pts -> V p < V q.
Proof.
  intros p pts H. unfold strictly in *. cbn [map] in H.
  apply StronglySorted_inv in H. destruct H as (H1 & H2). split; [exact H1|].
  intros q Hq. rewrite Forall_forall in H2. apply H2. now apply in_map.
Qed.

Lemma strictly_nth : forall pts i j p q, strictly pts -> (i < j)%nat ->
  nth_error pts i = Some p -> nth_error pts j = Some q -> V p < V q.
Proof.
  induction pts as [|a pts IH]; intros i j p q H L Hi Hj; [destruct i; discriminate|].
  apply strictly_cons in H. destruct H as (H1 & H2).
  destruct j as [|j]; [lia|]. cbn [nth_error] in Hj.
  destruct i as [|i].
  - injection Hi as <-. apply H2. eapply nth_error_In, Hj.
  - cbn [nth_error] in Hi. apply (IH i j); try assumption. lia.
Qed.

(** The lower bound of a value in (p_0, p_last]. *)
Lemma lower_bound_spec : forall (pts : list double) (t : double), Forall (fun p : double => is_finite p = true) pts ->
  is_finite t = true -> strictly pts ->
  (lower_bound64 pts t <= List.length pts)%nat /\
  (forall j p, (j < lower_bound64 pts t)%nat -> nth_error pts j = Some p -> V p < V t) /\
  (forall p, nth_error pts (lower_bound64 pts t) = Some p -> V t <= V p).
Proof.
  induction pts as [|a pts IH]; intros t F Ft H.
  - cbn. repeat split; [lia| lia | discriminate].
  - inversion F as [|? ? Fa F']; subst. apply strictly_cons in H. destruct H as (H1 & H2).
    cbn [lower_bound64 List.length]. rewrite dlt_val by assumption.
    destruct (IH t F' Ft H1) as (A & B & C).
    destruct (Rlt_bool_spec (V a) (V t)) as [L|L].
    + split; [lia|]. split.
      * intros [|j] p Hj Hp; [injection Hp as <-; exact L|].
        cbn [nth_error] in Hp. apply (B j p); [lia | exact Hp].
      * intros p Hp. cbn [nth_error] in Hp. now apply C.
    + split; [lia|]. split; [lia|]. intros p Hp. injection Hp as <-. exact L.
Qed.

(** The weight of two points. *)
Lemma weight_val : forall t p q : double,
  is_finite t = true -> is_finite p = true -> is_finite q = true ->
  Rabs (V p) <= bpow radix2 1000 -> Rabs (V q) <= bpow radix2 1000 ->
  V p < V t <= V q ->
  let lambda := ddiv (dminus t p) (dminus q p) in
  is_finite lambda = true /\ 0 <= V lambda <= 1 /\ (V t = V q -> V lambda = 1).
Proof.
  intros t p q Ft Fp Fq Bp Bq H lambda. pose proof u_val as Hu.
  assert (D : bpow radix2 1001 = 2 * bpow radix2 1000)
    by (change 1001%Z with (1 + 1000)%Z; rewrite bpow_plus; reflexivity).
  apply Rabs_le_inv in Bp, Bq.
  destruct (minus_range t p Ft Fp) as (F1 & V1).
  { apply range_of with 1001%Z; [lia|]. rewrite Rabs_pos_eq by lra. lra. }
  destruct (minus_range q p Fq Fp) as (F2 & V2).
  { apply range_of with 1001%Z; [lia|]. rewrite Rabs_pos_eq by lra. lra. }
  assert (N1 : 0 < V (dminus t p)).
  { rewrite V1. pose proof (err_minus (V t) (V p) (fmt_V _) (fmt_V _)) as E.
    rewrite (Rabs_pos_eq (V t - V p)) in E by lra. apply abs_diff in E. rewrite Hu in E. lra. }
  assert (N2 : V (dminus t p) <= V (dminus q p)).
  { rewrite V1, V2. apply rnd_mono. lra. }
  set (r := V (dminus t p) / V (dminus q p)).
  assert (R1 : 0 < r <= 1).
  { unfold r. split; [apply Rdiv_lt_0_compat; lra|].
    apply Rmult_le_reg_r with (V (dminus q p)); [lra|].
    unfold Rdiv. rewrite Rmult_assoc, Rinv_l by lra. lra. }
  destruct (div_range (dminus t p) (dminus q p) F1 ltac:(lra)) as (F3 & V3).
  { fold r. apply range_1000. rewrite Rabs_pos_eq by lra. lra. }
  fold lambda in F3, V3. fold r in V3.
  assert (R0 : rnd 0 = 0) by (apply round_0, valid_rnd_N).
  assert (One : rnd 1 = 1) by (apply rnd_id, (fmt_int 1); lia).
  split; [exact F3|]. split.
  - rewrite V3. split; [rewrite <- R0 | rewrite <- One]; apply rnd_mono; lra.
  - intro E. rewrite V3. unfold r. rewrite V1, V2, E.
    unfold Rdiv. rewrite Rinv_r; [exact One|]. rewrite <- V2. lra.
Qed.

Lemma product_range : forall x y : double, is_finite x = true -> is_finite y = true ->
  0 <= V x <= 1 -> is_finite (dmult x y) = true /\ V (dmult x y) = rnd (V x * V y) /\
  Rabs (V (dmult x y)) <= Rabs (V y).
Proof.
  intros x y Fx Fy H.
  assert (A : Rabs (rnd (V x * V y)) <= Rabs (V y)).
  { apply abs_round_le_generic; [exact valid64 | apply valid_rnd_N | |].
    - apply generic_format_abs, fmt_V.
    - rewrite Rabs_mult, (Rabs_pos_eq (V x)) by lra. pose proof (Rabs_pos (V y)). nra. }
  destruct (mult_range x y Fx Fy) as (F & E).
  { eapply Rle_lt_trans; [exact A | apply V_bound]. }
  split; [exact F|]. split; [exact E|]. now rewrite E.
Qed.

(** Blending with the weight 1 returns the second value. *)
Lemma blend_one : forall l a b : double, is_finite l = true -> is_finite a = true ->
  is_finite b = true -> V l = 1 ->
  is_finite (blend64 l a b) = true /\ V (blend64 l a b) = V b.
Proof.
  intros l a b Fl Fa Fb L. unfold blend64.
  destruct (of_Z_val 1 ltac:(lia)) as (F1 & V1).
  assert (R0 : rnd 0 = 0) by (apply round_0, valid_rnd_N).
  destruct (minus_range (of_Z 1) l F1 Fl) as (F2 & V2).
  { rewrite V1, L. replace (1 - 1) with 0 by ring. rewrite R0, Rabs_R0. apply bpow_gt_0. }
  rewrite V1, L in V2. replace (1 - 1) with 0 in V2 by ring. rewrite R0 in V2.
  destruct (product_range (dminus (of_Z 1) l) a F2 Fa ltac:(lra)) as (F3 & V3 & _).
  rewrite V2, Rmult_0_l, R0 in V3.
  destruct (product_range l b Fl Fb ltac:(lra)) as (F4 & V4 & _).
  rewrite L, Rmult_1_l, (rnd_id (V b) (fmt_V b)) in V4.
  destruct (plus_range _ _ F3 F4) as (F5 & V5).
  { rewrite V3, V4, Rplus_0_l, rnd_id by apply fmt_V. apply V_bound. }
  split; [exact F5|]. rewrite V5, V3, V4, Rplus_0_l. apply rnd_id, fmt_V.
Qed.

(** The rounding error of blending. *)
Lemma blend_error : forall (l a b : double) M, is_finite l = true -> is_finite a = true ->
  is_finite b = true -> 0 <= V l <= 1 -> Rabs (V a) <= M -> Rabs (V b) <= M ->
  M <= bpow radix2 1000 ->
  is_finite (blend64 l a b) = true /\
  Rabs (V (blend64 l a b) - ((1 - V l) * V a + V l * V b))
    <= bpow radix2 (-50) * M + bpow radix2 (-1000).
Proof.
  intros l a b M Fl Fa Fb L Ha Hb HM. unfold blend64. pose proof u_val as Hu.
  destruct (of_Z_val 1 ltac:(lia)) as (F1 & V1).
  assert (R0 : rnd 0 = 0) by (apply round_0, valid_rnd_N).
  assert (One : rnd 1 = 1) by (apply rnd_id, (fmt_int 1); lia).
  assert (PM : 0 <= M) by (eapply Rle_trans; [apply Rabs_pos | exact Ha]).
  destruct (minus_range (of_Z 1) l F1 Fl) as (F2 & V2).
  { rewrite V1. apply range_1000. rewrite Rabs_pos_eq by lra. lra. }
  rewrite V1 in V2. set (mu := dminus (of_Z 1) l) in *.
  assert (Bm : 0 <= V mu <= 1).
  { rewrite V2. split; [rewrite <- R0 | rewrite <- One]; apply rnd_mono; lra. }
  assert (Em : Rabs (V mu - (1 - V l)) <= u).
  { rewrite V2. rewrite <- V1 at 1. rewrite <- V1.
    eapply Rle_trans; [apply err_minus; apply fmt_V|].
    rewrite V1, Rabs_pos_eq by lra. rewrite Hu. lra. }
  destruct (product_range mu a F2 Fa Bm) as (F3 & V3 & A3).
  destruct (product_range l b Fl Fb L) as (F4 & V4 & A4).
  set (A := dmult mu a) in *. set (B := dmult l b) in *.
  assert (D : bpow radix2 1001 = 2 * bpow radix2 1000)
    by (change 1001%Z with (1 + 1000)%Z; rewrite bpow_plus; reflexivity).
  assert (AB : Rabs (V A + V B) <= 2 * M).
  { eapply Rle_trans; [apply Rabs_triang|]. lra. }
  destruct (plus_range A B F3 F4) as (F5 & V5).
  { apply range_of with 1001%Z; [lia|]. lra. }
  split; [exact F5|].
  pose proof (err_plus (V A) (V B) (fmt_V _) (fmt_V _)) as E5. rewrite <- V5 in E5.
  pose proof (err (V mu * V a)) as E3. rewrite <- V3 in E3.
  pose proof (err (V l * V b)) as E4. rewrite <- V4 in E4.
  assert (G3 : Rabs (V mu * V a) <= M).
  { rewrite Rabs_mult, (Rabs_pos_eq (V mu)) by lra. pose proof (Rabs_pos (V a)). nra. }
  assert (G4 : Rabs (V l * V b) <= M).
  { rewrite Rabs_mult, (Rabs_pos_eq (V l)) by lra. pose proof (Rabs_pos (V b)). nra. }
  assert (G5 : Rabs ((V mu - (1 - V l)) * V a) <= u * M).
  { rewrite Rabs_mult. apply Rmult_le_compat; try apply Rabs_pos; assumption. }
  pose proof (eta_small 3) as He. pose proof tiny_val.
  assert (O53 : 3 <= bpow radix2 53).
  { rewrite two_pow by lia. apply IZR_le. lia. }
  specialize (He ltac:(lra)).
  assert (B50 : bpow radix2 (-50) = 8 * u).
  { unfold u. change 8 with (bpow radix2 3). now rewrite <- bpow_plus. }
  rewrite B50.
  replace ((V mu - (1 - V l)) * V a) with (V mu * V a - (1 - V l) * V a) in G5 by ring.
  set (x := V mu * V a) in *. set (x0 := (1 - V l) * V a) in *. set (y := V l * V b) in *.
  assert (E3' : Rabs (V A - x) <= u * M + eta).
  { eapply Rle_trans; [exact E3|]. apply Rplus_le_compat_r, Rmult_le_compat_l; [rewrite Hu; lra | exact G3]. }
  assert (E4' : Rabs (V B - y) <= u * M + eta).
  { eapply Rle_trans; [exact E4|]. apply Rplus_le_compat_r, Rmult_le_compat_l; [rewrite Hu; lra | exact G4]. }
  assert (E5' : Rabs (V (dplus A B) - (V A + V B)) <= u * (2 * M)).
  { eapply Rle_trans; [exact E5|]. apply Rmult_le_compat_l; [rewrite Hu; lra | exact AB]. }
  apply abs_diff in E3', E4', E5', G5. pose proof eta_pos.
  assert (0 <= u * M) by (apply Rmult_le_pos; [rewrite Hu; lra | exact PM]).
  apply Rabs_le. lra.
Qed.

Lemma get_inv : forall {A} (l : list A) i x, get l i = Ok x -> nth_error l i = Some x.
Proof. intros A l i x H. now apply get_Ok. Qed.

Lemma last_index : forall {A} (l : list A) i x, nth_error l i = Some x ->
  (i <= List.length l - 1)%nat /\ (0 < List.length l)%nat.
Proof.
  intros A l i x H. assert (i < List.length l)%nat by (apply nth_error_Some; congruence). lia.
Qed.

Lemma nth_some : forall {A} (l : list A) i, (i < List.length l)%nat ->
  exists x, nth_error l i = Some x.
Proof.
  intros A l i H. destruct (nth_error l i) as [x|] eqn:E; [now exists x|].
  apply nth_error_None in E. lia.
Qed.

(** Every case of the evaluation between the first and the last point. *)
Lemma eval_cases : forall (pts : list double) (values : list (list double)) (t front back : double),
  Forall (fun p : double => is_finite p = true) pts -> strictly pts -> is_finite t = true ->
  List.length values = List.length pts ->
  nth_error pts 0 = Some front -> nth_error pts (List.length pts - 1) = Some back ->
  V front <= V t <= V back ->
  (V t = V back /\ eval64 pts values t = get values (List.length pts - 1)) \/
  (V t = V front /\ V t < V back /\ eval64 pts values t = get values 0) \/
  (exists i p q vp vq,
     nth_error pts i = Some p /\ nth_error pts (S i) = Some q /\
     nth_error values i = Some vp /\ nth_error values (S i) = Some vq /\
     V p < V t <= V q /\
     eval64 pts values t =
       Ok (map (fun '(a, b) => blend64 (ddiv (dminus t p) (dminus q p)) a b) (combine vp vq))).
Proof.
  intros pts values t front back F Hs Ft Lv H0 Hl B.
  rewrite Forall_forall in F.
  assert (Ff : is_finite front = true) by (apply F; eapply nth_error_In, H0).
  assert (Fb : is_finite back = true) by (apply F; eapply nth_error_In, Hl).
  unfold eval64. rewrite (get_nth _ _ _ H0), (get_nth _ _ _ Hl). cbn [obind].
  rewrite !dle_val by assumption.
  destruct (Rle_bool_spec (V back) (V t)) as [C|C].
  - left. split; [lra|].
    assert (X : dlt (dplus back EPSILON64) t = false).
    { destruct (plus_eps back Fb) as (F1 & V1). rewrite dlt_val by assumption. rewrite V1.
      apply Rlt_bool_false. apply Rle_trans with (V back); [lra|].
      rewrite <- (rnd_id (V back) (fmt_V back)) at 1. apply rnd_mono.
      pose proof eps_small. lra. }
    now rewrite X.
  - right. destruct (Rle_bool_spec (V t) (V front)) as [D|D].
    + left. split; [lra|]. split; [exact C|].
      assert (X : dlt t (dminus front EPSILON64) = false).
      { destruct (minus_eps front Ff) as (F1 & V1). rewrite dlt_val by assumption. rewrite V1.
        apply Rlt_bool_false. apply Rle_trans with (V front); [|lra].
        rewrite <- (rnd_id (V front) (fmt_V front)) at 2. apply rnd_mono.
        pose proof eps_small. lra. }
      now rewrite X.
    + right.
      destruct (lower_bound_spec pts t) as (L1 & L2 & L3); [now rewrite Forall_forall | exact Ft | exact Hs |].
      set (k := lower_bound64 pts t) in *.
      assert (K0 : k <> O).
      { intro E. rewrite E in L3. specialize (L3 _ H0). lra. }
      assert (K1 : (k < List.length pts)%nat).
      { destruct (Nat.eq_dec k (List.length pts)) as [E|E]; [|lia]. exfalso.
        apply last_index in Hl as Hl'. specialize (L2 (List.length pts - 1)%nat back ltac:(lia) Hl). lra. }
      destruct (nth_some pts k K1) as (q & Hq).
      destruct (nth_some pts (k - 1) ltac:(lia)) as (p & Hp).
      destruct (nth_some values k ltac:(lia)) as (vq & Hvq).
      destruct (nth_some values (k - 1) ltac:(lia)) as (vp & Hvp).
      exists (k - 1)%nat, p, q, vp, vq. replace (S (k - 1)) with k by lia.
      repeat (split; [assumption|]). split.
      * split; [apply (L2 (k - 1)%nat p); [lia | exact Hp] | now apply L3].
      * rewrite (get_nth _ _ _ Hq). cbn [obind].
        apply Nat.eqb_neq in K0. rewrite K0.
        rewrite (get_nth _ _ _ Hp), (get_nth _ _ _ Hvq), (get_nth _ _ _ Hvp). reflexivity.
Qed.
