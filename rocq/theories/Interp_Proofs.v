From Coq Require Import List Arith Reals Lra Lia ZArith Sorted.
From Verif Require Import Base Interp_Model Interp_Spec.
Import ListNotations.
Open Scope R_scope.

(** ** Boolean comparisons *)
Lemma Rltb_true x y : Rltb x y = true <-> x < y.
Proof. unfold Rltb. destruct (Rlt_dec x y); split; intro; auto; try discriminate; lra. Qed.
Lemma Rltb_false x y : Rltb x y = false <-> y <= x.
Proof. unfold Rltb. destruct (Rlt_dec x y); split; intro; auto; try discriminate; lra. Qed.
Lemma Rleb_true x y : Rleb x y = true <-> x <= y.
Proof. unfold Rleb. destruct (Rle_dec x y); split; intro; auto; try discriminate; lra. Qed.
Lemma Rleb_false x y : Rleb x y = false <-> y < x.
Proof. unfold Rleb. destruct (Rle_dec x y); split; intro; auto; try discriminate; lra. Qed.
Lemma Reqb_true x y : Reqb x y = true <-> x = y.
Proof. unfold Reqb. destruct (Req_EM_T x y); split; intro; auto; try discriminate; lra. Qed.
Lemma Reqb_false x y : Reqb x y = false <-> x <> y.
Proof. unfold Reqb. destruct (Req_EM_T x y); split; intro; auto; try discriminate; lra. Qed.

Lemma EPSILON_pos : 0 < EPSILON.
Proof. unfold EPSILON. apply Rinv_0_lt_compat. apply pow_lt. lra. Qed.

Ltac rcase H :=
  match goal with
  | |- context [Rltb ?x ?y] => destruct (Rltb x y) eqn:H;
      [apply Rltb_true in H | apply Rltb_false in H]
  | |- context [Rleb ?x ?y] => destruct (Rleb x y) eqn:H;
      [apply Rleb_true in H | apply Rleb_false in H]
  | |- context [Reqb ?x ?y] => destruct (Reqb x y) eqn:H;
      [apply Reqb_true in H | apply Reqb_false in H]
  end.

(** ** Lists *)
Lemma increasing_nth l : increasing l ->
  forall i j a b, (i < j)%nat -> nth_error l i = Some a -> nth_error l j = Some b -> a < b.
Proof.
  intro H. induction H as [|x l Hs IH Hall]; intros i j a b Hij Ha Hb.
  - destruct i; discriminate.
  - destruct j as [|j]; [lia|]. simpl in Hb. destruct i as [|i].
    + simpl in Ha. injection Ha as <-.
      rewrite Forall_forall in Hall. apply Hall. eapply nth_error_In; eauto.
    + simpl in Ha. eapply IH; [|exact Ha|exact Hb]. lia.
Qed.

Lemma increasing_nth_le l : increasing l ->
  forall i j a b, (i <= j)%nat -> nth_error l i = Some a -> nth_error l j = Some b -> a <= b.
Proof.
  intros H i j a b Hij Ha Hb. destruct (Nat.eq_dec i j) as [->|N].
  - rewrite Ha in Hb. injection Hb as ->. lra.
  - apply Rlt_le. apply (increasing_nth l H i j); auto. lia.
Qed.

Lemma increasing_nth_inv l : increasing l ->
  forall i j a b, nth_error l i = Some a -> nth_error l j = Some b -> a < b -> (i < j)%nat.
Proof.
  intros H i j a b Ha Hb Hlt. destruct (le_lt_dec j i) as [L|]; auto.
  pose proof (increasing_nth_le l H j i b a L Hb Ha). lra.
Qed.

Lemma nth_error_last {A} (l : list A) d : l <> [] ->
  nth_error l (length l - 1) = Some (last l d).
Proof.
  induction l as [|x [|y l] IH]; intro H; [congruence|reflexivity|].
  replace (length (x :: y :: l) - 1)%nat with (S (length (y :: l) - 1)) by (simpl; lia).
  cbn [nth_error]. rewrite IH by discriminate. reflexivity.
Qed.

Lemma nth_error_lt {A} (l : list A) i : (i < length l)%nat -> exists a, nth_error l i = Some a.
Proof.
  intro H. destruct (nth_error l i) eqn:E; eauto. apply nth_error_None in E. lia.
Qed.
Lemma nth_error_lt_inv {A} (l : list A) i a : nth_error l i = Some a -> (i < length l)%nat.
Proof. intro H. apply nth_error_Some. congruence. Qed.

(** ** lower_bound *)
Lemma lower_bound_le l t : (lower_bound l t <= length l)%nat.
Proof. induction l; simpl; [lia|]. destruct (Rltb a t); lia. Qed.
Lemma lower_bound_before l t : forall i a, (i < lower_bound l t)%nat -> nth_error l i = Some a -> a < t.
Proof.
  induction l as [|x l IH]; intros i a Hi Ha; simpl in *; [lia|].
  destruct (Rltb x t) eqn:E; [|lia]. apply Rltb_true in E.
  destruct i; simpl in Ha; [injection Ha as <-; auto|]. apply IH with i; auto. lia.
Qed.
Lemma lower_bound_at l t : forall a, nth_error l (lower_bound l t) = Some a -> t <= a.
Proof.
  induction l as [|x l IH]; intros a Ha; simpl in *; [discriminate|].
  destruct (Rltb x t) eqn:E; simpl in Ha; [apply IH; auto|].
  apply Rltb_false in E. injection Ha as <-. auto.
Qed.

(** ** Segments *)
Lemma nth_firstn_lt {A} (l : list A) n k d : (k < n)%nat -> nth k (firstn n l) d = nth k l d.
Proof.
  revert l k. induction n as [|n IH]; intros l k H; [lia|].
  destruct l as [|x l]; [destruct k; reflexivity|].
  destruct k; simpl; [reflexivity|]. apply IH. lia.
Qed.
Lemma nth_skipn {A} (l : list A) n k d : nth k (skipn n l) d = nth (n + k) l d.
Proof.
  revert l. induction n as [|n IH]; intros l; [reflexivity|].
  destruct l; simpl; [destruct k; reflexivity|]. apply IH.
Qed.

Lemma segment_ok l s m : (s + m <= length l)%nat ->
  exists r, segment l s m = Ok r /\ length r = m /\
    forall k, (k < m)%nat -> nth k r 0 = nth (s + k) l 0.
Proof.
  intro H. unfold segment. rewrite (proj2 (Nat.leb_le _ _) H).
  eexists; split; [reflexivity|]. split.
  - rewrite firstn_length, skipn_length. lia.
  - intros k Hk. rewrite nth_firstn_lt, nth_skipn by auto. reflexivity.
Qed.

Lemma combine_rows_spec la p q : length p = length q ->
  length (combine_rows la p q) = length p /\
  forall k, (k < length p)%nat ->
    nth k (combine_rows la p q) 0 = (1 - la) * nth k p 0 + la * nth k q 0.
Proof.
  revert q. induction p as [|a p IH]; intros [|b q] H; simpl in *; try discriminate.
  - split; [reflexivity|]. intros; lia.
  - injection H as H. destruct (IH q H) as [IHl IHn]. split; [lia|].
    intros [|k] Hk; [reflexivity|]. apply IHn. lia.
Qed.

(** ** Interpolation *)
Section Interp.
Variable v : ivec.
Hypothesis Hinc : increasing (ipoints v).
Hypothesis Hne : ipoints v <> [].
Hypothesis Hlen : length (ivalues v) = (length (ipoints v) * iinner v)%nat.

Let f (k i : nat) : R := entry (ivalues v) (iinner v) i k.

Lemma row_in i : (i < length (ipoints v))%nat ->
  (i * iinner v + iinner v <= length (ivalues v))%nat.
Proof. intro H. rewrite Hlen. nia. Qed.

Lemma interp_out t : ~ covered EPSILON (ipoints v) t -> interp_at v t = Exc.
Proof.
  intro H. unfold interp_at. pose proof EPSILON_pos as Ep.
  pose proof (nth_error_last (ipoints v) 0 Hne) as Hl.
  destruct (ipoints v) as [|p0 l] eqn:E; [congruence|]. rewrite <- E in *.
  assert (H0 : nth_error (ipoints v) 0 = Some p0) by (rewrite E; reflexivity).
  assert (Hc : ~ (p0 - EPSILON <= t <= last (ipoints v) 0 + EPSILON)).
  { intro C. apply H. exists p0, (last (ipoints v) 0). auto. }
  assert (Hle : p0 <= last (ipoints v) 0).
  { apply (increasing_nth_le _ Hinc 0 (length (ipoints v) - 1)%nat p0 (last (ipoints v) 0));
      auto; lia. }
  destruct (Rleb (last (ipoints v) 0) t) eqn:A; [apply Rleb_true in A | apply Rleb_false in A].
  { rcase B; [reflexivity|]. exfalso; apply Hc; split; lra. }
  destruct (Rleb t p0) eqn:B; [apply Rleb_true in B | apply Rleb_false in B].
  { rcase Hc3; [reflexivity|]. exfalso; apply Hc; split; lra. }
  exfalso; apply Hc; split; lra.
Qed.

Lemma interp_in t : covered EPSILON (ipoints v) t ->
  exists row, interp_at v t = Ok row /\ length row = iinner v /\
    forall k, (k < iinner v)%nat ->
      piecewise_linear EPSILON (ipoints v) (f k) t (nth k row 0).
Proof.
  intros (a & b & Ha & Hb & Ht). unfold interp_at. pose proof EPSILON_pos as Ep.
  pose proof (nth_error_last (ipoints v) 0 Hne) as Hl.
  rewrite Hb in Hl. injection Hl as Hl. rewrite <- Hl.
  assert (Hpos : (0 < length (ipoints v))%nat) by (eapply nth_error_lt_inv; eauto).
  destruct (ipoints v) as [|p0 l] eqn:E; [congruence|]. rewrite <- E in *.
  assert (p0 = a) as -> by (rewrite E in Ha; simpl in Ha; congruence).
  clear E l.
  destruct (Rleb b t) eqn:A; [apply Rleb_true in A | apply Rleb_false in A].
  { rcase B; [lra|].
    destruct (segment_ok (ivalues v) ((length (ipoints v) - 1) * iinner v) (iinner v))
      as (r & Er & Lr & Nr); [apply row_in; lia|].
    exists r. split; [exact Er|]. split; [exact Lr|]. intros k Hk. rewrite Nr by auto.
    destruct (Req_dec b t) as [->|Nbt].
    - left. exists (length (ipoints v) - 1)%nat. split; auto.
    - right; right; right. exists (length (ipoints v) - 1)%nat, b.
      repeat split; auto; try lra. lia. }
  destruct (Rleb t a) eqn:B; [apply Rleb_true in B | apply Rleb_false in B].
  { rcase Hc3; [lra|].
    destruct (segment_ok (ivalues v) 0 (iinner v)) as (r & Er & Lr & Nr);
      [pose proof (row_in 0 Hpos); lia|].
    exists r. split; [exact Er|]. split; [exact Lr|]. intros k Hk. rewrite Nr by auto.
    destruct (Req_dec a t) as [->|Nat'].
    - left. exists 0%nat. split; auto.
    - right; right; left. exists a. repeat split; auto; lra. }
  set (it := lower_bound (ipoints v) t).
  assert (Hit : (it < length (ipoints v))%nat).
  { pose proof (lower_bound_le (ipoints v) t) as L. fold it in L.
    destruct (Nat.eq_dec it (length (ipoints v))) as [Eq|]; [|lia].
    exfalso. assert (b < t); [|lra].
    apply (lower_bound_before (ipoints v) t (length (ipoints v) - 1)); auto.
    fold it. lia. }
  assert (Hit0 : it <> 0%nat).
  { intro Z. assert (t <= a); [|lra]. apply (lower_bound_at (ipoints v) t). fold it.
    rewrite Z. auto. }
  destruct (nth_error_lt _ _ Hit) as [tn Htn].
  destruct (nth_error_lt (ipoints v) (it - 1)) as [tp Htp]; [lia|].
  rewrite (proj2 (Nat.eqb_neq _ _) Hit0).
  rewrite (proj2 (get_Ok _ _ _) Htn). cbn [obind].
  rewrite (proj2 (get_Ok _ _ _) Htp). cbn [obind].
  destruct (segment_ok (ivalues v) (it * iinner v) (iinner v)) as (rn & Ern & Lrn & Nrn);
    [apply row_in; lia|].
  destruct (segment_ok (ivalues v) (it * iinner v - iinner v) (iinner v))
    as (rp & Erp & Lrp & Nrp).
  { replace (it * iinner v - iinner v)%nat with ((it - 1) * iinner v)%nat by nia.
    apply row_in; lia. }
  rewrite Ern. cbn [obind]. rewrite Erp. cbn [obind].
  eexists; split; [reflexivity|].
  destruct (combine_rows_spec ((t - tp) / (tn - tp)) rp rn) as [Lc Nc]; [lia|].
  split; [lia|]. intros k Hk. rewrite Nc by lia. rewrite Nrn, Nrp by auto.
  assert (Htp' : tp < t).
  { apply (lower_bound_before (ipoints v) t (it - 1)); auto. fold it. lia. }
  assert (Htn' : t <= tn) by (apply (lower_bound_at (ipoints v) t); auto).
  assert (E1 : nth (it * iinner v + k) (ivalues v) 0 = f k it) by reflexivity.
  assert (E2 : nth (it * iinner v - iinner v + k) (ivalues v) 0 = f k (it - 1)%nat).
  { unfold f, entry. f_equal. nia. }
  rewrite E1, E2.
  destruct (Req_dec t tn) as [->|Ntn].
  - left. exists it. split; auto. field. lra.
  - right; left. exists (it - 1)%nat, tp, tn.
    replace (S (it - 1)) with it by lia. repeat split; auto; try lra.
Qed.

End Interp.

(** The specification determines the value. *)
Lemma piecewise_linear_unique tol pts f t y1 y2 : 0 <= tol -> increasing pts ->
  piecewise_linear tol pts f t y1 -> piecewise_linear tol pts f t y2 -> y1 = y2.
Proof.
  intros Htol Hi H1 H2.
  (* locate both descriptions by index comparison *)
  assert (LT := increasing_nth_inv pts Hi).
  assert (LE := increasing_nth_le pts Hi).
  destruct H1 as [(i & Hi1 & ->)|[(i & a & b & Ha & Hb & Hab & ->)|[(a & Ha & Hab & ->)|(n & b & Hb & Hn & Hab & ->)]]];
  destruct H2 as [(j & Hj1 & ->)|[(j & c & d & Hc & Hd & Hcd & ->)|[(c & Hc & Hcd & ->)|(m & d & Hd & Hm & Hcd & ->)]]].
  - f_equal. destruct (lt_eq_lt_dec i j) as [[L|E]|L]; auto;
      pose proof (increasing_nth pts Hi _ _ _ _ L ltac:(eassumption) ltac:(eassumption)); lra.
  - assert (j < i)%nat by (eapply LT; [exact Hc|exact Hi1|lra]).
    assert (i < S j)%nat by (eapply LT; [exact Hi1|exact Hd|lra]). lia.
  - assert (c <= t) by (eapply (LE 0%nat i); eauto; lia). lra.
  - assert (t <= d).
    { eapply (LE i m); eauto. assert (i < length pts)%nat by (eapply nth_error_lt_inv; eauto). lia. }
    lra.
  - assert (i < j)%nat by (eapply LT; [exact Ha|exact Hj1|lra]).
    assert (j < S i)%nat by (eapply LT; [exact Hj1|exact Hb|lra]). lia.
  - assert (i = j) as ->.
    { assert (i < S j)%nat by (eapply LT; [exact Ha|exact Hd|lra]).
      assert (j < S i)%nat by (eapply LT; [exact Hc|exact Hb|lra]). lia. }
    rewrite Ha in Hc; rewrite Hb in Hd. injection Hc as <-. injection Hd as <-. reflexivity.
  - assert (c <= a) by (eapply (LE 0%nat i); eauto; lia). lra.
  - assert (b <= d).
    { eapply (LE (S i) m); eauto. assert (S i < length pts)%nat by (eapply nth_error_lt_inv; eauto). lia. }
    lra.
  - assert (a <= t) by (eapply (LE 0%nat j); eauto; lia). lra.
  - assert (a <= c) by (eapply (LE 0%nat j); eauto; lia). lra.
  - reflexivity.
  - assert (a <= d) by (eapply (LE 0%nat m); eauto; lia). lra.
  - assert (t <= b).
    { eapply (LE j n); eauto. assert (j < length pts)%nat by (eapply nth_error_lt_inv; eauto). lia. }
    lra.
  - assert (d <= b).
    { eapply (LE (S j) n); eauto. assert (S j < length pts)%nat by (eapply nth_error_lt_inv; eauto). lia. }
    lra.
  - assert (c <= b) by (eapply (LE 0%nat n); eauto; lia). lra.
  - f_equal. lia.
Qed.

Lemma convex_bounds lo hi x y l : 0 <= l <= 1 -> lo <= x <= hi -> lo <= y <= hi ->
  lo <= x + (y - x) * l <= hi.
Proof. intros. split; nra. Qed.

Lemma piecewise_linear_bounds tol pts f t y lo hi :
  piecewise_linear tol pts f t y ->
  (forall i, (i < length pts)%nat -> lo <= f i <= hi) -> lo <= y <= hi.
Proof.
  intros H B.
  destruct H as [(i & Hi1 & ->)|[(i & a & b & Ha & Hb & Hab & ->)|[(a & Ha & Hab & ->)|(n & b & Hb & Hn & Hab & ->)]]].
  - apply B. eapply nth_error_lt_inv; eauto.
  - apply convex_bounds.
    + split.
      * apply Rmult_le_reg_r with (b - a); [lra|]. field_simplify; lra.
      * apply Rmult_le_reg_r with (b - a); [lra|]. field_simplify; lra.
    + apply B. apply nth_error_lt_inv in Hb. lia.
    + apply B. apply nth_error_lt_inv in Hb. lia.
  - apply B. eapply nth_error_lt_inv; eauto.
  - apply B. lia.
Qed.

(** ** The vector constructor *)
Lemma ctor_accepts_everything pts m g : ctor_from_vector pts m g = Ok (mk_ivec pts m g).
Proof. reflexivity. Qed.

(** ** Time grids *)
Lemma accumulate_nth n : forall a d i, (i < n)%nat ->
  nth_error (accumulate_points a d n) i = Some (a + INR i * d).
Proof.
  induction n as [|n IH]; intros a d i Hi; [lia|].
  destruct i as [|i]; cbn [accumulate_points nth_error].
  - simpl. f_equal. ring.
  - rewrite IH by lia. rewrite S_INR. f_equal. ring.
Qed.
Lemma accumulate_length n : forall a d, length (accumulate_points a d n) = n.
Proof. induction n; intros; simpl; auto. Qed.

Lemma Rceil_spec x : x <= IZR (Rceil x) < x + 1.
Proof.
  unfold Rceil. destruct (base_Int_part (- x)) as [A B].
  rewrite opp_IZR. lra.
Qed.
Lemma Rceil_unique x z : x <= IZR z < x + 1 -> Rceil x = z.
Proof.
  intros [A B]. destruct (Rceil_spec x) as [C D].
  assert (IZR (Rceil x) < IZR (z + 1)) by (rewrite plus_IZR; lra).
  assert (IZR z < IZR (Rceil x + 1)) by (rewrite plus_IZR; lra).
  apply lt_IZR in H. apply lt_IZR in H0. lia.
Qed.

Lemma increasing_of_nth l :
  (forall i a b, nth_error l i = Some a -> nth_error l (S i) = Some b -> a < b) -> increasing l.
Proof.
  intro H. apply Sorted_StronglySorted.
  - intros x y z. apply Rlt_trans.
  - induction l as [|x l IH]; constructor.
    + apply IH. intros i a b Ha Hb. apply (H (S i)); auto.
    + destruct l as [|y l]; constructor. apply (H 0%nat); reflexivity.
Qed.

Lemma equidistant_increasing a b n g : a < b -> (0 < n)%nat -> equidistant_grid a b n g -> increasing g.
Proof.
  intros Hab Hn [Hl Hg]. apply increasing_of_nth. intros i x y Hx Hy.
  assert (S i < length g)%nat by (eapply nth_error_lt_inv; eauto).
  rewrite Hg in Hx, Hy by lia.
  assert (Ex : x = a + INR i * ((b - a) / INR n)) by congruence.
  assert (Ey : y = a + INR (S i) * ((b - a) / INR n)) by congruence.
  rewrite Ex, Ey, S_INR. assert (0 < (b - a) / INR n).
  { apply Rdiv_lt_0_compat; [lra|]. apply lt_0_INR. auto. }
  lra.
Qed.

Lemma delta_end_grid first desired lst : first < lst -> 0 < desired ->
  exists d n, make_from_start_delta_end first desired lst = Ok d /\
    (0 < n)%nat /\ number_of_entries d = S n /\
    equidistant_grid first lst n (equidistant_points d) /\
    (lst - first) / INR n <= desired /\
    (forall m, (0 < m)%nat -> (lst - first) / INR m <= desired -> (n <= m)%nat).
Proof.
  intros Hlt Hd. unfold make_from_start_delta_end.
  rcase A; [lra|]. rcase B; [lra|].
  set (z := Rceil ((lst - first) / desired)).
  assert (Hq : 0 < (lst - first) / desired) by (apply Rdiv_lt_0_compat; lra).
  destruct (Rceil_spec ((lst - first) / desired)) as [C1 C2]. fold z in C1, C2.
  assert (Hz : (0 < z)%Z) by (apply lt_IZR; lra).
  exists (mk_idata first ((lst - first) / INR (Z.to_nat (z + 1) - 1)) (Z.to_nat (z + 1))), (Z.to_nat z).
  assert (En : Z.to_nat (z + 1) = S (Z.to_nat z)) by lia.
  assert (EI : INR (Z.to_nat z) = IZR z) by (rewrite INR_IZR_INZ, Z2Nat.id by lia; reflexivity).
  rewrite En.
  split; [reflexivity|]. split; [lia|]. split; [reflexivity|].
  replace (S (Z.to_nat z) - 1)%nat with (Z.to_nat z) by lia.
  split; [|split].
  - split; [unfold equidistant_points; cbn [number_of_entries]; rewrite accumulate_length; reflexivity|].
    intros i Hi. unfold equidistant_points. cbn [number_of_entries first_point delta].
    rewrite accumulate_nth by lia. reflexivity.
  - rewrite EI. assert (0 < IZR z) by (apply IZR_lt; auto).
    apply Rmult_le_reg_r with (IZR z); [lra|]. field_simplify; [|lra].
    apply Rmult_le_compat_r with (r := desired) in C1; [|lra].
    field_simplify in C1; lra.
  - intros m Hm Hle. apply INR_lt in Hm || idtac.
    assert (0 < INR m) by (apply lt_0_INR; auto).
    assert ((lst - first) / desired <= INR m).
    { apply Rmult_le_compat_r with (r := INR m) in Hle; [|lra]. field_simplify in Hle; [|lra].
      apply Rmult_le_reg_r with desired; [lra|]. field_simplify; lra. }
    assert (IZR z < INR m + 1) by lra.
    rewrite INR_IZR_INZ in H1. rewrite <- plus_IZR in H1. apply lt_IZR in H1. lia.
Qed.

Lemma delta_end_reject first desired lst : lst <= first \/ desired <= 0 ->
  make_from_start_delta_end first desired lst = Exc.
Proof.
  intros H. unfold make_from_start_delta_end. rcase A; auto. rcase B; auto. lra.
Qed.
