From Coq Require Import List Arith Reals Lra Lia Bool.
From Verif Require Import Base Interp_Model Interp_Spec Interp_Proofs Interp_Proofs2
  Jac_Model Jac_Spec Jac_Proofs Jac_Proofs2 Adjoint_Model Adjoint_Proofs.
Import ListNotations.
Open Scope R_scope.

Lemma solve_columns_spec solve M rhs cols X : solve_columns solve M rhs cols = Some X ->
  forall c, In c cols -> solve M (rhs c) = Some (X c).
Proof.
  revert X. induction cols as [|c cols IH]; intros X H c' Hin; [destruct Hin|].
  cbn [solve_columns] in H. destruct (solve M (rhs c)) as [x|] eqn:E1; [|discriminate].
  destruct (solve_columns solve M rhs cols) as [X1|] eqn:E2; [|discriminate]. injection H as <-.
  destruct (Nat.eq_dec c' c) as [->|N].
  - rewrite Nat.eqb_refl. auto.
  - rewrite (proj2 (Nat.eqb_neq c' c)) by auto. apply IH; auto. destruct Hin; [congruence|auto].
Qed.

Definition sum_after (N i : nat) (f : nat -> R) : R := Rsum N (fun j => if (i <=? j)%nat then f (S j) else 0).

Lemma sum_after_step N i f : (i < N)%nat -> sum_after N i f = sum_after N (S i) f + f (S i).
Proof.
  intro H. unfold sum_after.
  rewrite (Rsum_ext N _ (fun j => (if (S i <=? j)%nat then f (S j) else 0) + (if (j =? i)%nat then f (S i) else 0))).
  - rewrite Rsum_plus. f_equal. apply (Rsum_single N _ i); auto.
  - intros j Hj. destruct (Nat.eq_dec j i) as [->|Ne].
    + rewrite Nat.eqb_refl, Nat.leb_refl. rewrite (proj2 (Nat.leb_gt (S i) i)) by lia. lra.
    + rewrite (proj2 (Nat.eqb_neq j i)) by auto. destruct (i <=? j)%nat eqn:E.
      * apply Nat.leb_le in E. rewrite (proj2 (Nat.leb_le (S i) j)) by lia. lra.
      * apply Nat.leb_gt in E. rewrite (proj2 (Nat.leb_gt (S i) j)) by lia. lra.
Qed.
Lemma sum_after_end N f : sum_after N N f = 0.
Proof. apply Rsum_zero. intros i Hi. rewrite (proj2 (Nat.leb_gt N i)) by lia. reflexivity. Qed.
Lemma sum_after_start N f : sum_after N 0 f = Rsum N (fun j => f (S j)).
Proof. apply Rsum_ext. reflexivity. Qed.

Section Sweep.
Variables (p : problem) (solve : solver_type) (l : layout) (st ct cons : list R).
Variables (pairs : list (nat * R)) (controls states : ivec).
Let N := (length st - 1)%nat.
Variables (D : nat -> step_data) (w : nat -> R) (tt : nat -> R) (pr : nat -> nat * R).
Variables (z v : nat -> vec) (W' : nat -> vec).
Hypothesis Hupd : forall i, (1 <= i <= N)%nat -> update_matrices p st controls states i = Ok (D i).
Hypothesis Htt : forall i, (i <= N)%nat -> nth_error st i = Some (tt i).
Hypothesis Hw : forall i, (i <= N)%nat -> nth_error (quadrature_weights st) i = Some (w i).
Hypothesis Hpr : forall i, (1 <= i <= N)%nat -> nth_error pairs i = Some (pr i).
Hypothesis Hinc : increasing st.
Hypothesis Hcinc : increasing cons.
Hypothesis Huinc : increasing ct.
Hypothesis Hmake : make_data (ng p) (nu p) cons ct = Some (Ok l).
(** solver contract *)
Hypothesis Hsolve : forall A b x, solve A b = Some x ->
  forall k, (k < nx p)%nat -> Rsum (nx p) (fun j => A k j * x j) = b k.
(** linearised equations *)
Hypothesis Hlin : forall i, (1 <= i <= N)%nat -> forall e, (e < nx p)%nat ->
  dot (nx p) (sB (D i) e) (z (i - 1)) + dot (nx p) (sA (D i) e) (z i) + dot (nu p) (sC (D i) e) (v i) = 0.
Hypothesis Hv : forall i, (1 <= i <= N)%nat -> forall k, (k < nu p)%nat ->
  v i k = weighted (fst (pr i)) (snd (pr i)) (fun j => W' j k).

Let fterm i := w i * (dot (nx p) (sfx (D i)) (z i) + dot (nu p) (sfu (D i)) (v i)).
Let gterm i r := dot (nx p) (sgx (D i) r) (z i) + dot (nu p) (sgu (D i) r) (v i).

Lemma tt_lt i j : (i < j <= N)%nat -> tt i < tt j.
Proof. intro H. apply (increasing_nth st Hinc i j); try apply Htt; lia. Qed.
Lemma tt_inj i j : (i <= N)%nat -> (j <= N)%nat -> tt i = tt j -> i = j.
Proof.
  intros Hi Hj E. destruct (Nat.lt_trichotomy i j) as [A|[A|A]]; auto.
  - pose proof (tt_lt i j ltac:(lia)). lra.
  - pose proof (tt_lt j i ltac:(lia)). lra.
Qed.
Lemma tt_le_inv i j : (i <= N)%nat -> (j <= N)%nat -> tt i <= tt j -> (i <= j)%nat.
Proof.
  intros Hi Hj E. destruct (Nat.le_gt_cases i j) as [A|A]; auto.
  pose proof (tt_lt j i ltac:(lia)). lra.
Qed.

Definition objective_inv (i : nat) (s : sweep) : Prop :=
  gradient_along (length ct) (nu p) (w_gradient s) W'
  = sum_after N i fterm + dot (nx p) (w_rhs_f s) (z i).

Definition constraint_inv (i : nat) (s : sweep) : Prop :=
  (0 < ng p)%nat ->
  (w_index s <= length cons)%nat /\
  w_active s = (w_index s <? length cons)%nat /\
  (forall q c, (q < w_index s)%nat -> nth_error cons q = Some c -> exists m, (1 <= m <= i)%nat /\ c = tt m) /\
  (forall q c, (w_index s <= q)%nat -> nth_error cons q = Some c -> exists m, (i < m <= N)%nat /\ c = tt m) /\
  (forall q r m, (w_index s <= q)%nat -> (i < m <= N)%nat -> nth_error cons q = Some (tt m) -> (r < ng p)%nat ->
     jacobian_along ct (nu p) l (w_jacobian s) W' (q * ng p + r)
     = gterm m r + dot (nx p) (w_rhs_g s (q * ng p + r)%nat) (z i)) /\
  (forall c, (c < w_index s * ng p)%nat ->
     (forall k, w_rhs_g s c k = 0) /\ jacobian_along ct (nu p) l (w_jacobian s) W' c = 0).

Lemma solve_identity i rhs xi : (1 <= i <= N)%nat ->
  solve (transpose (sA (D i))) rhs = Some xi ->
  dot (nu p) (tmulv (nx p) (sC (D i)) xi) (v i)
  = - dot (nx p) rhs (z i) + dot (nx p) (fun k => - tmulv (nx p) (sB (D i)) xi k) (z (i - 1)).
Proof.
  intros Hi E. apply adjoint_identity with (A := sA (D i)).
  - intros k Hk. apply (Hsolve _ _ _ E k Hk).
  - intros e He. apply (Hlin i Hi e He).
Qed.

Lemma constraint_part_inv i s s' : (1 <= i <= N)%nat -> constraint_inv i s ->
  constraint_part p solve l cons (tt i) (D i) (fst (pr i)) (snd (pr i)) s = Ok (Some s') ->
  constraint_inv (i - 1) s' /\ w_rhs_f s' = w_rhs_f s /\ w_gradient s' = w_gradient s.
Proof.
  intros Hi HI H. unfold constraint_part in H.
  destruct (ng p =? 0)%nat eqn:Eg; [apply Nat.eqb_eq in Eg|apply Nat.eqb_neq in Eg].
  { injection H as <-. split; [|auto]. intro. lia. }
  specialize (HI ltac:(lia)). destruct HI as (Ia & Ib & Ic & Id & Ie & If).
  destruct (w_index s) as [|before] eqn:Ei; cbn [pred_index] in H; [discriminate|].
  apply obind_Ok in H. destruct H as (ctime & Hc & H). apply get_Ok in Hc.
  destruct (Ic before ctime ltac:(lia) Hc) as (mb & Hmb & Emb).
  (* positions of earlier constraints *)
  assert (Hearlier : forall q c, (q <= before)%nat -> nth_error cons q = Some c ->
            exists m, (1 <= m <= mb)%nat /\ c = tt m).
  { intros q c Hq Hqc. destruct (Ic q c ltac:(lia) Hqc) as (m & Hm & ->). exists m. split; [|auto].
    split; [lia|]. apply tt_le_inv; try lia. rewrite <- Emb.
    apply (increasing_nth_le cons Hcinc q before); auto. }
  assert (Hstrict : forall q c, (q < before)%nat -> nth_error cons q = Some c ->
            exists m, (1 <= m < mb)%nat /\ c = tt m).
  { intros q c Hq Hqc. destruct (Hearlier q c ltac:(lia) Hqc) as (m & Hm & ->). exists m. split; [|auto].
    destruct (Nat.eq_dec m mb) as [->|]; [|lia].
    pose proof (increasing_nth cons Hcinc q before _ _ Hq Hqc Hc). rewrite Emb in *. lra. }
  remember (Reqb ctime (tt i)) as is_new eqn:Enew. symmetry in Enew.
  set (index := if is_new then before else S before) in *.
  assert (Hindex : (index <= length cons)%nat) by (unfold index; destruct is_new; lia).
  assert (Hpos1 : forall q c, (q < index)%nat -> nth_error cons q = Some c ->
     exists m, (1 <= m <= i - 1)%nat /\ c = tt m).
  { intros q c Hq Hqc. unfold index in Hq. destruct is_new.
    - destruct (Hstrict q c Hq Hqc) as (m & Hm & ->). exists m. split; [lia|auto].
    - apply Reqb_false in Enew. assert (mb <> i) by (intro; subst; auto).
      destruct (Hearlier q c ltac:(lia) Hqc) as (m & Hm & ->). exists m. split; [lia|auto]. }
  assert (Hpos2 : forall q c, (index <= q)%nat -> nth_error cons q = Some c ->
     exists m, (i - 1 < m <= N)%nat /\ c = tt m).
  { intros q c Hq Hqc. unfold index in Hq. destruct is_new.
    - apply Reqb_true in Enew. destruct (Nat.eq_dec q before) as [->|Nq].
      + exists i. split; [lia|]. congruence.
      + destruct (Id q c ltac:(lia) Hqc) as (m & Hm & ->). exists m. split; [lia|auto].
    - destruct (Id q c ltac:(lia) Hqc) as (m & Hm & ->). exists m. split; [lia|auto]. }
  destruct (is_new || w_active s)%bool eqn:Eact; cbn [negb] in H.
  2:{ (* no active constraints *)
      apply orb_false_iff in Eact. destruct Eact as [-> Ea]. rewrite Ib in Ea. apply Nat.ltb_ge in Ea.
      injection H as <-. cbn [w_index w_active w_rhs_g w_jacobian w_rhs_f w_gradient].
      split; [|auto]. intros _. cbn [w_index w_active w_rhs_g w_jacobian].
      split; [auto|]. split; [symmetry; apply Nat.ltb_ge; auto|].
      split; [auto|]. split; [auto|]. split; [|exact If].
      intros q r m Hq Hm Hqc Hr. apply nth_error_lt_inv in Hqc. unfold index in Hq. lia. }
  destruct (solve_columns solve (transpose (sA (D i))) _ _) as [Xi|] eqn:ES; [|discriminate].
  apply obind_Ok in H. destruct H as (J & HJ & H). injection H as <-.
  cbn [w_rhs_f w_gradient]. split; [|auto]. intros _. cbn [w_index w_active w_rhs_g w_jacobian].
  assert (Hix : (index < length cons)%nat).
  { unfold index. destruct is_new; [lia|]. cbn [orb] in Eact. rewrite Ib in Eact. apply Nat.ltb_lt in Eact. auto. }
  set (first := (index * ng p)%nat) in *. set (total := (length cons * ng p)%nat) in *.
  assert (Hft : (first + ng p <= total)%nat) by (unfold first, total; nia).
  pose proof (increasing_nondecreasing _ Hcinc) as Hcn. pose proof (increasing_nondecreasing _ Huinc) as Hun.
  assert (Htf : (total - first = (length cons - index) * ng p)%nat)
    by (unfold total, first; rewrite Nat.mul_sub_distr_r; reflexivity).
  pose proof (distribute_jacobian_along cons ct (ng p) (nu p) l Hcn Hun Hmake _ _ _ _ _ _ index W' Hindex
    Htf HJ) as Halong.
  fold first in Halong. fold total in Halong.
  assert (Hdot : forall M, dot (nu p) M (fun k => weighted (fst (pr i)) (snd (pr i)) (fun j => W' j k)) = dot (nu p) M (v i)).
  { intro M. apply dot_ext; auto. intros k Hk. symmetry. apply Hv; auto. }
  split; [auto|]. split; [symmetry; apply Nat.ltb_lt; auto|]. split; [auto|]. split; [auto|].
  split.
  - intros q r m Hq Hm Hqc Hr.
    assert (Hql : (q < length cons)%nat) by (eapply nth_error_lt_inv; eauto).
    set (c := (q * ng p + r)%nat).
    assert (Hc1 : (first <= c)%nat) by (unfold first, c; nia).
    assert (Hc2 : (c < total)%nat) by (unfold total, c; nia).
    rewrite Halong by auto.
    rewrite (proj2 (Nat.leb_le first c)), (proj2 (Nat.ltb_lt c total)) by auto. cbn [andb].
    rewrite Hdot. replace (first + (c - first))%nat with c by lia.
    pose proof (solve_columns_spec _ _ _ _ _ ES c ltac:(apply in_seq; lia)) as Hs.
    pose proof (solve_identity i _ _ Hi Hs) as Hid.
    rewrite dot_plus, Hid.
    unfold index in Hq. destruct is_new; cbn [andb] in *.
    + apply Reqb_true in Enew. destruct (Nat.eq_dec q before) as [->|Nq].
      * (* the new constraint *)
        assert (m = i). { apply tt_inj; try lia. rewrite Hc in Hqc. congruence. } subst m.
        assert (Hblk : (c <? first + ng p)%nat = true) by (apply Nat.ltb_lt; unfold c, first, index; lia).
        rewrite (proj2 (Nat.leb_le first c)) by auto. rewrite Hblk. cbn [andb].
        assert (Hr2 : (c - first)%nat = r) by (unfold c, first, index; lia). rewrite Hr2.
        (* column was zero before *)
        destruct (If c ltac:(unfold c; nia)) as [Z1 Z2]. rewrite Z2.
        rewrite (dot_ext (nx p) (fun k => w_rhs_g s c k - sgx (D i) r k) (fun k => - sgx (D i) r k) (z i) (z i))
          by (intros; auto; rewrite Z1; ring).
        rewrite dot_opp. unfold gterm. change (fun k : nat => sgu (D i) r k) with (sgu (D i) r). ring.
      * assert (Hblk : (c <? first + ng p)%nat = false) by (apply Nat.ltb_ge; unfold c, first, index; nia).
        rewrite (proj2 (Nat.leb_le first c)) by auto. rewrite Hblk. cbn [andb].
        assert (m <> i).
        { intros ->. destruct (Id q (tt i) ltac:(lia) Hqc) as (m' & Hm' & E').
          apply tt_inj in E'; lia. }
        assert (HE := Ie q r m ltac:(lia) ltac:(lia) Hqc Hr). fold c in HE. rewrite HE.
        rewrite (dot_ext (nu p) (fun _ => 0) (fun k => 0 * 0) (v i) (v i)) by (intros; auto; ring).
        rewrite dot_scal. change (fun k : nat => w_rhs_g s c k) with (w_rhs_g s c). ring.
    + assert (m <> i).
      { intros ->. destruct (Id q (tt i) ltac:(lia) Hqc) as (m' & Hm' & E').
        apply tt_inj in E'; lia. }
      assert (HE := Ie q r m ltac:(lia) ltac:(lia) Hqc Hr). fold c in HE. rewrite HE.
      rewrite (dot_ext (nu p) (fun _ => 0) (fun k => 0 * 0) (v i) (v i)) by (intros; auto; ring).
      rewrite dot_scal. change (fun k : nat => w_rhs_g s c k) with (w_rhs_g s c). ring.
  - intros c Hcf.
    assert (Hc3 : (c < first)%nat) by (unfold first; auto).
    rewrite (proj2 (Nat.leb_gt first c)) by auto. rewrite !andb_false_r. cbn [andb].
    destruct (If c) as [Z1 Z2].
    { unfold first, index in Hc3. destruct is_new; nia. }
    split; [exact Z1|].
    rewrite Halong by lia. rewrite (proj2 (Nat.leb_gt first c)) by auto. rewrite Z2. ring.
Qed.

Lemma sweep_step_inv i s s' : (1 <= i <= N)%nat -> objective_inv i s -> constraint_inv i s ->
  sweep_step p solve l st ct cons pairs controls states i s = Ok (Some s') ->
  objective_inv (i - 1) s' /\ constraint_inv (i - 1) s'.
Proof.
  intros Hi HO HC H. unfold sweep_step in H.
  rewrite (Hupd i Hi) in H. cbn [obind] in H.
  rewrite (proj2 (get_Ok st i (tt i))) in H by (apply Htt; lia). cbn [obind] in H.
  rewrite (proj2 (get_Ok _ i (w i))) in H by (apply Hw; lia). cbn [obind] in H.
  rewrite (proj2 (get_Ok pairs i (pr i))) in H by (apply Hpr; lia). cbn [obind] in H.
  destruct (pr i) as [u la] eqn:Epr.
  destruct (solve (transpose (sA (D i))) (fun k => w_rhs_f s k - w i * sfx (D i) k)) as [xi|] eqn:ES; [|discriminate].
  apply obind_Ok in H. destruct H as (G & HG & H).
  set (s1 := mk_sweep (fun k => - tmulv (nx p) (sB (D i)) xi k) G (w_index s) (w_active s) (w_rhs_g s) (w_jacobian s)) in *.
  assert (HC1 : constraint_inv i s1) by exact HC.
  destruct (constraint_part_inv i s1 s' Hi HC1) as (C1 & C2 & C3).
  { rewrite Epr. exact H. }
  split; [|exact C1].
  unfold objective_inv in *. rewrite C2, C3. cbn [w_gradient w_rhs_f s1].
  rewrite (distribute_gradient_along _ (nu p) _ _ _ _ _ W' HG). rewrite HO.
  pose proof (solve_identity i _ _ Hi ES) as Hid.
  rewrite (dot_ext (nu p) _ (fun k => tmulv (nx p) (sC (D i)) xi k + w i * sfu (D i) k)
     (fun k => weighted u la (fun j => W' j k)) (v i)); auto.
  2:{ intros k Hk. rewrite (Hv i Hi k Hk), Epr. reflexivity. }
  rewrite dot_plus, dot_scal, Hid.
  rewrite (dot_ext (nx p) (fun k => w_rhs_f s k - w i * sfx (D i) k)
     (fun k => w_rhs_f s k + (- w i) * sfx (D i) k) (z i) (z i)) by (intros; auto; ring).
  rewrite dot_plus, dot_scal.
  assert (Es := sum_after_step N (i - 1) fterm ltac:(lia)).
  replace (S (i - 1)) with i in Es by lia. rewrite Es. unfold fterm at 3. ring.
Qed.

Lemma sweep_loop_inv n : forall s s', (n <= N)%nat -> objective_inv n s -> constraint_inv n s ->
  sweep_loop p solve l st ct cons pairs controls states n s = Ok (Some s') ->
  objective_inv 0 s' /\ constraint_inv 0 s'.
Proof.
  induction n as [|n IH]; intros s s' Hn HO HC H; cbn [sweep_loop] in H.
  - injection H as <-. auto.
  - apply obind_Ok in H. destruct H as (r & H1 & H2). destruct r as [s1|]; [|discriminate].
    destruct (sweep_step_inv (S n) s s1 ltac:(lia) HO HC H1) as [O1 C1].
    replace (S n - 1)%nat with n in * by lia. apply (IH s1 s'); auto. lia.
Qed.

Hypothesis Hpos : forall q c, nth_error cons q = Some c -> exists m, (1 <= m <= N)%nat /\ c = tt m.
Hypothesis Hz0 : forall k, (k < nx p)%nat -> z 0%nat k = 0.

Lemma sweep_total s' :
  sweep_loop p solve l st ct cons pairs controls states N
    (mk_sweep (fun _ => 0) (fun _ _ => 0) (length cons) false (fun _ _ => 0) (fun _ => 0)) = Ok (Some s') ->
  gradient_along (length ct) (nu p) (w_gradient s') W' = Rsum N (fun j => fterm (S j)) /\
  ((0 < ng p)%nat -> forall q r m, (1 <= m <= N)%nat -> nth_error cons q = Some (tt m) -> (r < ng p)%nat ->
     jacobian_along ct (nu p) l (w_jacobian s') W' (q * ng p + r) = gterm m r).
Proof.
  intro H.
  assert (Z : forall a, dot (nx p) a (z 0%nat) = 0).
  { intro a. apply Rsum_zero. intros k Hk. rewrite Hz0 by auto. ring. }
  set (s0 := mk_sweep (fun _ => 0) (fun _ _ => 0) (length cons) false (fun _ _ => 0) (fun _ => 0)) in H.
  assert (O0 : objective_inv N s0).
  { unfold objective_inv. cbn [w_gradient w_rhs_f s0]. rewrite sum_after_end.
    assert (Zg : gradient_along (length ct) (nu p) (fun _ _ => 0) W' = 0).
    { apply Rsum_zero. intros j _. apply Rsum_zero. intros k _. ring. }
    rewrite Zg. unfold dot. rewrite (Rsum_zero (nx p)) by (intros; ring). ring. }
  assert (C0 : constraint_inv N s0).
  { intro Hg. cbn [w_index w_active w_rhs_g w_jacobian s0].
    split; [lia|]. split; [symmetry; apply Nat.ltb_ge; lia|].
    split; [intros q c _ Hq; apply (Hpos q c Hq)|].
    split; [intros q c Hq Hqc; apply nth_error_lt_inv in Hqc; lia|].
    split; [intros q r m Hq _ Hqc; apply nth_error_lt_inv in Hqc; lia|].
    intros c Hc. split; [reflexivity|].
    apply (jacobian_along_zero cons ct (ng p) (nu p) l (increasing_nondecreasing _ Hcinc)
      (increasing_nondecreasing _ Huinc) Hmake); auto. }
  destruct (sweep_loop_inv N s0 s' (Nat.le_refl N) O0 C0 H) as [O1 C1].
  split.
    + unfold objective_inv in O1. rewrite O1, Z, sum_after_start. ring.
    + intros Hg q r m Hm Hqc Hr. destruct (C1 Hg) as (_ & _ & Pc & _ & Pe & _).
      assert (w_index s' = 0)%nat.
      { destruct (w_index s') as [|b] eqn:E; [reflexivity|].
        exfalso.
        destruct (nth_error cons 0) as [c|] eqn:E0.
        - destruct (Pc 0%nat c ltac:(lia) E0) as (m' & Hm' & _). lia.
        - apply nth_error_None in E0. apply nth_error_lt_inv in Hqc. lia. }
      rewrite (Pe q r m) by (auto; lia). rewrite Z. ring.
Qed.

(** ** Safety *)
Hypothesis Hpair_ok : forall i, (1 <= i <= N)%nat -> compute_index_lambda ct (tt i) = Ok (pr i) /\
  (fst (pr i) < length ct)%nat /\ (snd (pr i) <> 1 -> (1 <= fst (pr i))%nat).

(** Position of the constraint index while the sweep runs. *)
Definition index_inv (i : nat) (s : sweep) : Prop :=
  (0 < ng p)%nat ->
  (w_index s <= length cons)%nat /\ w_active s = (w_index s <? length cons)%nat /\
  (forall q c, (q < w_index s)%nat -> nth_error cons q = Some c -> exists m, (1 <= m <= i)%nat /\ c = tt m) /\
  (forall q c, (w_index s <= q)%nat -> nth_error cons q = Some c -> exists m, (i < m <= N)%nat /\ c = tt m).

(** The factorised matrix of step [i] is never rejected. *)
Definition no_failure (i : nat) : Prop := forall b, solve (transpose (sA (D i))) b <> None.

Lemma solve_columns_some M rhs cols : (forall b, solve M b <> None) -> solve_columns solve M rhs cols <> None.
Proof.
  intro H. induction cols as [|c cols IH]; cbn [solve_columns]; [discriminate|].
  specialize (H (rhs c)). destruct (solve M (rhs c)); [|congruence].
  destruct (solve_columns solve M rhs cols); [discriminate|congruence].
Qed.

Lemma constraint_part_safe i s : (1 <= i <= N)%nat -> index_inv i s -> (ng p = 0 \/ w_index s <> 0)%nat ->
  exists r, constraint_part p solve l cons (tt i) (D i) (fst (pr i)) (snd (pr i)) s = Ok r /\
    (no_failure i -> r <> None) /\
    forall s', r = Some s' -> index_inv (i - 1) s'.
Proof.
  intros Hi HI Hnz. unfold constraint_part.
  destruct (ng p =? 0)%nat eqn:Eg; [apply Nat.eqb_eq in Eg|apply Nat.eqb_neq in Eg].
  { eexists. split; [reflexivity|]. split; [discriminate|]. intros s' E. injection E as <-. intro; lia. }
  specialize (HI ltac:(lia)). destruct HI as (Ia & Ib & Ic & Id).
  destruct (w_index s) as [|before] eqn:Ei; cbn [pred_index]; [lia|].
  destruct (nth_error_lt cons before) as [ctime Hc]; [lia|].
  rewrite (proj2 (get_Ok _ _ _) Hc). cbn [obind].
  destruct (Ic before ctime ltac:(lia) Hc) as (mb & Hmb & Emb).
  assert (Hearlier : forall q c, (q <= before)%nat -> nth_error cons q = Some c ->
            exists m, (1 <= m <= mb)%nat /\ c = tt m).
  { intros q c Hq Hqc. destruct (Ic q c ltac:(lia) Hqc) as (m & Hm & ->). exists m. split; [|auto].
    split; [lia|]. apply tt_le_inv; try lia. rewrite <- Emb.
    apply (increasing_nth_le cons Hcinc q before); auto. }
  assert (Hstrict : forall q c, (q < before)%nat -> nth_error cons q = Some c ->
            exists m, (1 <= m < mb)%nat /\ c = tt m).
  { intros q c Hq Hqc. destruct (Hearlier q c ltac:(lia) Hqc) as (m & Hm & ->). exists m. split; [|auto].
    destruct (Nat.eq_dec m mb) as [->|]; [|lia].
    pose proof (increasing_nth cons Hcinc q before _ _ Hq Hqc Hc). rewrite Emb in *. lra. }
  remember (Reqb ctime (tt i)) as is_new eqn:Enew. symmetry in Enew.
  set (index := if is_new then before else S before).
  assert (Hindex : (index <= length cons)%nat) by (unfold index; destruct is_new; lia).
  assert (Hpos1 : forall q c, (q < index)%nat -> nth_error cons q = Some c ->
     exists m, (1 <= m <= i - 1)%nat /\ c = tt m).
  { intros q c Hq Hqc. unfold index in Hq. destruct is_new.
    - destruct (Hstrict q c Hq Hqc) as (m & Hm & ->). exists m. split; [lia|auto].
    - apply Reqb_false in Enew. assert (mb <> i) by (intro; subst; auto).
      destruct (Hearlier q c ltac:(lia) Hqc) as (m & Hm & ->). exists m. split; [lia|auto]. }
  assert (Hpos2 : forall q c, (index <= q)%nat -> nth_error cons q = Some c ->
     exists m, (i - 1 < m <= N)%nat /\ c = tt m).
  { intros q c Hq Hqc. unfold index in Hq. destruct is_new.
    - apply Reqb_true in Enew. destruct (Nat.eq_dec q before) as [->|Nq].
      + exists i. split; [lia|]. congruence.
      + destruct (Id q c ltac:(lia) Hqc) as (m & Hm & ->). exists m. split; [lia|auto].
    - destruct (Id q c ltac:(lia) Hqc) as (m & Hm & ->). exists m. split; [lia|auto]. }
  destruct (is_new || w_active s)%bool eqn:Eact; cbn [negb].
  2:{ apply orb_false_iff in Eact. destruct Eact as [-> Ea]. rewrite Ib in Ea. apply Nat.ltb_ge in Ea.
      eexists. split; [reflexivity|]. split; [discriminate|].
      intros s' E. injection E as <-. intros _. cbn [w_index w_active].
      split; [auto|]. split; [symmetry; apply Nat.ltb_ge; auto|]. split; auto. }
  destruct (solve_columns solve _ _ _) as [Xi|] eqn:Esc.
  2:{ eexists; split; [reflexivity|split; [|discriminate]]. intros Hnf _. apply (solve_columns_some _ _ _ Hnf Esc). }
  assert (Hix : (index < length cons)%nat).
  { unfold index. destruct is_new; [lia|]. cbn [orb] in Eact. rewrite Ib in Eact. apply Nat.ltb_lt in Eact. auto. }
  destruct (Hpair_ok i Hi) as (Ep & Eu & Ela).
  (* the first active constraint is not before the current time *)
  destruct (nth_error_lt cons index Hix) as [cx Hcx].
  destruct (Hpos2 index cx (Nat.le_refl _) Hcx) as (mx & Hmx & Ecx).
  assert (Hge : tt i <= cx).
  { rewrite Ecx. destruct (Nat.eq_dec i mx) as [->|]; [lra|]. apply Rlt_le, tt_lt. lia. }
  pose proof (sweep_rows_fit (ng p) (nu p) cons ct l Hcinc Huinc Hmake (tt i) (fst (pr i)) (snd (pr i))
    ltac:(rewrite <- surjective_pairing; auto) index cx Hcx Hge) as (F1 & F2 & F3).
  cbv zeta.
  match goal with |- context[distribute_jacobian l ?a ?b ?c ?q ?M] =>
    destruct (distribute_jacobian_ok cons ct (ng p) (nu p) l (increasing_nondecreasing _ Hcinc)
      (increasing_nondecreasing _ Huinc) Hmake a b c q M F3) as [J HJ]; auto end.
  { rewrite <- Nat.mul_sub_distr_r. exact F1. }
  { rewrite <- Nat.mul_sub_distr_r. exact F2. }
  rewrite HJ. cbn [obind]. eexists. split; [reflexivity|]. split; [discriminate|].
  intros s' E. injection E as <-. intros _. cbn [w_index w_active].
  split; [auto|]. split; [symmetry; apply Nat.ltb_lt; auto|]. split; auto.
Qed.

Lemma sweep_step_safe i s : (1 <= i <= N)%nat -> index_inv i s -> (ng p = 0 \/ w_index s <> 0)%nat ->
  exists r, sweep_step p solve l st ct cons pairs controls states i s = Ok r /\
    (no_failure i -> r <> None) /\ forall s', r = Some s' -> index_inv (i - 1) s'.
Proof.
  intros Hi HI Hnz.
  unfold sweep_step. rewrite (Hupd i) by lia. cbn [obind].
  rewrite (proj2 (get_Ok st i (tt i))) by (apply Htt; lia). cbn [obind].
  rewrite (proj2 (get_Ok _ i (w i))) by (apply Hw; lia). cbn [obind].
  rewrite (proj2 (get_Ok pairs i (pr i))) by (apply Hpr; lia). cbn [obind].
  destruct (Hpair_ok i ltac:(lia)) as (Ep & Eu & Ela).
  destruct (pr i) as [u la] eqn:Epr.
  destruct (solve _ _) as [xi|] eqn:Es.
  2:{ eexists. split; [reflexivity|]. split; [|discriminate]. intros Hnf _. apply (Hnf _ Es). }
  destruct (distribute_gradient_ok (length ct) (w_gradient s) u la
    (fun k => tmulv (nx p) (sC (D i)) xi k + w i * sfu (D i) k)) as [G HG]; auto.
  rewrite HG. cbn [obind].
  destruct (constraint_part_safe i (mk_sweep (fun k => - tmulv (nx p) (sB (D i)) xi k) G
     (w_index s) (w_active s) (w_rhs_g s) (w_jacobian s)) ltac:(lia)) as (r & Hr & Hs'); auto.
  rewrite Epr in Hr. cbn [fst snd] in Hr. rewrite Hr. eauto.
Qed.

Lemma sweep_loop_safe n : ((0 < ng p)%nat -> (1 <= N)%nat -> nth_error cons 0 = Some (tt 1%nat)) ->
  forall s, (n <= N)%nat -> index_inv n s ->
  exists r, sweep_loop p solve l st ct cons pairs controls states n s = Ok r /\
    ((forall i, (1 <= i <= N)%nat -> no_failure i) -> r <> None).
Proof.
  intro Hfirst.
  induction n as [|n IH]; intros s Hn HI; cbn [sweep_loop].
  { eexists. split; [reflexivity|]. discriminate. }
  assert (Hnz : (ng p = 0 \/ w_index s <> 0)%nat).
  { destruct (Nat.eq_dec (ng p) 0) as [|Hg]; [auto|]. right. intro Z.
    destruct (HI ltac:(lia)) as (_ & _ & _ & Id). assert (Hf := Hfirst ltac:(lia) ltac:(lia)).
    destruct (Id 0%nat (tt 1%nat) ltac:(lia) Hf) as (m & Hm & E). apply tt_inj in E; lia. }
  destruct (sweep_step_safe (S n) s ltac:(lia) HI Hnz) as (r & Hr & Hn' & Hs'). rewrite Hr. cbn [obind].
  destruct r as [s'|].
  - apply IH; [lia|]. specialize (Hs' s' eq_refl). replace (S n - 1)%nat with n in Hs' by lia. auto.
  - eexists. split; [reflexivity|]. intros Hnf _. apply (Hn' (Hnf (S n) ltac:(lia))). reflexivity.
Qed.

(** If the first constraint time is later than the first time step, the sweep ends in the read
    of index -1. *)
Lemma sweep_loop_unsafe n : (0 < ng p)%nat -> (1 <= N)%nat -> nth_error cons 0 <> Some (tt 1%nat) ->
  (forall i, (1 <= i <= N)%nat -> no_failure i) ->
  forall s, (1 <= n <= N)%nat -> index_inv n s ->
  sweep_loop p solve l st ct cons pairs controls states n s = UB.
Proof.
  intros Hg HN Hfirst Hnf.
  induction n as [|n IH]; intros s Hn HI; cbn [sweep_loop]; [lia|].
  destruct (Nat.eq_dec (w_index s) 0) as [Z|Hnz].
  - unfold sweep_step. rewrite (Hupd (S n)) by lia. cbn [obind].
    rewrite (proj2 (get_Ok st (S n) (tt (S n)))) by (apply Htt; lia). cbn [obind].
    rewrite (proj2 (get_Ok _ (S n) (w (S n)))) by (apply Hw; lia). cbn [obind].
    rewrite (proj2 (get_Ok pairs (S n) (pr (S n)))) by (apply Hpr; lia). cbn [obind].
    destruct (Hpair_ok (S n) ltac:(lia)) as (Ep & Eu & Ela).
    destruct (pr (S n)) as [u la] eqn:Epr.
    destruct (solve _ _) as [xi|] eqn:Es; [|exfalso; apply (Hnf (S n) ltac:(lia) _ Es)].
    destruct (distribute_gradient_ok (length ct) (w_gradient s) u la
      (fun k => tmulv (nx p) (sC (D (S n))) xi k + w (S n) * sfu (D (S n)) k)) as [G HG]; auto.
    rewrite HG. cbn [obind]. unfold constraint_part. cbn [w_index]. rewrite Z. cbn [pred_index].
    destruct (ng p =? 0)%nat eqn:Eg; [apply Nat.eqb_eq in Eg; lia|]. reflexivity.
  - destruct (sweep_step_safe (S n) s ltac:(lia) HI (or_intror Hnz)) as (r & Hr & Hn' & Hs'). rewrite Hr. cbn [obind].
    destruct r as [s'|]; [|exfalso; apply (Hn' (Hnf (S n) ltac:(lia))); reflexivity].
    specialize (Hs' s' eq_refl). replace (S n - 1)%nat with n in Hs' by lia.
    destruct n as [|n]; [|apply IH; [lia|auto]].
    (* the first step always has a constraint time of the first step left *)
    exfalso. destruct (HI Hg) as (Ia & Ib & Ic & Id).
    destruct (nth_error cons 0) as [c|] eqn:E0.
    + destruct (Ic 0%nat c ltac:(lia) E0) as (m & Hm & E). apply Hfirst. replace m with 1%nat in E by lia. congruence.
    + apply nth_error_None in E0. lia.
Qed.

End Sweep.
