(** * The computed derivatives of a network problem *)
From Coq Require Import Reals Lra Lia List Arith Bool FunctionalExtensionality Classical.
From Coquelicot Require Import Coquelicot.
From Verif Require Import Base Interp_Model Calc Net_Model Net_Spec Cost_Model Cost_Spec Cost_Proofs Interp_Spec Interp_Proofs Interp_Proofs2
  Jac_Model Ctimes_Model Adjoint_Model Adjoint_Spec Adjoint_Proofs Adjoint_Proofs3 Adjoint_Proofs4 Whole_Model Whole_Spec Whole_Proofs2.
Import ListNotations.
Local Open Scope R_scope.

(** ** Rows and interpolated controls *)
Lemma interp_Ok_covered v t r : increasing (ipoints v) -> ipoints v <> [] ->
  length (ivalues v) = (length (ipoints v) * iinner v)%nat -> interp_at v t = Ok r -> covered EPSILON (ipoints v) t.
Proof.
  intros H1 H2 H3 E. apply NNPP. intro K. rewrite (interp_out v H1 H2 H3 t K) in E. discriminate.
Qed.
Lemma vec_of_out r k : (length r <= k)%nat -> vec_of r k = 0.
Proof. intro H. unfold vec_of. apply nth_overflow. exact H. Qed.
Lemma interp_row st m table i t : increasing st -> table_of st m table -> nth_error st i = Some t ->
  exists r, interp_at (mk_ivec st m table) t = Ok r /\ vec_of r = row table m i.
Proof.
  intros H1 H2 H3. destruct (interp_grid st m table i t H1 H2 H3) as [E V].
  eexists. split; [exact E|].
  assert (NE : st <> []) by (intro K; rewrite K in H3; destruct i; discriminate).
  pose proof (interp_Ok_covered (mk_ivec st m table) t _ H1 NE H2 E) as C.
  destruct (interp_in (mk_ivec st m table) H1 NE H2 t C) as [r' [E' [L _]]]. rewrite E in E'. injection E' as E'. cbn [iinner] in L.
  rewrite <- E' in L. apply functional_extensionality. intro k. unfold row. destruct (Nat.ltb_spec k m) as [K|K].
  - apply V. exact K.
  - apply vec_of_out. lia.
Qed.
Lemma interp_control ct m table t r : increasing ct -> table_of ct m table -> interp_at (mk_ivec ct m table) t = Ok r ->
  control_at ct m table t (vec_of r) /\ length r = m.
Proof.
  intros H1 H2 E.
  assert (NE : ct <> []). { intro K. subst ct. cbn in E. discriminate. }
  pose proof (interp_Ok_covered (mk_ivec ct m table) t _ H1 NE H2 E) as C.
  destruct (interp_in (mk_ivec ct m table) H1 NE H2 t C) as [r' [E' [L P]]]. rewrite E in E'. injection E' as <-. cbn [iinner ipoints ivalues] in *.
  split; [|exact L]. split; [exact P|]. intros k K. apply vec_of_out. lia.
Qed.
Lemma cut_row table m i : cut m (row table m i) = row table m i.
Proof. apply functional_extensionality. intro k. unfold cut, row. destruct (Nat.ltb k m); reflexivity. Qed.
Lemma cut_vec_of m r : length r = m -> cut m (vec_of r) = vec_of r.
Proof.
  intro H. apply functional_extensionality. intro k. unfold cut. destruct (Nat.ltb_spec k m); [reflexivity|].
  symmetry. apply vec_of_out. lia.
Qed.
Lemma control_unique ct m table t u u' : increasing ct ->
  control_at ct m table t u -> control_at ct m table t u' -> u = u'.
Proof.
  intros H [P Z] [P' Z']. apply functional_extensionality. intro k. destruct (Nat.ltb_spec k m) as [K|K].
  - apply (piecewise_linear_unique tolerance ct (fun j => entry table m j k) t); auto. apply Rlt_le, EPSILON_pos.
  - rewrite Z, Z' by exact K. reflexivity.
Qed.

Section Whole.
Variables (N : network) (sinks : list nat) (st ct : list R) (W : R -> list R) (W' : nat -> nat -> R) (X : R -> list R).
Let n := number_of_states N.
Let m := number_of_controls N.
Let P := network_problem N sinks.
Hypothesis Hst : increasing st.
Hypothesis Hct : increasing ct.
Hypothesis HT : regular_trajectory N st (X 0).
Hypothesis HS : constrained_nodes N sinks.
Hypothesis HF : network_family N st ct W W' X.

Lemma whole_right : right_derivatives P st (mk_ivec ct (nu P) (W 0)) (mk_ivec st (nx P) (X 0)).
Proof.
  destruct HT as [HW [HP HR]].
  intros i t0 t1 xl xn u H0 H1 E0 E1 E2. cbn [nx nu ng P network_problem] in *. fold n m in E0, E1, E2 |- *.
  destruct (interp_row st n (X 0) (S i) t1 Hst (nf_X_table _ _ _ _ _ _ HF 0) H1) as [r [Er Vr]].
  rewrite E1 in Er. injection Er as <-. destruct (HR i t1 H1) as [HB HG].
  split; [|split; [|split]].
  - apply (network_residual N sinks HW HP); [exact HB|]. rewrite Vr. fold n. rewrite cut_row. exact HG.
  - apply (network_cost N sinks).
  - apply (network_penalty N sinks).
  - intros r Hr. apply (network_constraint N sinks HW HS). exact Hr.
Qed.

Lemma whole_family : smooth_family P st ct W W' X.
Proof.
  destruct HT as [HW [HP HR]]. constructor; cbn [nx nu P network_problem]; fold n m.
  - apply (nf_W_table _ _ _ _ _ _ HF).
  - apply (nf_X_table _ _ _ _ _ _ HF).
  - apply (nf_W_derive _ _ _ _ _ _ HF).
  - apply (nf_X_derive _ _ _ _ _ _ HF).
  - apply (nf_start _ _ _ _ _ _ HF).
  - generalize (nf_solves _ _ _ _ _ _ HF). apply filter_imp. intros s H i t0 t1 xl xn u H0 H1 E0 E1 E2 e He.
    destruct (interp_row st n (X s) i t0 Hst (nf_X_table _ _ _ _ _ _ HF s) H0) as [r [Er Vr]].
    rewrite E0 in Er. injection Er as <-.
    destruct (interp_row st n (X s) (S i) t1 Hst (nf_X_table _ _ _ _ _ _ HF s) H1) as [r' [Er' Vr']].
    rewrite E1 in Er'. injection Er' as <-.
    destruct (interp_control ct m (W s) t1 u Hct (nf_W_table _ _ _ _ _ _ HF s) E2) as [C L].
    destruct (HR i t1 H1) as [HB _].
    apply (proj2 (residual_zero N sinks HW HP t0 t1 (vec_of xl) (vec_of xn) (vec_of u) HB)); [|exact He].
    rewrite Vr, Vr', !cut_row. rewrite cut_vec_of by exact L. apply H; auto.
Qed.

Variables (solve : solver_type) (l : layout) (cons : list R) (G : nat -> Adjoint_Model.vec) (J : nat -> R).
Hypothesis Hlen : (2 <= length st)%nat.
Hypothesis Hmake : make_data (length sinks) m cons ct = Some (Ok l).
Hypothesis Hctor : ctor_time_checks st ct cons = Ok tt.
Hypothesis Hsolver : solver_correct n solve.
Hypothesis Hcomputed : compute_derivatives P solve l st ct cons (mk_ivec ct m (W 0)) (mk_ivec st n (X 0)) = Ok (Some (G, J)).

Lemma nth_time i : (i < length st)%nat -> nth_error st i = Some (nth i st 0).
Proof. intro H. apply nth_error_nth'. exact H. Qed.

Lemma whole_objective :
  exists U, (forall s i t, nth_error st i = Some t -> control_at ct m (W s) t (U s i)) /\
    (forall s, evaluate_objective P st (mk_ivec ct m (W s)) (mk_ivec st n (X s)) = Ok (total_cost N st (U s))) /\
    is_derive (fun s => total_cost N st (U s)) 0 (Rsum (length ct) (fun j => Rsum m (fun k => G j k * W' j k))).
Proof.
  destruct (compute_derivatives_pairs _ _ _ _ _ _ _ _ _ Hcomputed) as [pairs Hpairs].
  set (U := fun s i => vec_of (row_of (mk_ivec ct m (W s)) (nth i st 0))). exists U.
  assert (HU : forall s i, (i < length st)%nat ->
     control_at ct m (W s) (nth i st 0) (U s i) /\ length (row_of (mk_ivec ct m (W s)) (nth i st 0)) = m).
  { intros s i Hi. destruct (ur_ok P st ct W W' X Hlen Hct whole_family pairs Hpairs s i ltac:(lia)) as [E _].
    apply interp_control; auto. apply (nf_W_table _ _ _ _ _ _ HF). }
  split; [|].
  { intros s i t Hi. assert (L : (i < length st)%nat) by (apply nth_error_Some; congruence).
    rewrite (nth_time i L) in Hi. injection Hi as <-. apply HU. exact L. }
  assert (V : forall s, evaluate_objective P st (mk_ivec ct m (W s)) (mk_ivec st n (X s)) = Ok (total_cost N st (U s))).
  { intro s. change m with (nu P). change n with (nx P).
    rewrite (objective_ok P st ct W W' X Hst Hlen Hct whole_family pairs Hpairs s). f_equal.
    unfold total_cost. rewrite <- quadrature_is_trapezoid by exact Hlen.
    rewrite (Rsum_zero (length st - 1) (fun j => _ * penalty P _ _ _)).
    2:{ intros i _. cbn [penalty P network_problem]. unfold evaluate_penalty.
        assert (E : forall (c : list (R * nat)) a, fold_left (fun penalty (k : R * nat) => penalty + compressor_penalty) c a = a).
        { intro c. induction c as [|x c IH]; intro a; [reflexivity|]. cbn [fold_left]. rewrite IH. unfold compressor_penalty. ring. }
        rewrite E. ring. }
    destruct (length st) as [|k] eqn:EL; [lia|]. replace (S k - 1)%nat with k by lia.
    change (Rsum (S k) (fun i => quadrature_weight st i * match i with O => 0 | _ => compression_cost N (U s i) end))
      with (Rsum k (fun i => quadrature_weight st i * match i with O => 0 | _ => compression_cost N (U s i) end)
            + quadrature_weight st k * match k with O => 0 | _ => compression_cost N (U s k) end).
    rewrite (Rsum_shift k (fun i => quadrature_weight st i * match i with O => 0 | _ => compression_cost N (U s i) end)).
    rewrite Rplus_0_r, Rmult_0_r, Rplus_0_l.
    apply Rsum_ext. intros j Hj. cbn beta iota.
    assert (Lj : (S j < length st)%nat) by lia.
    rewrite (nth_error_nth _ _ 0 (weights_list st (S j) Lj)).
    cbn [cost P network_problem nu]. rewrite cost_value. fold m.
    rewrite (cut_vec_of m) by (apply (HU s (S j)); lia). unfold constructed_weight. rewrite Rmult_1_l. reflexivity. }
  split; [exact V|].
  destruct (objective_gradient_right P solve l st ct cons W W' X G J Hst Hlen Hct Hmake Hctor Hsolver whole_family whole_right Hcomputed)
    as [f [E D]].
  apply (is_derive_ext f); [|exact D]. intro s. specialize (E s). change (nu P) with m in E. change (nx P) with n in E.
  rewrite V in E. injection E as E. symmetry. exact E.
Qed.

Lemma whole_constraint q r i j t : nth_error cons q = Some t -> nth_error st i = Some t -> nth_error sinks r = Some j ->
  exists ie e d, nth_error (edges N) ie = Some e /\ carries_gas e = true /\ touches e d j /\
    (forall s, exists g, evaluate_constraint_row P cons (mk_ivec ct m (W s)) (mk_ivec st n (X s)) q = Ok g /\
       g r = entry (X s) n i (end_position N ie d)) /\
    is_derive (fun s => entry (X s) n i (end_position N ie d)) 0
      (Rsum (length ct) (fun j => Rsum m (fun k => whole_matrix l J (q * length sinks + r) (j * m + k) * W' j k))).
Proof.
  intros Hq Hi Hr. destruct HT as [HW [HP HR]].
  destruct (HS j (nth_error_In _ _ Hr)) as [HG HE].
  destruct (sink_value N HW j HG HE) as [ie [e [d [H1 [H2 [H3 [H4 [H5 _]]]]]]]].
  exists ie, e, d. split; [exact H1|]. split; [exact H2|]. split; [exact H3|].
  assert (Lq : (q < length cons)%nat) by (apply nth_error_Some; congruence).
  assert (Lr : (r < ng P)%nat) by (cbn [ng P network_problem]; apply nth_error_Some; congruence).
  destruct (constraint_jacobian_right P solve l st ct cons W W' X G J Hst Hlen Hct Hmake Hctor Hsolver whole_family whole_right Hcomputed q r Lq Lr)
    as [g [E D]].
  assert (V : forall s, g s r = entry (X s) n i (end_position N ie d)).
  { intro s. specialize (E s). unfold evaluate_constraint_row in E. rewrite (proj2 (get_Ok cons q t) Hq) in E. cbn [obind] in E.
    unfold row_at in E. cbn [nu nx P network_problem] in E. fold n m in E.
    destruct (interp_row st n (X s) i t Hst (nf_X_table _ _ _ _ _ _ HF s) Hi) as [xr [Ex Vx]].
    rewrite Ex in E. cbn [omap obind] in E.
    destruct (interp_at (mk_ivec ct m (W s)) t) as [u| |]; cbn [omap obind] in E; try discriminate.
    injection E as E. apply (f_equal (fun h => h r)) in E. cbn [constr P network_problem] in E. fold n in E.
    rewrite <- E. unfold constraint_value. rewrite Hr, H5. rewrite Vx, cut_row. unfold row.
    apply Nat.ltb_lt in H4. fold n in H4. rewrite H4. reflexivity. }
  split.
  - intro s. exists (g s). split; [|apply V]. exact (E s).
  - apply (is_derive_ext (fun s => g s r)); [|exact D]. exact V.
Qed.
End Whole.
