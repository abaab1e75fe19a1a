From Coq Require Import List Arith Reals ZArith Bool Lra Lia.
From Verif Require Import Base Interp_Model Interp_Spec Interp_Proofs Interp_Proofs2 Ctimes_Model Ctimes_Spec Ctimes_Proofs
  Jac_Model Jac_Spec Jac_Proofs Iface_Model Iface_Spec Iface_Proofs Iface_Proofs2 Interp_Props Jac_Props.
Import ListNotations.
Open Scope R_scope.

Lemma constructed nx nu ng st ct cons x0 iv o : optimizer_ctor nx nu ng st ct cons x0 iv = Ok o ->
  fits nx nu ng st ct cons x0 iv /\
  exists pairs l, make_data ng nu cons ct = Some (Ok l) /\
    o = mk_optimizer nx nu ng st ct cons x0 iv pairs (quadrature_weights st) l.
Proof.
  intro H. destruct (ctor_result nx nu ng st ct cons x0 iv) as [(_ & _ & pairs & l & _ & Hl & [[F E]|[_ E]])|[_ E]]; [|congruence..].
  split; auto. exists pairs, l. split; auto. congruence.
Qed.

Lemma to_int_small n : (Z.of_nat n <= index_max)%Z -> to_int n = Z.of_nat n.
Proof.
  unfold to_int, index_max. intro H. rewrite Z.mod_small by lia. destruct (Z.leb_spec (Z.of_nat n) 2147483647); lia.
Qed.

Lemma structural_range bh bw cons ct row col : structural_entry bh bw cons ct row col ->
  (row < length cons * bh)%nat /\ (col < length ct * bw)%nat.
Proof. intros (i & r & j & c & -> & Hr & -> & Hc & Hi & Hj & _). split; nia. Qed.

Lemma sizes nx nu ng st ct cons x0 iv o : optimizer_ctor nx nu ng st ct cons x0 iv = Ok o ->
  exists L, NoDup L /\ (forall row col, In (row, col) L <-> structural_entry ng nu cons ct row col) /\
    (forall row col, In (row, col) L -> (row < length cons * ng)%nat /\ (col < length ct * nu)%nat) /\
    ((Z.of_nat (length ct * nu) <= 2147483647 /\ Z.of_nat (length cons * ng) <= 2147483647 /\ Z.of_nat (length L) <= 2147483647)%Z ->
      get_nlp_info o = Some ((length ct * nu)%nat, (length cons * ng)%nat, length L) /\
      jacobian_structure o (length L) = Ok (map (fun '(row, col) => (Z.of_nat row, Z.of_nat col)) L)) /\
    (~ (Z.of_nat (length ct * nu) <= 2147483647 /\ Z.of_nat (length cons * ng) <= 2147483647 /\ Z.of_nat (length L) <= 2147483647)%Z ->
      get_nlp_info o = None).
Proof.
  intro H. destruct (constructed _ _ _ _ _ _ _ _ _ H) as ((_ & _ & _ & _ & S2 & S3 & C & _) & pairs & l & Hl & ->).
  destruct C as (Hc & _). destruct (C07_index_lists ng nu cons ct S3 S2 Hc) as (l' & Hl' & H1 & H2 & H3 & _).
  assert (l' = l) by congruence. subst l'. exists (supply_indices l). split; auto. split; auto.
  assert (Q : forall row col, In (row, col) (supply_indices l) -> (row < length cons * ng)%nat /\ (col < length ct * nu)%nat).
  { intros row col Hi. apply H3 in Hi. eapply structural_range, Hi. }
  split; auto. rewrite H1. unfold get_nlp_info, get_total_no_controls, get_total_no_constraints, get_no_nnz_in_jacobian, jacobian_structure.
  cbn [o_nu o_ng control_timepoints constraint_timepoints constraint_jacobian].
  rewrite (Nat.mul_comm nu), (Nat.mul_comm ng). rewrite Nat.eqb_refl. cbn [negb]. unfold index_max.
  split.
  - intros (A & B & D). rewrite (proj2 (Z.ltb_ge _ _) A), (proj2 (Z.ltb_ge _ _) B), (proj2 (Z.ltb_ge _ _) D). split; auto.
    f_equal. apply map_ext_in. intros [r c] Hi. destruct (Q r c Hi). f_equal; apply to_int_small; unfold index_max; lia.
  - intro N. destruct (Z.ltb_spec 2147483647 (Z.of_nat (length ct * nu))); auto.
    destruct (Z.ltb_spec 2147483647 (Z.of_nat (length cons * ng))); auto.
    destruct (Z.ltb_spec 2147483647 (Z.of_nat (nonZeros l))); auto. exfalso. apply N. auto.
Qed.

Lemma getter_same uninit pts inner v : increasing pts -> pts <> [] -> iinner v = inner -> ipoints v = pts ->
  table_of (ipoints v) (iinner v) (ivalues v) ->
  omap ivalues (construct_and_interpolate_from uninit pts inner v) = Ok (ivalues v).
Proof.
  intros Hi Hn H1 H2 T. unfold construct_and_interpolate_from.
  rewrite (is_sorted_increasing pts Hi). cbn [negb].
  rewrite (C06_resampling_same_grid (mk_ivec pts inner (map uninit (seq 0 (inner * length pts)))) v); auto; try congruence.
  - cbn. unfold table_of. rewrite map_length, seq_length. lia.
Qed.
Lemma getter_sampled uninit pts inner v : increasing pts -> increasing (ipoints v) -> iinner v = inner ->
  inside_span (ipoints v) pts -> table_of (ipoints v) (iinner v) (ivalues v) ->
  exists r, omap ivalues (construct_and_interpolate_from uninit pts inner v) = Ok r /\ table_of pts inner r /\
    forall j k t, nth_error pts j = Some t -> (k < inner)%nat ->
      piecewise_linear tolerance (ipoints v) (fun i => entry (ivalues v) inner i k) t (entry r inner j k).
Proof.
  intros Hi Hv H1 Hs T. unfold construct_and_interpolate_from.
  rewrite (is_sorted_increasing pts Hi). cbn [negb].
  destruct (C06_resampling (mk_ivec pts inner (map uninit (seq 0 (inner * length pts)))) v) as (v' & E & E1 & E2 & E3 & E4); auto.
  - cbn. unfold table_of. rewrite map_length, seq_length. lia.
  - rewrite E. exists (ivalues v'). split; [reflexivity|]. cbn in E1, E2, E4. rewrite E1, E2 in E3. split; auto.
    intros j k t Hj Hk. rewrite H1 in E4. apply (E4 j k t Hj Hk).
Qed.
Lemma empty_getter uninit inner v : omap ivalues (construct_and_interpolate_from uninit [] inner v) = UB.
Proof.
  unfold construct_and_interpolate_from, interpolate_from. cbn [is_sorted negb ipoints iinner].
  destruct (negb _); [reflexivity|]. unfold get. destruct (nth_error (ipoints v) 0); reflexivity.
Qed.
Lemma assign_same n v : length v = n -> assign_map n v = Ok v.
Proof. intros <-. unfold assign_map. rewrite Nat.eqb_refl. reflexivity. Qed.

Lemma bounds_same uninit nx nu ng st ct cons x0 iv o : optimizer_ctor nx nu ng st ct cons x0 iv = Ok o ->
  increasing ct -> increasing cons -> cons <> [] ->
  ipoints (initial_controls iv) = ct -> ipoints (constraint_lower_bounds iv) = cons ->
  (forall v, In v [initial_controls iv; lower_bounds iv; upper_bounds iv; constraint_lower_bounds iv; constraint_upper_bounds iv] ->
     table_of (ipoints v) (iinner v) (ivalues v)) ->
  get_bounds_info uninit o (length ct * nu) (length cons * ng)
    = Ok (ivalues (lower_bounds iv), ivalues (upper_bounds iv), ivalues (constraint_lower_bounds iv), ivalues (constraint_upper_bounds iv)) /\
  get_starting_point uninit o (length ct * nu) = Ok (ivalues (initial_controls iv)).
Proof.
  intros H Ic Ik Hk P1 P2 T. destruct (constructed _ _ _ _ _ _ _ _ _ H) as (F & pairs & l & Hl & ->).
  destruct F as (_ & [p G] & [q G'] & _ & _ & _ & (Hc & _) & _).
  destruct (G (initial_controls iv)) as [A1 A2]; cbn; auto. destruct (G (lower_bounds iv)) as [A3 A4]; cbn; auto.
  destruct (G (upper_bounds iv)) as [A5 A6]; cbn; auto. destruct (G' (constraint_lower_bounds iv)) as [B1 B2]; cbn; auto.
  destruct (G' (constraint_upper_bounds iv)) as [B3 B4]; cbn; auto.
  assert (p = ct) by congruence. subst p. assert (q = cons) by congruence. subst q.
  assert (Tl : forall v, In v [initial_controls iv; lower_bounds iv; upper_bounds iv] -> length (ivalues v) = (length ct * nu)%nat).
  { intros v Hv. destruct (G v Hv) as [X Y]. rewrite (T v) by (cbn in Hv |- *; tauto). rewrite X, Y. congruence. }
  assert (Tk : forall v, In v [constraint_lower_bounds iv; constraint_upper_bounds iv] -> length (ivalues v) = (length cons * ng)%nat).
  { intros v Hv. destruct (G' v Hv) as [X Y]. rewrite (T v) by (cbn in Hv |- *; tauto). rewrite X, Y. congruence. }
  unfold get_bounds_info, get_starting_point, get_total_no_constraints, get_lower_bounds, get_upper_bounds, get_constraint_lower_bounds,
    get_constraint_upper_bounds, get_initial_controls.
  cbn [o_nu o_ng control_timepoints constraint_timepoints init].
  rewrite (Nat.mul_comm ng), Nat.eqb_refl. cbn [negb].
  rewrite !getter_same by (auto; try congruence; apply T; cbn; tauto). cbn [obind].
  rewrite !(assign_same (length ct * nu)) by (apply Tl; cbn; tauto). cbn [obind].
  rewrite !(assign_same (length cons * ng)) by (apply Tk; cbn; tauto). split; reflexivity.
Qed.
