(** * The values of a network problem at a table of states *)
From Coq Require Import Reals Lra Lia List Arith Bool FunctionalExtensionality.
From Coquelicot Require Import Coquelicot.
From Verif Require Import Base Interp_Model Calc Net_Model Net_Spec Cost_Model Cost_Spec Cost_Proofs Interp_Spec Interp_Proofs Interp_Proofs2
  Jac_Model Jac_Spec Jac_Proofs Jac_Proofs2 Ctimes_Model Adjoint_Model Adjoint_Spec Adjoint_Proofs Adjoint_Proofs3 Adjoint_Proofs4
  Input_Model Whole_Model Whole_Spec Whole_Proofs2 Whole_Proofs3 Answer_Model Answer_Spec.
Import ListNotations.
Local Open Scope R_scope.

(** ** Tables *)
Lemma table_length n rows : length (states_table n rows) = (length rows * n)%nat.
Proof.
  induction rows as [|x rows IH]; [reflexivity|]. unfold states_table in *. cbn [flat_map length]. rewrite app_length, IH.
  unfold row_of_state. rewrite map_length, seq_length. lia.
Qed.
Lemma blocks_nth {A} (f : nat -> list A) n m q r : (q < m)%nat -> (r < n)%nat -> (forall i, (i < m)%nat -> length (f i) = n) ->
  nth_error (flat_map f (seq 0 m)) (q * n + r) = nth_error (f q) r.
Proof.
  enough (H : forall m s q, (q < m)%nat -> (r < n)%nat -> (forall i, (s <= i < s + m)%nat -> length (f i) = n) ->
    nth_error (flat_map f (seq s m)) (q * n + r) = nth_error (f (s + q)%nat) r).
  { intros Q R L. apply (H m 0%nat); [assumption|assumption|]. intros i Hi. apply L. lia. }
  clear m q. induction m as [|m IH]; intros s q Q R L; [lia|]. cbn [seq flat_map]. pose proof (L s ltac:(lia)) as Ls. destruct q as [|q].
  - rewrite Nat.add_0_r. cbn [Nat.mul Nat.add]. rewrite nth_error_app1 by (rewrite Ls; exact R). reflexivity.
  - rewrite nth_error_app2 by (rewrite Ls; lia). rewrite Ls. replace (S q * n + r - n)%nat with (q * n + r)%nat by lia.
    rewrite IH; [f_equal; f_equal; lia|lia|exact R|]. intros i Hi. apply L. lia.
Qed.
Lemma blocks_length {A} (f : nat -> list A) n m : (forall i, (i < m)%nat -> length (f i) = n) -> length (flat_map f (seq 0 m)) = (m * n)%nat.
Proof.
  enough (H : forall s, (forall i, (s <= i < s + m)%nat -> length (f i) = n) -> length (flat_map f (seq s m)) = (m * n)%nat).
  { intro L. apply H. intros i Hi. apply L. lia. }
  induction m as [|m IH]; intros s L; [reflexivity|]. cbn [seq flat_map]. rewrite app_length, L, IH; [lia| |lia]. intros i Hi. apply L. lia.
Qed.
Lemma table_entry n rows i x k : nth_error rows i = Some x -> (k < n)%nat -> entry (states_table n rows) n i k = x k.
Proof.
  intros H K. unfold entry. apply nth_error_nth. revert i H. induction rows as [|y rows IH]; intros i H; [destruct i; discriminate|].
  unfold states_table. cbn [flat_map].
  assert (L : length (row_of_state n y) = n) by (unfold row_of_state; rewrite map_length, seq_length; reflexivity).
  destruct i as [|i].
  - injection H as ->. rewrite nth_error_app1 by (rewrite L; lia). unfold row_of_state. rewrite nth_error_map.
    rewrite (nth_error_nth' _ 0%nat) by (rewrite seq_length; lia). rewrite seq_nth by lia. reflexivity.
  - rewrite nth_error_app2 by (rewrite L; lia). rewrite L. replace (S i * n + k - n)%nat with (i * n + k)%nat by lia. apply IH, H.
Qed.
Lemma table_unique n m (a b : list R) : length a = (m * n)%nat -> length b = (m * n)%nat ->
  (forall i k, (i < m)%nat -> (k < n)%nat -> entry a n i k = entry b n i k) -> a = b.
Proof.
  intros La Lb H. apply (nth_ext _ _ 0 0); [congruence|]. intros p Hp. rewrite La in Hp.
  assert (n <> 0)%nat by nia. rewrite (Nat.div_mod p n) by assumption. rewrite Nat.mul_comm.
  apply (H (p / n)%nat (p mod n)%nat); [apply Nat.div_lt_upper_bound; lia|apply Nat.mod_upper_bound; assumption].
Qed.

Section Values.
Variables (N : network) (sinks : list nat) (st ct cons : list R).
Let n := number_of_states N.
Let m := number_of_controls N.
Let P := network_problem N sinks.
Hypothesis Hst : increasing st.
Hypothesis Hlen : (2 <= length st)%nat.
Hypothesis Hct : increasing ct.
Hypothesis Hcov : forall t, In t st -> exists ul, compute_index_lambda ct t = Ok ul.
Variables (c : list R) (X : list R).
Hypothesis Tc : table_of ct m c.
Hypothesis TX : table_of st n X.

Definition along (i : nat) : vec := vec_of (row_of (mk_ivec ct m c) (nth i st 0)).

Lemma time_at i : (i < length st)%nat -> nth_error st i = Some (nth i st 0).
Proof. intro H. apply nth_error_nth'. exact H. Qed.
Lemma controls_ok i : (i < length st)%nat -> interp_at (mk_ivec ct m c) (nth i st 0) = Ok (row_of (mk_ivec ct m c) (nth i st 0)) /\
  control_at ct m c (nth i st 0) (along i) /\ length (row_of (mk_ivec ct m c) (nth i st 0)) = m.
Proof.
  intro H. destruct (Hcov (nth i st 0)) as [[u la] E]; [apply (nth_error_In _ i), time_at, H|].
  destruct (control_at_time ct m c _ u la Hct Tc E) as [E' _]. split; [exact E'|]. apply (interp_control ct m c); assumption.
Qed.
Lemma states_ok i : (i < length st)%nat -> exists r, interp_at (mk_ivec st n X) (nth i st 0) = Ok r /\ vec_of r = row X n i.
Proof. intro H. apply interp_row; auto. apply time_at, H. Qed.

Lemma along_controls : controls_along N st ct c along.
Proof.
  intros k t Hk. assert (L : (S k < length st)%nat) by (apply nth_error_Some; congruence).
  rewrite (time_at _ L) in Hk. injection Hk as <-. apply controls_ok, L.
Qed.

Lemma loop_value f s : forall i acc, (i + s <= length st)%nat ->
  integral_loop f st (mk_ivec ct m c) (mk_ivec st n X) (seq i s) acc
  = Ok (acc + Rsum s (fun j => quadrature_weight st (i + j) * f (nth (i + j) st 0) (row X n (i + j)) (along (i + j)))).
Proof.
  induction s as [|s IH]; intros i acc H; cbn [seq integral_loop].
  - cbn [Rsum]. f_equal. ring.
  - rewrite (proj2 (get_Ok st i _) (time_at i ltac:(lia))). cbn [obind]. unfold row_at.
    destruct (states_ok i ltac:(lia)) as (r & Er & Vr). rewrite Er. cbn [omap obind].
    rewrite (proj1 (controls_ok i ltac:(lia))). cbn [omap obind].
    rewrite (proj2 (get_Ok _ i _) (weights_list st i ltac:(lia))). cbn [obind]. rewrite IH by lia. f_equal. rewrite Vr.
    change (Rsum (S s) (fun j => quadrature_weight st (i + j) * f (nth (i + j) st 0) (row X n (i + j)) (along (i + j))))
      with (Rsum s (fun j => quadrature_weight st (i + j) * f (nth (i + j) st 0) (row X n (i + j)) (along (i + j)))
            + quadrature_weight st (i + s) * f (nth (i + s) st 0) (row X n (i + s)) (along (i + s))).
    rewrite (Rsum_shift s (fun j => quadrature_weight st (i + j) * f (nth (i + j) st 0) (row X n (i + j)) (along (i + j)))).
    rewrite Nat.add_0_r, <- Rplus_assoc. f_equal. apply Rsum_ext. intros j Hj. replace (i + S j)%nat with (S i + j)%nat by lia. reflexivity.
Qed.
Lemma integral_value f : evaluate_integral f st (mk_ivec ct m c) (mk_ivec st n X)
  = Ok (Rsum (length st - 1) (fun j => quadrature_weight st (S j) * f (nth (S j) st 0) (row X n (S j)) (along (S j)))).
Proof. unfold evaluate_integral. cbn [ipoints]. rewrite loop_value by lia. rewrite Rplus_0_l. reflexivity. Qed.

Lemma cost_answer : evaluate_integral (cost P) st (mk_ivec ct m c) (mk_ivec st n X) = Ok (total_cost N st along).
Proof.
  rewrite integral_value. f_equal. unfold total_cost. rewrite <- quadrature_is_trapezoid by exact Hlen.
  destruct (length st) as [|k] eqn:EL; [lia|]. replace (S k - 1)%nat with k by lia.
  change (Rsum (S k) (fun i => quadrature_weight st i * match i with O => 0 | _ => compression_cost N (along i) end))
    with (Rsum k (fun i => quadrature_weight st i * match i with O => 0 | _ => compression_cost N (along i) end)
          + quadrature_weight st k * match k with O => 0 | _ => compression_cost N (along k) end).
  rewrite (Rsum_shift k (fun i => quadrature_weight st i * match i with O => 0 | _ => compression_cost N (along i) end)).
  rewrite Rmult_0_r, Rplus_0_l. apply Rsum_ext. intros j Hj. cbn beta iota. f_equal.
  cbn [cost P network_problem]. fold m. rewrite cost_value. unfold along. rewrite (cut_vec_of m) by (apply controls_ok; lia).
  unfold constructed_weight. rewrite Rmult_1_l. reflexivity.
Qed.
Lemma penalty_answer : evaluate_integral (penalty P) st (mk_ivec ct m c) (mk_ivec st n X) = Ok 0.
Proof.
  rewrite integral_value. f_equal. apply Rsum_zero. intros i _. cbn [penalty P network_problem]. unfold evaluate_penalty.
  assert (E : forall (c : list (R * nat)) a, fold_left (fun penalty (k : R * nat) => penalty + compressor_penalty) c a = a).
  { intro l. induction l as [|x l IH]; intro a; [reflexivity|]. cbn [fold_left]. rewrite IH. unfold compressor_penalty. ring. }
  rewrite E. ring.
Qed.

(** ** Constraints *)
Lemma constraint_row_exists q i t : nth_error cons q = Some t -> nth_error st i = Some t ->
  exists g, evaluate_constraint_row P cons (mk_ivec ct m c) (mk_ivec st n X) q = Ok g.
Proof.
  intros Hq Hi. assert (L : (i < length st)%nat) by (apply nth_error_Some; congruence).
  pose proof (time_at i L) as Ti. rewrite Hi in Ti. injection Ti as ->.
  unfold evaluate_constraint_row. rewrite (proj2 (get_Ok cons q _) Hq). cbn [obind]. unfold row_at.
  destruct (states_ok i L) as (x & Ex & Vx). rewrite Ex. cbn [omap obind]. rewrite (proj1 (controls_ok i L)). cbn [omap obind].
  eexists. reflexivity.
Qed.
Hypothesis HW : well_formed N.
Hypothesis HS : constrained_nodes N sinks.

Definition variable_at (j position : nat) : Prop :=
  (exists ie e d, nth_error (edges N) ie = Some e /\ carries_gas e = true /\ touches e d j /\ position = end_position N ie d) /\
  (position < n)%nat /\ forall x, sink_constraint (attached_gas N j) x = Ok (x position).
Lemma constraint_row variables q r i j t position : Forall2 variable_at sinks variables ->
  nth_error cons q = Some t -> nth_error st i = Some t -> nth_error sinks r = Some j -> nth_error variables r = Some position ->
  exists g, evaluate_constraint_row P cons (mk_ivec ct m c) (mk_ivec st n X) q = Ok g /\ g r = entry X n i position.
Proof.
  intros V Hq Hi Hr Hp.
  assert (K : variable_at j position).
  { clear -V Hr Hp. revert r Hr Hp. induction V as [|a b l l' A V IH]; intros [|r] Hr Hp; try discriminate.
    - cbn in Hr, Hp. congruence.
    - apply (IH r Hr Hp). }
  destruct K as (_ & K1 & K2).
  assert (L : (i < length st)%nat) by (apply nth_error_Some; congruence). pose proof (time_at i L) as Ti. rewrite Hi in Ti. injection Ti as ->.
  unfold evaluate_constraint_row. rewrite (proj2 (get_Ok cons q _) Hq). cbn [obind]. unfold row_at.
  destruct (states_ok i L) as (x & Ex & Vx). rewrite Ex. cbn [omap obind]. rewrite (proj1 (controls_ok i L)). cbn [omap obind].
  eexists. split; [reflexivity|]. cbn [constr P network_problem]. fold n. unfold constraint_value. rewrite Hr, K2. rewrite Vx, cut_row.
  unfold row. apply Nat.ltb_lt in K1. rewrite K1. reflexivity.
Qed.
End Values.

Lemma variables_exist N sinks : well_formed N -> constrained_nodes N sinks -> exists variables, Forall2 (variable_at N) sinks variables.
Proof.
  intros HW HS. induction sinks as [|j sinks IH]; [exists []; constructor|].
  destruct IH as [l Hl]; [intros k Hk; apply HS; right; exact Hk|].
  destruct (HS j (or_introl eq_refl)) as [HG HE]. destruct (sink_value N HW j HG HE) as (ie & e & d & H1 & H2 & H3 & H4 & H5 & _).
  exists (end_position N ie d :: l). constructor; [|exact Hl]. split; [exists ie, e, d; auto|]. split; assumption.
Qed.
Lemma variables_right N sinks variables : Forall2 (variable_at N) sinks variables -> constrained_variables N sinks variables.
Proof. intro H. induction H as [|j p l l' [A _] _ IH]; constructor; assumption. Qed.

(** ** The sparse matrix *)
Lemma matrix_at_whole bh bw cons ctrl l values row col : nondecreasing cons -> nondecreasing ctrl -> make_data bh bw cons ctrl = Some (Ok l) ->
  matrix_at (supply_indices l) (map values (seq 0 (nonZeros l))) row col = whole_matrix l values row col.
Proof.
  intros Hc Hk Hm. assert (Hne : ctrl <> []) by (intro Z; subst; discriminate).
  destruct (jacobian_pattern bh bw cons ctrl Hc Hk Hne) as (l' & E & L & ND & In' & W1 & W2 & _).
  rewrite Hm in E. injection E as <-. unfold matrix_at. set (places := supply_indices l) in *. rewrite <- L.
  assert (V : forall pos, (pos < length places)%nat -> nth pos (map values (seq 0 (length places))) 0 = values pos).
  { intros pos Hp. apply nth_error_nth. rewrite nth_error_map, (nth_error_nth' _ 0%nat) by (rewrite seq_length; exact Hp).
    rewrite seq_nth by exact Hp. reflexivity. }
  assert (Z : forall k, (k <= length places)%nat -> (forall pos, (pos < k)%nat -> nth_error places pos <> Some (row, col)) ->
    Rsum k (fun pos => match nth_error places pos with
      | Some (r, c) => if (Nat.eqb r row && Nat.eqb c col)%bool then nth pos (map values (seq 0 (length places))) 0 else 0 | None => 0 end) = 0).
  { intros k Hk' H. apply Rsum_zero. intros pos Hp. specialize (H pos Hp). destruct (nth_error places pos) as [[r c]|]; [|reflexivity].
    destruct (Nat.eqb_spec r row) as [->|]; [|reflexivity]. destruct (Nat.eqb_spec c col) as [->|]; [congruence|reflexivity]. }
  destruct (in_dec (fun a b : nat * nat => ltac:(decide equality; apply Nat.eq_dec)) (row, col) places) as [I|I].
  - destruct (In_nth_error _ _ I) as [p Hp]. rewrite (W1 values p row col Hp).
    assert (Lp : (p < length places)%nat) by (apply nth_error_Some; congruence).
    assert (U : forall pos, pos <> p -> nth_error places pos <> Some (row, col)).
    { intros pos D Q. apply D. apply (proj1 (NoDup_nth_error places) ND); [apply nth_error_Some; congruence|congruence]. }
    assert (K : forall k, (k <= length places)%nat -> (p < k)%nat -> Rsum k (fun pos => match nth_error places pos with
      | Some (r, c) => if (Nat.eqb r row && Nat.eqb c col)%bool then nth pos (map values (seq 0 (length places))) 0 else 0 | None => 0 end) = values p).
    { induction k as [|k IH]; intros H1 H2; [lia|]. cbn [Rsum]. destruct (Nat.eq_dec k p) as [->|D].
      - rewrite Z; [|lia|intros pos Q; apply U; lia]. rewrite Hp, !Nat.eqb_refl. cbn [andb]. rewrite V by exact Lp. ring.
      - rewrite IH by lia. pose proof (U k D) as Q. destruct (nth_error places k) as [[r c]|]; [|ring].
        destruct (Nat.eqb_spec r row) as [->|]; [|cbn [andb]; ring]. destruct (Nat.eqb_spec c col) as [->|]; [congruence|cbn [andb]; ring]. }
    apply K; [reflexivity|exact Lp].
  - rewrite W2 by (rewrite <- In'; exact I). apply Z; [reflexivity|]. intros pos _ Q. apply I, (nth_error_In _ pos), Q.
Qed.
