From Coq Require Import List Arith Reals Lra Lia Bool.
From Verif Require Import Base Interp_Model Interp_Spec Interp_Proofs Interp_Proofs2
  Jac_Model Jac_Spec Jac_Proofs Jac_Proofs2 Adjoint_Model.
Import ListNotations.
Open Scope R_scope.

(** ** Sums *)
Lemma Rsum_zero n f : (forall i, (i < n)%nat -> f i = 0) -> Rsum n f = 0.
Proof. induction n as [|n IH]; intro H; simpl; [reflexivity|]. rewrite IH, H; auto; lra. Qed.

Lemma Rsum_swap n m (f : nat -> nat -> R) :
  Rsum n (fun i => Rsum m (fun j => f i j)) = Rsum m (fun j => Rsum n (fun i => f i j)).
Proof.
  induction n as [|n IH]; simpl.
  - symmetry. apply Rsum_zero. reflexivity.
  - rewrite IH, <- Rsum_plus. reflexivity.
Qed.

Lemma Rsum_single n f j c : (j < n)%nat -> (forall i, (i < n)%nat -> f i = if (i =? j)%nat then c else 0) ->
  Rsum n f = c.
Proof.
  induction n as [|n IH]; intros Hj H; [lia|]. simpl.
  destruct (Nat.eq_dec j n) as [->|N].
  - rewrite Rsum_zero.
    + rewrite H by lia. rewrite Nat.eqb_refl. lra.
    + intros i Hi. rewrite H by lia. rewrite (proj2 (Nat.eqb_neq i n)) by lia. reflexivity.
  - rewrite IH by (try lia; intros; apply H; lia). rewrite H by lia.
    rewrite (proj2 (Nat.eqb_neq n j)) by lia. lra.
Qed.

Lemma dot_ext n a a' b b' : (forall k, (k < n)%nat -> a k = a' k) -> (forall k, (k < n)%nat -> b k = b' k) ->
  dot n a b = dot n a' b'.
Proof. intros H1 H2. apply Rsum_ext. intros k Hk. rewrite H1, H2 by auto. reflexivity. Qed.
Lemma dot_plus n a b c : dot n (fun k => a k + b k) c = dot n a c + dot n b c.
Proof. unfold dot. rewrite <- Rsum_plus. apply Rsum_ext. intros; ring. Qed.
Lemma dot_scal n x a c : dot n (fun k => x * a k) c = x * dot n a c.
Proof. unfold dot. rewrite <- Rsum_scal. apply Rsum_ext. intros; ring. Qed.
Lemma dot_plus_r n a b c : dot n a (fun k => b k + c k) = dot n a b + dot n a c.
Proof. unfold dot. rewrite <- Rsum_plus. apply Rsum_ext. intros; ring. Qed.
Lemma dot_scal_r n x a c : dot n a (fun k => x * c k) = x * dot n a c.
Proof. unfold dot. rewrite <- Rsum_scal. apply Rsum_ext. intros; ring. Qed.
Lemma dot_opp n a c : dot n (fun k => - a k) c = - dot n a c.
Proof. replace (- dot n a c) with (-1 * dot n a c) by ring. rewrite <- dot_scal. apply dot_ext; intros; ring. Qed.

Lemma tmulv_dot n m (M : mat) (xi v : vec) :
  dot m (tmulv n M xi) v = Rsum n (fun e => xi e * dot m (M e) v).
Proof.
  unfold dot, tmulv.
  rewrite (Rsum_ext m _ (fun k => Rsum n (fun e => xi e * (M e k * v k)))).
  2:{ intros k Hk. rewrite Rmult_comm, <- Rsum_scal. apply Rsum_ext. intros; ring. }
  rewrite Rsum_swap. apply Rsum_ext. intros e He. rewrite Rsum_scal. reflexivity.
Qed.

(** The algebraic core of the adjoint method for one time step. *)
Lemma adjoint_identity n m (A B C' : mat) (xi r zl zn v : vec) :
  (forall k, (k < n)%nat -> tmulv n A xi k = r k) ->
  (forall e, (e < n)%nat -> dot n (B e) zl + dot n (A e) zn + dot m (C' e) v = 0) ->
  dot m (tmulv n C' xi) v = - dot n r zn + dot n (fun k => - tmulv n B xi k) zl.
Proof.
  intros HA Hlin.
  rewrite (dot_ext n r (tmulv n A xi) zn zn) by (intros; auto; symmetry; auto).
  rewrite dot_opp, !tmulv_dot.
  assert (E : Rsum n (fun e => xi e * dot m (C' e) v) + Rsum n (fun e => xi e * dot n (A e) zn)
              + Rsum n (fun e => xi e * dot n (B e) zl) = 0).
  { rewrite <- !Rsum_plus. apply Rsum_zero. intros e He. specialize (Hlin e He).
    replace (xi e * dot m (C' e) v + xi e * dot n (A e) zn + xi e * dot n (B e) zl)
      with (xi e * (dot n (B e) zl + dot n (A e) zn + dot m (C' e) v)) by ring.
    rewrite Hlin. ring. }
  lra.
Qed.

(** ** Gradient rows *)
Definition gradient_along (P m : nat) (G : nat -> vec) (W' : nat -> vec) : R :=
  Rsum P (fun j => dot m (G j) (W' j)).

Lemma add_row_along P m G row f v G' W' : add_row P G row f v = Ok G' ->
  exists j, row = Some j /\ (j < P)%nat /\
    gradient_along P m G' W' = gradient_along P m G W' + f * dot m v (W' j).
Proof.
  unfold add_row. destruct row as [j|]; [|discriminate].
  destruct (j <? P)%nat eqn:E; [apply Nat.ltb_lt in E|discriminate]. intro H. injection H as <-.
  exists j. split; [reflexivity|]. split; [auto|]. unfold gradient_along.
  rewrite (Rsum_ext P _ (fun j' => dot m (G j') (W' j') + (if (j' =? j)%nat then f * dot m v (W' j) else 0))).
  - rewrite Rsum_plus. f_equal. apply (Rsum_single P _ j); auto.
  - intros i Hi. destruct (i =? j)%nat eqn:Ei.
    + apply Nat.eqb_eq in Ei. subst i. rewrite dot_plus, dot_scal. reflexivity.
    + rewrite Rplus_0_r. reflexivity.
Qed.

Lemma distribute_gradient_along P m G u la v G' W' : distribute_gradient P G u la v = Ok G' ->
  gradient_along P m G' W'
  = gradient_along P m G W' + dot m v (fun k => weighted u la (fun j => W' j k)).
Proof.
  unfold distribute_gradient, weighted, Reqb. destruct (Req_EM_T la 1) as [E|E]; intro H.
  - destruct (add_row_along P m G _ _ v G' W' H) as (j & Ej & _ & ->). injection Ej as <-.
    rewrite Rmult_1_l. reflexivity.
  - apply obind_Ok in H. destruct H as (G1 & H1 & H2).
    destruct (add_row_along P m G _ _ v G1 W' H1) as (j & Ej & _ & E1). injection Ej as <-.
    destruct (add_row_along P m G1 _ _ v G' W' H2) as (j2 & Ej2 & _ & E2).
    unfold pred_index in Ej2. destruct u as [|u']; [discriminate|]. injection Ej2 as <-.
    rewrite E2, E1. replace (S u' - 1)%nat with u' by lia.
    rewrite dot_plus_r, !dot_scal_r. ring.
Qed.

Lemma distribute_gradient_ok P G u la v : (u < P)%nat -> (la <> 1 -> (1 <= u)%nat) ->
  exists G', distribute_gradient P G u la v = Ok G'.
Proof.
  intros Hu Hla. unfold distribute_gradient, Reqb. destruct (Req_EM_T la 1) as [E|E].
  - unfold add_row. rewrite (proj2 (Nat.ltb_lt u P)) by auto. eauto.
  - specialize (Hla E). destruct u as [|u]; [lia|]. unfold add_row, pred_index.
    rewrite (proj2 (Nat.ltb_lt (S u) P)) by auto. cbn [obind].
    rewrite (proj2 (Nat.ltb_lt u P)) by lia. eauto.
Qed.

(** ** The stored Jacobian *)
Section Stored.
Variables (cons ctrl : list R) (bh bw : nat) (l : layout).
Hypothesis Hcons : nondecreasing cons.
Hypothesis Hctrl : nondecreasing ctrl.
Hypothesis Hmake : make_data bh bw cons ctrl = Some (Ok l).

Lemma layout_facts : ctrl <> [] /\ block_height l = bh /\ block_width l = bw /\
    length (block_column_offsets l) = S (length ctrl) /\
    offset l 0 = 0%nat /\
    (forall j, (j < length ctrl)%nat -> offset l (S j) = (offset l j + col_height cons ctrl j)%nat) /\
    outer_width l = length ctrl /\
    (forall j, (j < length ctrl)%nat -> inner_col_height l j = (col_height cons ctrl j * bh)%nat) /\
    (forall j, (j < length ctrl)%nat -> inner_rowstart l j = ((length cons - col_height cons ctrl j) * bh)%nat).
Proof.
  assert (Hne : ctrl <> []) by (intro Z; subst; discriminate).
  destruct (make_data_ok bh bw cons ctrl Hcons Hctrl Hne) as (l' & E & Hbh & Hbw & Hlen & Ho0 & Ho).
  assert (l' = l) by congruence. subst l'.
  repeat split; auto.
  - unfold outer_width. lia.
  - intros. eapply l_inner_col_height; eauto.
  - intros. eapply l_rowstart; eauto.
Qed.

Lemma whole_matrix_at values c j k : (c < length cons * bh)%nat -> (j < length ctrl)%nat -> (k < bw)%nat ->
  whole_matrix l values c (j * bw + k)
  = if (inner_rowstart l j <=? c)%nat
    then values (column_block_position l j (c - inner_rowstart l j) k) else 0.
Proof.
  intros Hc Hj Hk. destruct layout_facts as (Hne & Hbh & Hbw & Hlen & Ho0 & Ho & Hw & Hh & Hr).
  pose proof (col_height_le cons ctrl j) as Hle.
  destruct (inner_rowstart l j <=? c)%nat eqn:E; [apply Nat.leb_le in E|apply Nat.leb_gt in E].
  - eapply whole_matrix_entry; eauto.
    destruct (column_block_entry bh bw cons ctrl l Hcons Hctrl Hmake j (c - inner_rowstart l j) k Hj) as [P _]; auto.
    + rewrite Hh by auto. rewrite Hr in * by auto. nia.
    + rewrite P. do 2 f_equal. lia.
  - eapply whole_matrix_zero; eauto. intro I. apply In_nth_error in I. destruct I as [pos Hp].
    assert (Hpos : (pos < nonZeros l)%nat).
    { destruct (supply_spec cons ctrl bh bw l Hne Hbh Hbw Hlen Ho0 Ho) as [L _]. rewrite <- L.
      eapply nth_error_lt_inv; eauto. }
    destruct (position_decompose cons ctrl bh bw l Hbh Hbw Hlen Ho0 Ho pos Hpos) as (j' & r' & c' & J & R' & C & ->).
    destruct (supply_spec cons ctrl bh bw l Hne Hbh Hbw Hlen Ho0 Ho) as [_ N].
    rewrite (N j' r' c' J R' C) in Hp. injection Hp as E1 E2.
    assert (j' = j /\ c' = k) as [-> ->] by (eapply rc_unique; eauto). lia.
Qed.

Definition jacobian_along (values : nat -> R) (W' : nat -> vec) (c : nat) : R :=
  Rsum (length ctrl) (fun j => Rsum bw (fun k => whole_matrix l values c (j * bw + k) * W' j k)).

Lemma block_end j : (j < length ctrl)%nat -> forall r k, (r < inner_col_height l j)%nat -> (k < bw)%nat ->
  (inner_column_offset l j <= column_block_position l j r k < inner_column_offset l (S j))%nat.
Proof.
  intros Hj r k Hr Hk. destruct layout_facts as (Hne & Hbh & Hbw & Hlen & Ho0 & Ho & Hw & Hh & Hrr).
  unfold column_block_position, inner_column_offset, block_size. rewrite Hbh, Hbw, Ho by auto.
  rewrite Hh in Hr by auto. split; [lia|]. nia.
Qed.

Lemma block_order j j' : (j <= j' <= length ctrl)%nat -> (inner_column_offset l j <= inner_column_offset l j')%nat.
Proof.
  intro H. destruct layout_facts as (Hne & Hbh & Hbw & Hlen & Ho0 & Ho & Hw & Hh & Hrr).
  unfold inner_column_offset. apply Nat.mul_le_mono_r.
  destruct H as [H1 H2]. induction H1; [lia|]. rewrite (Ho m) by lia.
  assert (offset l j <= offset l m)%nat by (apply IHle; lia). lia.
Qed.

Lemma add_lower_rows_entry values column q factor M values' first :
  (first <= length cons)%nat -> q = ((length cons - first) * bh)%nat ->
  add_lower_rows l values column q factor M = Ok values' ->
  exists j0, column = Some j0 /\ (j0 < length ctrl)%nat /\
  forall c j k, (c < length cons * bh)%nat -> (j < length ctrl)%nat -> (k < bw)%nat ->
    whole_matrix l values' c (j * bw + k)
    = whole_matrix l values c (j * bw + k)
      + (if ((j =? j0)%nat && (first * bh <=? c)%nat)%bool then factor * M (c - first * bh)%nat k else 0).
Proof.
  intros Hfirst Hq. destruct layout_facts as (Hne & Hbh & Hbw & Hlen & Ho0 & Ho & Hw & Hh & Hr).
  unfold add_lower_rows. destruct column as [j0|]; [|discriminate].
  rewrite Hw. destruct (j0 <? length ctrl)%nat eqn:E1; [apply Nat.ltb_lt in E1|discriminate].
  destruct (q <=? inner_col_height l j0)%nat eqn:E2; [apply Nat.leb_le in E2|discriminate].
  cbn [andb]. intro H. injection H as <-. exists j0. split; [reflexivity|]. split; [auto|].
  intros c j k Hc Hj Hk. rewrite !whole_matrix_at by auto.
  pose proof (col_height_le cons ctrl j) as Hle. pose proof (col_height_le cons ctrl j0) as Hle0.
  set (h0 := inner_col_height l j0) in *.
  assert (Hh0 : h0 = (col_height cons ctrl j0 * bh)%nat) by (unfold h0; auto).
  set (start := column_block_position l j0 (h0 - q) 0).
  assert (Hstart : start = (inner_column_offset l j0 + (h0 - q) * bw)%nat).
  { unfold start, column_block_position. rewrite Hbw. lia. }
  rewrite Hbw.
  destruct (inner_rowstart l j <=? c)%nat eqn:E3; [apply Nat.leb_le in E3|apply Nat.leb_gt in E3].
  - set (r := (c - inner_rowstart l j)%nat).
    assert (Hrh : (r < inner_col_height l j)%nat).
    { unfold r. rewrite Hh, Hr by auto. rewrite Hr in E3 by auto. nia. }
    pose proof (block_end j Hj r k Hrh Hk) as B.
    destruct (Nat.eq_dec j j0) as [->|Nj].
    + rewrite Nat.eqb_refl. cbn [andb]. fold h0 in Hrh.
      assert (Hpos : column_block_position l j0 r k = (inner_column_offset l j0 + (r * bw + k))%nat)
        by (unfold column_block_position; rewrite Hbw; reflexivity).
      assert (Hrow : inner_rowstart l j0 = (length cons * bh - h0)%nat) by (rewrite Hr, Hh0 by auto; nia).
      assert (Hh0c : (h0 <= length cons * bh)%nat) by (rewrite Hh0; nia).
      assert (Hfirstrow : (first * bh = length cons * bh - q)%nat) by (rewrite Hq; nia).
      destruct (first * bh <=? c)%nat eqn:E4; [apply Nat.leb_le in E4|apply Nat.leb_gt in E4].
      * assert (Hrq : (h0 - q <= r)%nat) by (unfold r; lia).
        rewrite (proj2 (Nat.leb_le _ _)) by (rewrite Hpos, Hstart; nia).
        rewrite (proj2 (Nat.ltb_lt _ _)) by (rewrite Hpos, Hstart; nia).
        cbn [andb]. f_equal. f_equal.
        assert (D : (column_block_position l j0 r k - start = (r - (h0 - q)) * bw + k)%nat)
          by (rewrite Hpos, Hstart; nia).
        rewrite D. rewrite Nat.div_add_l by lia. rewrite (Nat.div_small k bw) by auto.
        rewrite (Nat.add_comm _ k), Nat.mod_add by lia. rewrite (Nat.mod_small k bw) by auto.
        f_equal. unfold r. lia.
      * assert (Hrq : (r < h0 - q)%nat) by (unfold r; lia).
        rewrite (proj2 (Nat.leb_gt _ _)) by (rewrite Hpos, Hstart; nia). cbn [andb]. lra.
    + rewrite (proj2 (Nat.eqb_neq j j0)) by auto. cbn [andb]. rewrite Rplus_0_r.
      assert (Hend : (start + q * bw = inner_column_offset l (S j0))%nat).
      { rewrite Hstart. rewrite <- Nat.add_assoc, <- Nat.mul_add_distr_r, Nat.sub_add by auto.
        unfold inner_column_offset, block_size. rewrite Hbh, Hbw, Ho by auto.
        rewrite Hh0. ring. }
      assert (Hle1 : (inner_column_offset l j0 <= start)%nat) by (rewrite Hstart; apply Nat.le_add_r).
      clear Hstart. clearbody start.
      destruct (Nat.lt_ge_cases j j0) as [Lt|Ge].
      * assert (inner_column_offset l (S j) <= inner_column_offset l j0)%nat by (apply block_order; lia).
        rewrite (proj2 (Nat.leb_gt _ _)) by lia. reflexivity.
      * assert (inner_column_offset l (S j0) <= inner_column_offset l j)%nat by (apply block_order; lia).
        rewrite (proj2 (Nat.ltb_ge _ _)) by lia. rewrite andb_false_r. reflexivity.
  - destruct (Nat.eq_dec j j0) as [->|Nj].
    + rewrite Nat.eqb_refl. cbn [andb].
      assert (Hrow : inner_rowstart l j0 = (length cons * bh - h0)%nat) by (rewrite Hr, Hh0 by auto; nia).
      assert (Hfirstrow : (first * bh = length cons * bh - q)%nat) by (rewrite Hq; nia).
      rewrite (proj2 (Nat.leb_gt _ _)) by lia. lra.
    + rewrite (proj2 (Nat.eqb_neq j j0)) by auto. cbn [andb]. lra.
Qed.

Lemma add_lower_rows_along values column q factor M values' first W' :
  (first <= length cons)%nat -> q = ((length cons - first) * bh)%nat ->
  add_lower_rows l values column q factor M = Ok values' ->
  exists j0, column = Some j0 /\ forall c, (c < length cons * bh)%nat ->
  jacobian_along values' W' c
  = jacobian_along values W' c
    + (if (first * bh <=? c)%nat then factor * dot bw (M (c - first * bh)%nat) (W' j0) else 0).
Proof.
  intros Hf Hq H. destruct (add_lower_rows_entry _ _ _ _ _ _ first Hf Hq H) as (j0 & E & Hj0 & He).
  exists j0. split; [auto|]. intros c Hc. unfold jacobian_along.
  set (x := if (first * bh <=? c)%nat then factor * dot bw (M (c - first * bh)%nat) (W' j0) else 0).
  rewrite (Rsum_ext _ _ (fun j => Rsum bw (fun k => whole_matrix l values c (j * bw + k) * W' j k)
     + (if (j =? j0)%nat then x else 0))).
  - rewrite Rsum_plus. f_equal. apply (Rsum_single _ _ j0); auto.
  - intros j Hj.
    rewrite (Rsum_ext bw _ (fun k => whole_matrix l values c (j * bw + k) * W' j k
       + (if ((j =? j0)%nat && (first * bh <=? c)%nat)%bool then factor * (M (c - first * bh)%nat k * W' j k) else 0))).
    + rewrite Rsum_plus. f_equal. destruct (Nat.eq_dec j j0) as [->|Nj].
      * rewrite Nat.eqb_refl. cbn [andb]. unfold x. destruct (first * bh <=? c)%nat.
        -- rewrite Rsum_scal. reflexivity.
        -- apply Rsum_zero. reflexivity.
      * rewrite (proj2 (Nat.eqb_neq j j0)) by auto. cbn [andb]. apply Rsum_zero. reflexivity.
    + intros k Hk. rewrite He by auto.
      destruct ((j =? j0)%nat && (first * bh <=? c)%nat)%bool; ring.
Qed.

Lemma distribute_jacobian_along values u la q M values' first W' :
  (first <= length cons)%nat -> q = ((length cons - first) * bh)%nat ->
  distribute_jacobian l values u la q M = Ok values' ->
  forall c, (c < length cons * bh)%nat ->
  jacobian_along values' W' c
  = jacobian_along values W' c
    + (if (first * bh <=? c)%nat
       then dot bw (M (c - first * bh)%nat) (fun k => weighted u la (fun j => W' j k)) else 0).
Proof.
  intros Hf Hq. unfold distribute_jacobian, weighted, Reqb. destruct (Req_EM_T la 1) as [E|E]; intros H c Hc.
  - destruct (add_lower_rows_along _ _ _ _ _ _ first W' Hf Hq H) as (j & Ej & He). injection Ej as <-.
    rewrite He by auto. rewrite Rmult_1_l. reflexivity.
  - apply obind_Ok in H. destruct H as (V1 & H1 & H2).
    destruct (add_lower_rows_along _ _ _ _ _ _ first W' Hf Hq H1) as (j & Ej & E1). injection Ej as <-.
    destruct (add_lower_rows_along _ _ _ _ _ _ first W' Hf Hq H2) as (j2 & Ej2 & E2).
    unfold pred_index in Ej2. destruct u as [|u']; [discriminate|]. injection Ej2 as <-.
    rewrite E2, E1 by auto. replace (S u' - 1)%nat with u' by lia.
    destruct (first * bh <=? c)%nat; [|ring].
    rewrite dot_plus_r, !dot_scal_r. ring.
Qed.

Lemma distribute_jacobian_ok values u la q M : (u < length ctrl)%nat ->
  (q <= inner_col_height l u)%nat -> (q <= inner_col_height l (u - 1))%nat -> (la <> 1 -> (1 <= u)%nat) ->
  exists values', distribute_jacobian l values u la q M = Ok values'.
Proof.
  intros Hu H1 H2 Hla. destruct layout_facts as (Hne & Hbh & Hbw & Hlen & Ho0 & Ho & Hw & Hh & Hr).
  unfold distribute_jacobian, Reqb. destruct (Req_EM_T la 1) as [E|E].
  - unfold add_lower_rows. rewrite Hw.
    rewrite (proj2 (Nat.ltb_lt u (length ctrl))), (proj2 (Nat.leb_le _ _) H1) by auto. cbn [andb]. eauto.
  - specialize (Hla E). destruct u as [|u]; [lia|]. unfold add_lower_rows, pred_index. rewrite Hw.
    rewrite (proj2 (Nat.ltb_lt (S u) (length ctrl))), (proj2 (Nat.leb_le _ _) H1) by auto. cbn [andb obind].
    replace (S u - 1)%nat with u in H2 by lia.
    rewrite (proj2 (Nat.ltb_lt u (length ctrl))), (proj2 (Nat.leb_le _ _) H2) by lia. cbn [andb]. eauto.
Qed.

Lemma jacobian_along_zero values W' c : (forall k, values k = 0) -> (c < length cons * bh)%nat ->
  jacobian_along values W' c = 0.
Proof.
  intros H Hc. unfold jacobian_along. apply Rsum_zero. intros j Hj. apply Rsum_zero. intros k Hk.
  rewrite whole_matrix_at by auto. destruct (_ <=? _)%nat; rewrite ?H; ring.
Qed.

End Stored.
