From Coq Require Import List Arith Reals Lra Lia Bool.
From Verif Require Import Base Interp_Model Interp_Spec Interp_Proofs Interp_Proofs2 Jac_Model Jac_Spec Jac_Proofs.
Import ListNotations.
Local Open Scope nat_scope.

Lemma increasing_nondecreasing l : increasing l -> nondecreasing l.
Proof. intros H i j a b Hij Ha Hb. exact (increasing_nth_le l H i j a b Hij Ha Hb). Qed.

Lemma jacobian_pattern : forall bh bw cons ctrl,
  nondecreasing cons -> nondecreasing ctrl -> ctrl <> [] ->
  exists l, make_data bh bw cons ctrl = Some (Ok l) /\
    length (supply_indices l) = nonZeros l /\
    NoDup (supply_indices l) /\
    (forall row col, In (row, col) (supply_indices l) <-> structural_entry bh bw cons ctrl row col) /\
    (forall values k row col, nth_error (supply_indices l) k = Some (row, col) ->
       whole_matrix l values row col = values k) /\
    (forall values row col, ~ structural_entry bh bw cons ctrl row col ->
       whole_matrix l values row col = 0%R) /\
    inner_width l = length ctrl * bw /\
    (cons <> [] -> inner_height l = length cons * bh).
Proof.
  intros bh bw cons ctrl Hc Hu Hne.
  destruct (make_data_ok bh bw cons ctrl Hc Hu Hne) as (l & E & Hbh & Hbw & Hlen & Ho0 & Ho).
  exists l. split; [exact E|].
  pose proof (supply_In cons ctrl bh bw l Hc Hne Hbh Hbw Hlen Ho0 Ho) as HIn.
  split; [apply (supply_spec cons ctrl bh bw l Hne Hbh Hbw Hlen Ho0 Ho)|].
  split; [apply (supply_NoDup cons ctrl bh bw l Hne Hbh Hbw Hlen Ho0 Ho)|].
  split; [exact HIn|].
  split; [intros; eapply whole_matrix_entry; eauto|].
  split; [intros values row col Hn; eapply whole_matrix_zero; eauto; rewrite HIn; auto|].
  split.
  - unfold inner_width, outer_width. rewrite Hlen, Hbw. simpl. rewrite Nat.sub_0_r. reflexivity.
  - intros _. eapply l_inner_height; eauto.
Qed.

(** Every stored position is the place of the block entry it belongs to. *)
Lemma column_block_entry : forall bh bw cons ctrl l,
  nondecreasing cons -> nondecreasing ctrl -> make_data bh bw cons ctrl = Some (Ok l) ->
  forall j r c, j < length ctrl -> r < inner_col_height l j -> c < bw ->
    nth_error (supply_indices l) (column_block_position l j r c)
      = Some (inner_rowstart l j + r, j * bw + c) /\
    column_block_position l j r c < nonZeros l.
Proof.
  intros bh bw cons ctrl l Hc Hu E j r c Hj Hr Hcc.
  assert (Hne : ctrl <> []) by (intro Z; rewrite Z in Hj; simpl in Hj; lia).
  destruct (make_data_ok bh bw cons ctrl Hc Hu Hne) as (l' & E' & Hbh & Hbw & Hlen & Ho0 & Ho).
  assert (l' = l) by congruence. subst l'.
  assert (Eh : inner_col_height l j = col_height cons ctrl j * bh) by (eapply l_inner_col_height; eauto).
  rewrite Eh in Hr.
  destruct (supply_spec cons ctrl bh bw l Hne Hbh Hbw Hlen Ho0 Ho) as [L N].
  split; [apply N; auto|]. rewrite <- L. apply nth_error_Some. rewrite (N j r c) by auto. discriminate.
Qed.

(** ** Omitted entries *)
Lemma segment_agree l1 l2 s m : length l1 = length l2 ->
  (forall k, k < m -> nth (s + k) l1 0%R = nth (s + k) l2 0%R) -> segment l1 s m = segment l2 s m.
Proof.
  intros HL H. unfold segment. rewrite HL. destruct (s + m <=? length l2) eqn:E; [|reflexivity].
  apply Nat.leb_le in E. f_equal. apply list_eq_nth.
  - rewrite !firstn_length, !skipn_length. lia.
  - rewrite firstn_length, skipn_length. intros k Hk.
    rewrite !nth_firstn_lt, !nth_skipn by lia. apply H. lia.
Qed.

Lemma control_not_seen : forall ctrl m w1 w2 j u t,
  increasing ctrl -> j < length ctrl -> 1 <= j -> nth_error ctrl (j - 1) = Some u -> (t <= u)%R ->
  table_of ctrl m w1 -> table_of ctrl m w2 ->
  (forall i k, i < length ctrl -> i <> j -> k < m -> entry w1 m i k = entry w2 m i k) ->
  interp_at (mk_ivec ctrl m w1) t = interp_at (mk_ivec ctrl m w2) t.
Proof.
  intros ctrl m w1 w2 j u t Hinc Hj H1 Hu Ht T1 T2 Hag.
  assert (Hrow : forall i, i < length ctrl -> i <> j -> segment w1 (i * m) m = segment w2 (i * m) m).
  { intros i Hi Hij. unfold table_of in T1, T2. apply segment_agree; [congruence|].
    intros k Hk. apply (Hag i k Hi Hij Hk). }
  unfold interp_at. cbn [ipoints iinner ivalues].
  destruct ctrl as [|p0 rest] eqn:Ec; [simpl in Hj; lia|]. rewrite <- Ec in *.
  assert (Hne : ctrl <> []) by (rewrite Ec; discriminate).
  pose proof (nth_error_last ctrl 0%R Hne) as Hlast.
  assert (Hub : (u < last ctrl 0)%R).
  { apply (increasing_nth ctrl Hinc (j - 1) (length ctrl - 1)); auto. lia. }
  rewrite (proj2 (Rleb_false _ _)) by lra.
  destruct (Rleb t p0).
  - destruct (Rltb t (p0 - EPSILON)); [reflexivity|].
    change 0 with (0 * m). apply Hrow; lia.
  - set (it := lower_bound ctrl t).
    assert (Hit : it <= j - 1).
    { destruct (le_lt_dec it (j - 1)) as [A|A]; [auto|].
      pose proof (lower_bound_before ctrl t (j - 1) u A Hu). lra. }
    destruct (it =? 0) eqn:E0; [reflexivity|]. apply Nat.eqb_neq in E0.
    replace (it * m - m) with ((it - 1) * m) by nia.
    rewrite (Hrow it), (Hrow (it - 1)) by lia. reflexivity.
Qed.

Lemma omitted_entry_zero : forall cons ctrl i j s, increasing ctrl -> j < length ctrl ->
  nth_error cons i = Some s -> ~ may_depend cons ctrl i j ->
  forall m w1 w2 t, table_of ctrl m w1 -> table_of ctrl m w2 ->
  (forall i' k, i' < length ctrl -> i' <> j -> k < m -> entry w1 m i' k = entry w2 m i' k) ->
  (t <= s)%R ->
  interp_at (mk_ivec ctrl m w1) t = interp_at (mk_ivec ctrl m w2) t.
Proof.
  intros cons ctrl i j s Hinc Hj Hs Hno m w1 w2 t T1 T2 Hag Ht.
  assert (Hi : i < length cons) by (eapply nth_error_lt_inv; eauto).
  destruct j as [|j]; [exfalso; apply Hno; repeat split; auto|].
  destruct (nth_error_lt ctrl j) as [u Hu]; [lia|].
  assert ((s <= u)%R).
  { destruct (Rle_or_lt s u) as [A|A]; [auto|]. exfalso. apply Hno.
    split; [auto|]. split; [auto|]. right. exists s, u. replace (S j - 1) with j by lia. auto. }
  apply (control_not_seen ctrl m w1 w2 (S j) u t); auto; try lia; try lra.
  replace (S j - 1) with j by lia. auto.
Qed.

(** ** Writes of the sweep *)
Lemma sweep_index_depends : forall cons ctrl t u la, increasing ctrl ->
  compute_index_lambda ctrl t = Ok (u, la) ->
  forall i s, nth_error cons i = Some s -> (t <= s)%R ->
  may_depend cons ctrl i u /\ may_depend cons ctrl i (u - 1).
Proof.
  intros cons ctrl t u la Hinc E i s Hs Hts.
  assert (Hi : i < length cons) by (eapply nth_error_lt_inv; eauto).
  unfold compute_index_lambda in E. destruct ctrl as [|p0 rest] eqn:Ec; [discriminate|]. rewrite <- Ec in *.
  assert (Hne : ctrl <> []) by (rewrite Ec; discriminate).
  assert (Hn : 0 < length ctrl) by (rewrite Ec; simpl; lia).
  pose proof (nth_error_last ctrl 0%R Hne) as Hlast.
  destruct (Rltb t p0) eqn:E1; [discriminate|].
  destruct (Rltb (last ctrl 0%R + EPSILON) t) eqn:E2; [discriminate|].
  (* it is enough that the predecessor of [u] is before [t] *)
  assert (G : u < length ctrl /\ (forall v, 0 < u -> nth_error ctrl (u - 1) = Some v -> (v < t)%R)).
  { destruct (Rltb (last ctrl 0%R) t && Rltb t (last ctrl 0%R + EPSILON)) eqn:E3.
    - injection E as <- <-. apply andb_true_iff in E3. destruct E3 as [E3 _]. apply Rltb_true in E3.
      split; [lia|]. intros v Hp Hv.
      pose proof (increasing_nth_le ctrl Hinc (length ctrl - 1 - 1) (length ctrl - 1) v _ ltac:(lia) Hv Hlast). lra.
    - apply obind_Ok in E. destruct E as (tu & Gu & E). apply get_Ok in Gu.
      assert (Hu : lower_bound ctrl t < length ctrl) by (eapply nth_error_lt_inv; eauto).
      destruct (lower_bound ctrl t =? 0) eqn:E0.
      + apply Nat.eqb_eq in E0. injection E as <- <-. split; [auto|]. lia.
      + apply obind_Ok in E. destruct E as (tl & Gl & E). injection E as <- <-. split; [auto|].
        intros v Hp Hv. apply (lower_bound_before ctrl t (lower_bound ctrl t - 1) v); auto. lia. }
  destruct G as [Gu Gv]. unfold may_depend. split.
  - split; [auto|]. split; [auto|]. destruct u as [|u]; [left; auto|right].
    destruct (nth_error_lt ctrl (S u - 1)) as [v Hv]; [lia|].
    exists s, v. split; [auto|]. split; [auto|]. specialize (Gv v ltac:(lia) Hv). lra.
  - split; [auto|]. split; [lia|]. destruct u as [|[|u]]; [left; auto|left; auto|right].
    destruct (nth_error_lt ctrl (S (S u) - 1 - 1)) as [v Hv]; [lia|].
    destruct (nth_error_lt ctrl (S (S u) - 1)) as [v' Hv']; [lia|].
    exists s, v. split; [auto|]. split; [auto|].
    pose proof (increasing_nth ctrl Hinc (S (S u) - 1 - 1) (S (S u) - 1) v v' ltac:(lia) Hv Hv').
    specialize (Gv v' ltac:(lia) Hv'). lra.
Qed.

Lemma sweep_rows_fit : forall bh bw cons ctrl l, increasing cons -> increasing ctrl ->
  make_data bh bw cons ctrl = Some (Ok l) ->
  forall t u la, compute_index_lambda ctrl t = Ok (u, la) ->
  forall i s, nth_error cons i = Some s -> (t <= s)%R ->
  (length cons - i) * bh <= inner_col_height l u /\ (length cons - i) * bh <= inner_col_height l (u - 1) /\
  u < length ctrl.
Proof.
  intros bh bw cons ctrl l Hc Hu E t u la El i s Hs Hts.
  destruct (sweep_index_depends cons ctrl t u la Hu El i s Hs Hts) as [D1 D2].
  assert (Hi : i < length cons) by (eapply nth_error_lt_inv; eauto).
  assert (Hne : ctrl <> []) by (intro Z; subst ctrl; discriminate).
  destruct (make_data_ok bh bw cons ctrl (increasing_nondecreasing _ Hc) (increasing_nondecreasing _ Hu) Hne)
    as (l' & E' & Hbh & Hbw & Hlen & Ho0 & Ho).
  assert (l' = l) by congruence. subst l'.
  assert (Ju : u < length ctrl) by (destruct D1 as (_ & ? & _); auto).
  assert (Ju' : u - 1 < length ctrl) by lia.
  assert (Eh : forall j, j < length ctrl -> inner_col_height l j = col_height cons ctrl j * bh)
    by (intros; eapply l_inner_col_height; eauto).
  rewrite (Eh u Ju), (Eh (u - 1) Ju').
  pose proof (increasing_nondecreasing _ Hc) as Hc'.
  assert (M : forall j, j < length ctrl -> may_depend cons ctrl i j -> length cons - col_height cons ctrl j <= i).
  { intros j Hj D. eapply may_depend_iff; eauto. }
  apply (M u Ju) in D1. apply (M (u - 1) Ju') in D2.
  split; [|split; [|auto]]; apply Nat.mul_le_mono_r; lia.
Qed.
