(** * Proofs about Jacobians that share memory: assignment and columns *)
From Coq Require Import List Arith Reals Bool Lia Lra.
From Verif Require Import Base Interp_Model Defaults_Model Jac_Model Jac_Spec Jac_Proofs Jac_Props Views_Model Views_Proofs Views_Proofs3
  Jacview_Model Jacview_Spec Jacview_Proofs.
Import ListNotations.
Open Scope R_scope.

Lemma whole_splice (v w : list R) : length v = length w -> firstn 0 v ++ w ++ skipn (0 + length w) v = w.
Proof. intro L. cbn [firstn app Nat.add]. rewrite <- L, skipn_all, app_nil_r. reflexivity. Qed.

Lemma assign_ok st x y a b v w : jfit st -> jacobians st x = Some a -> jacobians st y = Some b -> lay a = lay b ->
  get_allvalues st a = Ok v -> get_allvalues st b = Ok w -> joverlapping a b = false ->
  exists st', jexec st (JAssign x y) = Ok st' /\ jshows st' x (lay b) w /\ jshows st' y (lay b) w /\
    (forall p n, jstore a = JView p n -> exists o, jacobians st' x = Some o /\ jstore o = JView p n /\ lay o = lay a).
Proof.
  intros Fi Ha Hb SL Va Vb Ov. pose proof (get_length _ _ _ Va) as La. pose proof (get_length _ _ _ Vb) as Lb.
  assert (HA : has_values a = Ok tt) by (unfold get_allvalues in Va; destruct (has_values a) as [[]| |]; [reflexivity|discriminate..]).
  assert (HB : has_values b = Ok tt) by (unfold get_allvalues in Vb; destruct (has_values b) as [[]| |]; [reflexivity|discriminate..]).
  assert (Lw : (0 + length w <= nonZeros (lay a))%nat) by (rewrite Lb, SL; auto).
  destruct (write_part_total st x a 0 w Ha (Fi _ _ Ha) Lw) as [st' W]; [eauto|].
  destruct (write_part_spec _ _ _ _ _ _ Ha (Fi _ _ Ha) Lw W) as (F & s & S1 & S2 & S3 & S4). specialize (S4 v Va).
  rewrite whole_splice in S4 by congruence. exists st'. split; [|split; [|split]].
  - cbn [jexec]. unfold jlookup. rewrite Ha. cbn [obind]. rewrite Hb. cbn [obind]. rewrite (proj2 (same_layout_iff _ _) SL). cbn [negb].
    rewrite HA, HB. cbn [obind]. rewrite Ov, Vb. cbn [obind]. exact W.
  - exists (mk_jacobian (lay a) s). cbn. auto.
  - destruct (Nat.eq_dec y x) as [->|N].
    { exists (mk_jacobian (lay a) s). cbn. auto. }
    exists b. rewrite (jf_objects _ _ _ _ F y N). split; auto. split; auto.
    destruct (jstore a) as [va|p n] eqn:Ea; [rewrite (frame_get _ _ _ _ _ F); auto; unfold jcells_of; rewrite Ea; tauto|].
    destruct (jstore b) as [vb|q m] eqn:Eb; [rewrite (frame_get _ _ _ _ _ F); auto; intros; unfold japart; rewrite Eb; exact I|].
    destruct p as [[pa po]|]; [|unfold has_values in HA; rewrite Ea in HA; discriminate].
    destruct q as [[qa qo]|]; [|unfold has_values in HB; rewrite Eb in HB; discriminate].
    unfold joverlapping in Ov. rewrite Ea, Eb in Ov. cbn in Ov. rewrite SL in Ov.
    destruct (Nat.eqb_spec pa qa) as [->|Na]; cbn [andb] in Ov.
    + destruct (Nat.eqb_spec po qo) as [->|No]; cbn [andb negb] in Ov.
      * assert (s = JView (Some (qa, qo)) n) as -> by (apply (S3 (Some (qa, qo)) n); reflexivity).
        unfold get_allvalues, has_values in S4 |- *. rewrite Eb. cbn in S4 |- *. rewrite SL in S4. exact S4.
      * rewrite (frame_get _ _ _ _ _ F); auto. intros ar k Hc. unfold jcells_of in Hc. rewrite Ea in Hc. destruct Hc as [-> Hk].
        unfold japart. rewrite Eb. apply andb_false_iff in Ov. rewrite SL in Hk.
        destruct Ov as [Ov|Ov]; apply Nat.ltb_ge in Ov; lia.
    + rewrite (frame_get _ _ _ _ _ F); auto. intros ar k Hc. unfold jcells_of in Hc. rewrite Ea in Hc. destruct Hc as [-> Hk].
      unfold japart. rewrite Eb. auto.
  - intros p n E. exists (mk_jacobian (lay a) s). split; auto. split; [|reflexivity]. apply S3. auto.
Qed.

Lemma classic_entry l row col : (exists k, nth_error (supply_indices l) k = Some (row, col)) \/ ~ In (row, col) (supply_indices l).
Proof.
  assert (D : forall a b : nat * nat, {a = b} + {a <> b}) by (decide equality; apply Nat.eq_dec).
  destruct (in_dec D (row, col) (supply_indices l)) as [H|H]; [left; now apply In_nth_error|right; auto].
Qed.

(** Writing a column block, seen in the whole matrix. *)
Lemma column_matrix l j B v : proper_layout l -> (j < outer_width l)%nat -> length v = nonZeros l ->
  let start := inner_column_offset l j in let blk := row_major (inner_col_height l j) (block_width l) B in
  let v' := firstn start v ++ blk ++ skipn (start + length blk) v in
  forall row col,
    (in_column_block l j row col ->
       whole_matrix l (fun k => nth k v' 0) row col = B (row - inner_rowstart l j)%nat (col - j * block_width l)%nat) /\
    (~ in_column_block l j row col -> whole_matrix l (fun k => nth k v' 0) row col = whole_matrix l (fun k => nth k v 0) row col).
Proof.
  intros PL Hj Lv start blk v' row col. pose proof (column_fits l j PL Hj) as CF. fold start in CF.
  assert (Lb : length blk = (inner_col_height l j * block_width l)%nat) by apply row_major_length.
  destruct PL as (bh & bw & cons & ctrl & Hc & Hu & Hne & E).
  destruct (C07_index_lists bh bw cons ctrl Hc Hu Hne) as (l' & E' & Ls & _ & In_iff & Wv & Wz & _). assert (l' = l) by congruence. subst l'.
  destruct (make_data_ok bh bw cons ctrl Hc Hu Hne) as (l' & E'' & Hbh & Hbw & Hlen & Ho0 & Ho). assert (l' = l) by congruence. subst l'.
  rewrite (l_outer_width ctrl bh bw l Hbh Hbw Hlen Ho0) in Hj. unfold in_column_block. rewrite Hbw in *.
  assert (NV : forall k, nth k v' 0 = if (start <=? k)%nat && (k <? start + length blk)%nat then nth (k - start) blk 0 else nth k v 0).
  { intro k. apply splice_nth. rewrite Lb, Lv. exact CF. }
  split.
  - intros [Hr Hcol]. set (r := (row - inner_rowstart l j)%nat). set (c := (col - j * bw)%nat).
    assert (Hr' : (r < inner_col_height l j)%nat) by (unfold r; lia). assert (Hc' : (c < bw)%nat) by (unfold c; lia).
    destruct (C07_column_blocks bh bw cons ctrl l Hc Hu E j r c Hj Hr' Hc') as [P1 P2].
    replace (inner_rowstart l j + r)%nat with row in P1 by (unfold r; lia). replace (j * bw + c)%nat with col in P1 by (unfold c; lia).
    rewrite (Wv _ _ _ _ P1), NV. unfold column_block_position. fold start. rewrite Hbw.
    assert (Q : (r * bw + c < length blk)%nat) by (rewrite Lb; nia).
    rewrite (proj2 (Nat.leb_le _ _)), (proj2 (Nat.ltb_lt _ _)) by lia. cbn [andb].
    replace (start + (r * bw + c) - start)%nat with (r * bw + c)%nat by lia.
    clearbody r c. subst bw. apply row_major_nth; auto.
  - intro N. destruct (classic_entry l row col) as [[k Hk]|Hno].
    + rewrite !(Wv _ _ _ _ Hk), NV. destruct (Nat.leb_spec start k) as [Q1|Q1]; cbn [andb]; auto.
      destruct (Nat.ltb_spec k (start + length blk)) as [Q2|Q2]; auto. exfalso. apply N. rewrite Lb in Q2.
      destruct (Nat.eq_dec bw 0) as [Z|Z]; [rewrite Z in Q2; lia|].
      pose proof (Nat.div_mod (k - start) bw Z) as DM. pose proof (Nat.mod_upper_bound (k - start) bw Z) as MB.
      set (r := ((k - start) / bw)%nat) in *. set (c := ((k - start) mod bw)%nat) in *.
      assert (Hr : (r < inner_col_height l j)%nat) by nia.
      destruct (C07_column_blocks bh bw cons ctrl l Hc Hu E j r c Hj Hr MB) as [P1 P2].
      replace (column_block_position l j r c) with k in P1 by (unfold column_block_position; fold start; rewrite Hbw; lia).
      rewrite Hk in P1. injection P1 as -> ->. lia.
    + assert (NS : ~ structural_entry bh bw cons ctrl row col) by (rewrite <- In_iff; auto).
      rewrite !Wz by auto. reflexivity.
Qed.
