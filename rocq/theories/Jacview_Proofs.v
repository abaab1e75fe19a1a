(** * Proofs about Jacobians that share memory *)
From Coq Require Import List Arith Reals Bool Lia Lra.
From Verif Require Import Base Interp_Model Defaults_Model Jac_Model Jac_Spec Jac_Proofs Jac_Props Views_Model Views_Proofs Views_Proofs3 Jacview_Model Jacview_Spec.
Import ListNotations.
Open Scope R_scope.

Lemma jlookup_Ok st x o : jlookup st x = Ok o <-> jacobians st x = Some o.
Proof. unfold jlookup. destruct (jacobians st x); split; congruence. Qed.

Record JFrame (st st' : jstate) (objs : nat -> Prop) (cells : nat -> nat -> Prop) : Prop := mk_jframe {
  jf_objects : forall y, ~ objs y -> jacobians st' y = jacobians st y;
  jf_length : forall a, length (jarrays st' a) = length (jarrays st a);
  jf_cells : forall a k, ~ cells a k -> nth k (jarrays st' a) 0 = nth k (jarrays st a) 0
}.
Lemma jframe_object st x o (objs : nat -> Prop) cells : objs x -> JFrame st (set_jacobian st x o) objs cells.
Proof. intro H. split; cbn; auto. intros y N. apply upd_other. congruence. Qed.
Lemma jframe_weaken st st' (o1 o2 : nat -> Prop) (c1 c2 : nat -> nat -> Prop) :
  (forall y, o1 y -> o2 y) -> (forall a k, c1 a k -> c2 a k) -> JFrame st st' o1 c1 -> JFrame st st' o2 c2.
Proof. intros H1 H2 [A B C]. split; auto. Qed.

Definition fits (o : jacobian) : Prop := proper_layout (lay o) /\ match jstore o with JOwn v => length v = nonZeros (lay o) | JView _ n => n = nonZeros (lay o) end.
Definition jcells_of (o : jacobian) (a k : nat) : Prop :=
  match jstore o with JView p _ => in_range p (nonZeros (lay o)) a k | _ => False end.

Lemma read_own v n : length v = n -> read (fun _ => v) (Some (0, 0)%nat) n = Ok v.
Proof.
  intros <-. unfold read. destruct (Nat.eqb_spec (length v) 0) as [E|E]; [destruct v; [reflexivity|discriminate]|].
  cbn [Nat.add]. rewrite Nat.leb_refl. cbn [skipn]. rewrite firstn_all. reflexivity.
Qed.

Lemma get_own st o v : jstore o = JOwn v -> fits o -> get_allvalues st o = Ok v.
Proof. unfold get_allvalues, has_values, fits. intros -> [_ L]. cbn. now apply read_own. Qed.

Lemma get_length st o v : get_allvalues st o = Ok v -> length v = nonZeros (lay o).
Proof.
  unfold get_allvalues. intro H. apply obind_Ok in H. destruct H as (u & _ & H). destruct (jstore o); eapply read_length; eauto.
Qed.

(** Writing a part of the values. *)
Lemma write_part_spec st x o start vals st' : jacobians st x = Some o -> fits o -> (start + length vals <= nonZeros (lay o))%nat ->
  write_part st x o start vals = Ok st' ->
  JFrame st st' (fun y => y = x) (jcells_of o) /\
  exists s, jacobians st' x = Some (mk_jacobian (lay o) s) /\ fits (mk_jacobian (lay o) s) /\
    (forall p n, jstore o = JView p n <-> s = JView p n) /\
    forall v, get_allvalues st o = Ok v ->
      get_allvalues st' (mk_jacobian (lay o) s) = Ok (firstn start v ++ vals ++ skipn (start + length vals) v).
Proof.
  intros Ho Fi L H. unfold write_part in H. apply obind_Ok in H. destruct H as (u & Hv & H).
  destruct (jstore o) as [v|[[a off]|] n] eqn:Es; [| |discriminate H].
  - destruct (Nat.leb_spec (start + length vals) (length v)) as [L'|L']; [|discriminate]. injection H as <-.
    assert (F' : fits (mk_jacobian (lay o) (JOwn (firstn start v ++ vals ++ skipn (start + length vals) v)))).
    { unfold fits in *. cbn. rewrite Es in Fi. rewrite splice_length by lia. auto. }
    split; [now apply jframe_object|]. eexists. cbn. rewrite upd_same. split; [reflexivity|]. split; auto.
    split; [intros; split; intros; congruence|].
    intros w Hw. rewrite (get_own _ _ v Es Fi) in Hw. injection Hw as <-. now apply get_own.
  - destruct (write (jarrays st) (Some (a, (off + start)%nat)) vals) as [m| |] eqn:W; try discriminate. cbn in H. injection H as <-.
    destruct (write_spec _ _ _ _ W) as (W1 & W2 & W3). split.
    + split; cbn; auto. intros b k N. apply W2. intros [-> Hk]. apply N. unfold jcells_of. rewrite Es. cbn. lia.
    + exists (JView (Some (a, off)) n). cbn. split; [rewrite Ho; destruct o; cbn in *; congruence|]. unfold fits in *. cbn. rewrite Es in Fi. split; auto.
      split; [intros; tauto|]. intros w Hw. unfold get_allvalues, has_values in *. rewrite Es in Hw. cbn in *.
      pose proof (read_length _ _ _ _ Hw) as Lw. unfold read in *. destruct (Nat.eqb_spec (nonZeros (lay o)) 0) as [E|E].
      * injection Hw as <-. destruct vals; [|cbn in *; lia]. destruct start; [reflexivity|cbn in *; lia].
      * destruct (Nat.leb_spec (off + nonZeros (lay o)) (length (jarrays st a))) as [Lm|Lm]; [|discriminate]. injection Hw as <-.
        rewrite W1, (proj2 (Nat.leb_le _ _) Lm). f_equal. apply nth_ext'.
        -- rewrite splice_length by lia. rewrite !firstn_length, !skipn_length, W1. reflexivity.
        -- intros k Hk. rewrite firstn_length, skipn_length, W1 in Hk. rewrite splice_nth by lia.
           rewrite !nth_firstn, !nth_skipn by lia. destruct (Nat.leb_spec start k) as [Q1|Q1]; cbn [andb].
           ++ destruct (Nat.ltb_spec k (start + length vals)) as [Q2|Q2].
              ** destruct (Nat.eqb_spec (length vals) 0) as [Z|Z]; [lia|].
                 destruct (Nat.leb_spec (off + start + length vals) (length (m a))) as [Q3|Q3]; [|discriminate]. injection W3 as W3.
                 rewrite <- W3 at 1. rewrite nth_firstn, nth_skipn by lia. f_equal. lia.
              ** apply W2. intros [_ Hr]. lia.
           ++ apply W2. intros [_ Hr]. lia.
Qed.

Lemma write_part_total st x o start vals : jacobians st x = Some o -> fits o -> (start + length vals <= nonZeros (lay o))%nat ->
  (exists v, get_allvalues st o = Ok v) -> exists st', write_part st x o start vals = Ok st'.
Proof.
  intros Ho Fi L [v Hv]. unfold write_part, get_allvalues, has_values, fits in *. destruct (jstore o) as [w|[[a off]|] n]; cbn in *; [| |discriminate].
  - rewrite (proj2 (Nat.leb_le _ _)) by lia. eauto.
  - unfold read, write in *. destruct (Nat.eqb_spec (length vals) 0); [cbn; eauto|]. destruct (Nat.eqb_spec (nonZeros (lay o)) 0); [lia|].
    destruct (Nat.leb_spec (off + nonZeros (lay o)) (length (jarrays st a))); [|discriminate].
    rewrite (proj2 (Nat.leb_le (off + start + length vals) _)) by lia. cbn. eauto.
Qed.

Lemma same_layout_iff a b : same_layout a b = true <-> a = b.
Proof.
  unfold same_layout, list_nat_eqb. split.
  - intro H. apply andb_prop in H. destruct H as [H H4]. apply andb_prop in H. destruct H as [H H3]. apply andb_prop in H. destruct H as [H1 H2].
    apply Nat.eqb_eq in H1, H2. destruct (list_eq_dec Nat.eq_dec (block_column_offsets a) (block_column_offsets b)); [|discriminate].
    destruct a, b. cbn in *. congruence.
  - intros ->. rewrite !Nat.eqb_refl. destruct (list_eq_dec Nat.eq_dec (block_column_offsets b) (block_column_offsets b)); [reflexivity|congruence].
Qed.

Lemma row_major_length h w B : length (row_major h w B) = (h * w)%nat.
Proof.
  unfold row_major. destruct (nth_error_flat_map_uniform (fun r => map (B r) (seq 0 w)) w (seq 0 h)) as [L _].
  { intro r. rewrite map_length, seq_length. reflexivity. } rewrite L, seq_length. reflexivity.
Qed.
Lemma row_major_nth h w B r c : (r < h)%nat -> (c < w)%nat -> nth (r * w + c) (row_major h w B) 0 = B r c.
Proof.
  intros Hr Hc. unfold row_major. destruct (nth_error_flat_map_uniform (fun r => map (B r) (seq 0 w)) w (seq 0 h)) as [_ N].
  { intro k. rewrite map_length, seq_length. reflexivity. }
  apply nth_error_nth. rewrite (N r c r); auto.
  - rewrite nth_error_map. rewrite (nth_error_nth' _ 0%nat) by (rewrite seq_length; auto). rewrite seq_nth by auto. reflexivity.
  - rewrite (nth_error_nth' _ 0%nat) by (rewrite seq_length; auto). rewrite seq_nth by auto. reflexivity.
Qed.

Lemma frame_get st st' o objs cells : JFrame st st' objs cells -> (forall a k, cells a k -> japart o a k) -> get_allvalues st' o = get_allvalues st o.
Proof.
  intros [A B C] H. unfold get_allvalues. destruct (has_values o); auto. cbn. unfold japart in H. destruct (jstore o) as [v|p n]; auto.
  apply read_same; auto. intros ar k I. apply C. intro Q. apply H in Q. destruct p as [[b off]|]; cbn in *; lia.
Qed.

Lemma column_fits l j : proper_layout l -> (j < outer_width l)%nat ->
  (inner_column_offset l j + inner_col_height l j * block_width l <= nonZeros l)%nat.
Proof.
  intros (bh & bw & cons & ctrl & Hc & Hu & Hne & E) Hj.
  destruct (make_data_ok bh bw cons ctrl Hc Hu Hne) as (l' & E' & Hbh & Hbw & Hlen & Ho0 & Ho). assert (l' = l) by congruence. subst l'.
  rewrite (l_outer_width ctrl bh bw l Hbh Hbw Hlen Ho0) in Hj.
  assert (M : (offset l (j + 1) <= offset l (length ctrl))%nat) by (apply (offset_mono cons ctrl bh bw l Hbh Hbw Hlen Ho0 Ho); lia).
  assert (M' : (offset l j <= offset l (j + 1))%nat) by (apply (offset_mono cons ctrl bh bw l Hbh Hbw Hlen Ho0 Ho); lia).
  unfold inner_column_offset, inner_col_height, outer_col_height, nonZeros, block_size. rewrite Hlen. cbn [Nat.sub]. rewrite Nat.sub_0_r.
  change (nth (length ctrl) (block_column_offsets l) 0%nat) with (offset l (length ctrl)).
  rewrite <- Nat.mul_assoc, <- Nat.mul_add_distr_r. apply Nat.mul_le_mono_r. lia.
Qed.

Lemma jexec_frame st c st' : jfit st -> proper_command c ->
  jexec st c = Ok st' -> JFrame st st' (japplied_to c) (jmay_write st c) /\ jfit st'.
Proof.
  intros Fi PC H.
  assert (W : forall x o start vals st1, c = c -> jacobians st x = Some o -> jwrites_values_of c x -> (forall y, y = x -> japplied_to c y) ->
     (start + length vals <= nonZeros (lay o))%nat -> write_part st x o start vals = Ok st1 -> JFrame st st1 (japplied_to c) (jmay_write st c) /\ jfit st1).
  { intros x o start vals st1 _ Ho Wx Ax L E. destruct (write_part_spec _ _ _ _ _ _ Ho (Fi _ _ Ho) L E) as (F & s & S1 & S2 & _). split.
    - eapply jframe_weaken; [exact Ax| |exact F]. intros a k Hc. right. unfold jcells_of in Hc. destruct (jstore o) as [|[[b off]|] n] eqn:Es; cbn in Hc; try tauto.
      destruct Hc as [-> Hk]. exists x, o, off, n. auto.
    - intros z oz Hz. destruct (Nat.eq_dec z x) as [->|N]; [rewrite S1 in Hz; injection Hz as <-; exact S2|].
      rewrite (jf_objects _ _ _ _ F z N) in Hz. exact (Fi z oz Hz). }
  assert (O : forall x o, japplied_to c x -> fits o -> JFrame st (set_jacobian st x o) (japplied_to c) (jmay_write st c) /\ jfit (set_jacobian st x o)).
  { intros x o Ax Fo. split; [now apply jframe_object|]. intros z oz Hz. cbn in Hz. destruct (Nat.eq_dec z x) as [->|N].
    - rewrite upd_same in Hz. injection Hz as <-. exact Fo.
    - rewrite upd_other in Hz by auto. exact (Fi z oz Hz). }
  destruct c; cbn [jexec] in H.
  - injection H as <-. apply O; [reflexivity|]. unfold fits. cbn. rewrite map_length, seq_length. auto.
  - destruct (Nat.eqb_spec (nonZeros l) n) as [E|E]; [|discriminate]. injection H as <-. apply O; [reflexivity|]. unfold fits. cbn. auto.
  - apply obind_Ok in H. destruct H as (o & Ho & H). apply jlookup_Ok in Ho. apply obind_Ok in H. destruct H as (v & V & H). injection H as <-. apply O; [reflexivity|].
    unfold fits. cbn. split; [exact (proj1 (Fi _ _ Ho))|]. eapply get_length; eauto.
  - apply obind_Ok in H. destruct H as (o & Ho & H). apply jlookup_Ok in Ho. destruct (jstore o) eqn:Es; [discriminate|]. injection H as <-. apply O; [reflexivity|].
    exact (Fi _ _ Ho).
  - apply obind_Ok in H. destruct H as (a & Ha & H). apply obind_Ok in H. destruct H as (b & Hb & H). apply jlookup_Ok in Ha, Hb.
    destruct (same_layout (lay a) (lay b)) eqn:SL; [|discriminate]. cbn [negb] in H. apply same_layout_iff in SL.
    apply obind_Ok in H. destruct H as (u1 & _ & H). apply obind_Ok in H. destruct H as (u2 & _ & H). destruct (joverlapping a b); [discriminate|].
    apply obind_Ok in H. destruct H as (v & V & H). eapply (W x a 0%nat v); eauto; cbn; auto. apply get_length in V. rewrite V, SL. auto.
  - apply obind_Ok in H. destruct H as (o & Ho & H). apply jlookup_Ok in Ho. destruct (jstore o) as [|q m] eqn:Es; [discriminate|].
    destruct (negb (n =? m)%nat); [discriminate|]. injection H as <-. apply O; [reflexivity|]. pose proof (Fi _ _ Ho) as Q. unfold fits. cbn. rewrite Es in Q. exact Q.
  - apply obind_Ok in H. destruct H as (o & Ho & H). apply jlookup_Ok in Ho. eapply (W x o 0%nat); eauto; cbn; auto. rewrite repeat_length. auto.
  - apply obind_Ok in H. destruct H as (o & Ho & H). apply jlookup_Ok in Ho. eapply (W x o 0%nat); eauto; cbn; auto. rewrite repeat_length. auto.
  - apply obind_Ok in H. destruct H as (o & Ho & H). apply jlookup_Ok in Ho. destruct (Nat.ltb_spec column (outer_width (lay o))) as [Lc|Lc]; [|discriminate]. cbn [negb] in H.
    eapply (W x o (inner_column_offset (lay o) column)); eauto; cbn; auto. rewrite row_major_length. apply column_fits; auto. exact (proj1 (Fi _ _ Ho)).
  - destruct (write (jarrays st) (Some (a, k)) [r]) as [m| |] eqn:E; try discriminate. injection H as <-.
    destruct (write_spec _ _ _ _ E) as (W1 & W2 & _). split.
    + split; cbn; auto. intros a0 k0 N. apply W2. intros [-> Hk]. apply N. left. exists r. cbn in Hk. f_equal; lia.
    + exact Fi.
Qed.
