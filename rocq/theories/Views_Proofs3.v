(** * Proofs about vectors that share memory: what a command does *)
From Coq Require Import List Arith Reals ZArith Bool Lia Lra.
From Verif Require Import Base Interp_Model Defaults_Model Iface_Model Iface_Proofs Views_Model Views_Spec Views_Proofs Views_Proofs2.
Import ListNotations.
Open Scope R_scope.

Lemma shows_frame st st' objs cells y pts inner vals : Frame st st' objs cells -> ~ objs y ->
  (forall o a k, objects st y = Some o -> cells a k -> apart o a k) -> shows st y pts inner vals -> shows st' y pts inner vals.
Proof.
  intros F N A (o & Ho & P & I & V). exists o. rewrite (fr_objects _ _ _ _ F y N). split; [auto|]. split; [auto|]. split; [auto|].
  rewrite (allvalues_frame st st' o objs cells F); auto.
Qed.

Lemma owned_independent cs : forall st st' x o v, exec_all st cs = Ok st' -> objects st x = Some o -> store o = Own v ->
  (forall c, In c cs -> ~ applied_to c x) -> objects st' x = Some o.
Proof.
  induction cs as [|c cs IH]; intros st st' x o v H Ho E N; cbn in H; [injection H as <-; auto|].
  apply obind_Ok in H. destruct H as (st1 & S & H). pose proof (exec_frame _ _ _ S) as F.
  eapply IH; eauto; [|intros c' I; apply N; right; auto]. rewrite (fr_objects _ _ _ _ F); auto. apply N. left. auto.
Qed.

Lemma rows_all cs : forall st st', rows_fit st -> (forall c, In c cs -> ~ moves c) -> exec_all st cs = Ok st' -> rows_fit st'.
Proof.
  induction cs as [|c cs IH]; intros st st' R N H; cbn in H; [injection H as <-; auto|].
  apply obind_Ok in H. destruct H as (st1 & S & H). eapply IH; [| |exact H]; [|intros c' I; apply N; right; auto].
  eapply exec_rows; eauto. apply N. left. auto.
Qed.

Lemma row_splice inner i j (vals r : list R) : length r = inner -> (inner * i + inner <= length vals)%nat ->
  row inner j (firstn (inner * i) vals ++ r ++ skipn (inner * i + inner) vals) = if (j =? i)%nat then r else row inner j vals.
Proof.
  intros Lr L. unfold row. rewrite <- Lr in *. destruct (Nat.eqb_spec j i) as [->|N].
  - apply splice_read. auto.
  - assert (D : (j < i \/ i < j)%nat) by lia. apply nth_ext'.
    + rewrite !firstn_length, !skipn_length, splice_length by auto. reflexivity.
    + intros k Hk. rewrite firstn_length in Hk. rewrite !nth_firstn, !nth_skipn, splice_nth by lia.
      destruct (Nat.leb_spec (length r * i) (length r * j + k)); cbn [andb]; auto.
      destruct (Nat.ltb_spec (length r * j + k) (length r * i + length r)); auto. exfalso.
      assert (length r * i < length r * (j + 1))%nat by lia. assert (length r * j < length r * (i + 1))%nat by lia. nia.
Qed.

Lemma vector_at_row st x o i vals : objects st x = Some o -> allvalues st o = Ok vals -> (0 <= i)%Z ->
  (inner_length o * Z.to_nat i + inner_length o <= size o)%nat -> vector_at st x i = Ok (row (inner_length o) (Z.to_nat i) vals).
Proof.
  intros Ho V I L. unfold vector_at, lookup. rewrite Ho. cbn [obind]. destruct (Z.ltb_spec i 0); [lia|].
  destruct (Nat.ltb_spec (size o) (inner_length o * Z.to_nat i + inner_length o)); [lia|]. rewrite V. cbn [obind]. unfold segment, row.
  rewrite (allvalues_length _ _ _ V), (proj2 (Nat.leb_le _ _)) by lia. reflexivity.
Qed.

Lemma same_structure_objects a b : same_structure a b = true <-> inner_length a = inner_length b /\ points a = points b.
Proof. unfold same_structure. rewrite same_structure_iff. reflexivity. Qed.

(** Assignment through a map that does not overlap leaves the source as it was. *)
Lemma assigned_source st a b x vals st' : objects st x = Some a -> allvalues st b = Ok vals -> overlapping (store a) (store b) = false ->
  size a = size b -> (forall s, store a <> Own s) -> set_allvalues st x a vals = Ok st' -> allvalues st' b = Ok vals.
Proof.
  intros Ha V O Sz No H. destruct (set_allvalues_spec _ _ _ _ _ Ha H) as (F & _ & s & S1 & S2 & S3).
  unfold overlapping, size, allvalues, same_class in *. destruct (store a) as [v|p n|p n] eqn:Ea; [destruct (No v eq_refl)| |].
  - destruct s as [|q m|]; try tauto. destruct S2 as [<- <-]. cbn [store] in S3.
    assert (G : forall q m, read (arrays st) q m = Ok vals -> m = n -> match p, q with
        | Some (x, i), Some (y, j) => ((x =? y)%nat && negb (i =? j)%nat && (i <? j + m)%nat && (j <? i + n)%nat)%bool = false | _, _ => True end ->
        read (arrays st') q m = Ok vals).
    { intros q m Rq -> Ov. destruct p as [[pa po]|].
      2:{ rewrite <- Rq. apply read_same; [apply (fr_length _ _ _ _ F)|]. intros a0 k _. apply (fr_cells _ _ _ _ F). cbn. tauto. }
      destruct q as [[qa qo]|].
      2:{ unfold read in *. destruct (n =? 0)%nat; [auto|discriminate]. }
      destruct (Nat.eq_dec pa qa) as [<-|N].
      - destruct (Nat.eq_dec po qo) as [<-|No']; [exact S3|]. rewrite <- Rq. apply read_same; [apply (fr_length _ _ _ _ F)|].
        intros a0 k [-> Hk]. apply (fr_cells _ _ _ _ F). cbn. intros [_ Hk']. rewrite Nat.eqb_refl in Ov. cbn [andb] in Ov.
        rewrite (proj2 (Nat.eqb_neq po qo)) in Ov by auto. cbn [negb andb] in Ov.
        rewrite (proj2 (Nat.ltb_lt po (qo + n))), (proj2 (Nat.ltb_lt qo (po + n))) in Ov by lia. discriminate.
      - rewrite <- Rq. apply read_same; [apply (fr_length _ _ _ _ F)|]. intros a0 k [-> Hk]. apply (fr_cells _ _ _ _ F). cbn. intros [E _]. congruence. }
    destruct (store b) as [w|q m|q m]; auto; apply G; auto; destruct p as [[pa po]|], q as [[qa qo]|]; auto.
  - unfold set_allvalues in H. rewrite Ea in H. discriminate.
Qed.

Lemma eq_forallb v w : length v = length w -> forallb (fun '(p, q) => Reqb p q) (combine v w) = true <-> v = w.
Proof.
  revert w. induction v as [|a v IH]; intros [|b w] L; cbn in *; try discriminate; [tauto|]. rewrite andb_true_iff, IH by lia.
  unfold Reqb. destruct (Req_EM_T a b); split; intuition congruence.
Qed.

Lemma steps_loop x y todo : forall st i st' a va b vb, x <> y -> objects st x = Some a -> allvalues st a = Ok va ->
  objects st y = Some b -> allvalues st b = Ok vb -> (forall ar k, cells_of (store a) ar k -> apart b ar k) ->
  interpolate_steps st x y todo (Z.of_nat i) = Ok st' ->
  exists v, interpolate_loop todo i (as_ivec a va) (as_ivec b vb) = Ok (as_ivec a v) /\ shows st' x (points a) (inner_length a) v.
Proof.
  induction todo as [|t todo IH]; intros st i st' a va b vb N Ha Va Hb Vb Ap H; cbn [interpolate_steps interpolate_loop] in *.
  - injection H as <-. exists va. split; auto. exists a. auto.
  - apply obind_Ok in H. destruct H as (b' & Hb' & H). apply lookup_Ok in Hb'. rewrite Hb in Hb'. injection Hb' as <-. rewrite Vb in H. cbn [obind] in H.
    apply obind_Ok in H. destruct H as (r & Hr & H). apply obind_Ok in H. destruct H as (st1 & S & H). rewrite Hr. cbn [obind].
    apply set_timestep_spec in S. destruct S as (a' & Ha' & F & Hi & Lr & L & v0 & s & V0 & S1 & S2 & S3). rewrite Ha in Ha'. injection Ha' as <-.
    rewrite Va in V0. injection V0 as <-. rewrite Nat2Z.id in L, S3. unfold set_row. cbn [as_ivec iinner ipoints ivalues].
    rewrite (allvalues_length _ _ _ Va). destruct (Nat.ltb_spec (size a) (inner_length a * i + inner_length a)); [lia|].
    rewrite Lr, Nat.eqb_refl. cbn [negb obind]. set (a1 := mk_object (points a) (inner_length a) s) in *.
    replace (Z.of_nat i + 1)%Z with (Z.of_nat (S i)) in H by lia.
    assert (Hb1 : objects st1 y = Some b) by (rewrite (fr_objects _ _ _ _ F); auto).
    assert (Vb1 : allvalues st1 b = Ok vb) by (rewrite (allvalues_frame _ _ _ _ _ F); auto).
    destruct (IH st1 (S i) st' a1 _ b vb N S1 S3 Hb1 Vb1) as (v & V1 & V2); auto.
    { cbn. rewrite (same_class_cells _ _ S2). auto. }
    exists v. split; auto.
Qed.
