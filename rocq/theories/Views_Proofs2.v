(** * Proofs about vectors that share memory: what a command changes *)
From Coq Require Import List Arith Reals ZArith Bool Lia Lra.
From Verif Require Import Base Interp_Model Defaults_Model Iface_Model Iface_Proofs Views_Model Views_Spec Views_Proofs.
Import ListNotations.
Open Scope R_scope.

Lemma lookup_Ok st x o : lookup st x = Ok o <-> objects st x = Some o.
Proof. unfold lookup. destruct (objects st x); split; congruence. Qed.

Lemma frame_weaken st st' (o1 o2 : nat -> Prop) (c1 c2 : nat -> nat -> Prop) :
  (forall y, o1 y -> o2 y) -> (forall a k, c1 a k -> c2 a k) -> Frame st st' o1 c1 -> Frame st st' o2 c2.
Proof. intros H1 H2 [A B C]. split; auto. Qed.

Lemma steps_frame x y todo : forall st i st' o, objects st x = Some o -> interpolate_steps st x y todo i = Ok st' ->
  Frame st st' (fun z => z = x) (cells_of (store o)) /\
  exists s, objects st' x = Some (mk_object (points o) (inner_length o) s) /\ same_class (store o) s.
Proof.
  induction todo as [|t todo IH]; intros st i st' o Ho H; cbn [interpolate_steps] in H.
  - injection H as <-. split; [apply frame_refl|]. exists (store o). rewrite Ho. split; [destruct o; reflexivity|apply same_class_refl].
  - apply obind_Ok in H. destruct H as (b & _ & H). apply obind_Ok in H. destruct H as (vals & _ & H).
    apply obind_Ok in H. destruct H as (r & _ & H). apply obind_Ok in H. destruct H as (st1 & S & H).
    apply set_timestep_spec in S. destruct S as (o' & Ho' & F & _ & _ & _ & v & s & _ & S1 & S2 & _).
    rewrite Ho in Ho'. injection Ho' as <-. destruct (IH _ _ _ _ S1 H) as (F' & s' & S1' & S2'). cbn [store points inner_length] in *.
    rewrite (same_class_cells _ _ S2) in F'. split; [eapply frame_trans; eauto|]. exists s'. split; auto. eapply same_class_trans; eauto.
Qed.

(** How the objects a command is applied to look afterwards. *)
Lemma exec_frame st c st' : exec st c = Ok st' -> Frame st st' (applied_to c) (may_write st c).
Proof.
  assert (W : forall x o c, objects st x = Some o -> writes_values_of c x -> forall a k, cells_of (store o) a k -> may_write st c a k).
  { intros x o c0 Ho Hw a k Hc. right. destruct (store o) as [|[[b off]|] n|] eqn:E; cbn in Hc; try tauto. destruct Hc as [-> Hk].
    exists x, off, n. split; auto. split; [exists o; auto|auto]. }
  destruct c; cbn [exec]; intro H.
  - destruct (base_ctor s pts); try discriminate H. cbn in H. injection H as <-. now apply frame_object.
  - apply obind_Ok in H. destruct H as (u & _ & H). destruct (negb _); [discriminate|]. injection H as <-. now apply frame_object.
  - apply obind_Ok in H. destruct H as (u & _ & H). destruct (negb _); [discriminate|]. injection H as <-. now apply frame_object.
  - apply obind_Ok in H. destruct H as (o & _ & H). apply obind_Ok in H. destruct H as (v & _ & H). injection H as <-. now apply frame_object.
  - apply obind_Ok in H. destruct H as (o & _ & H). destruct (store o); try discriminate. injection H as <-.
    eapply frame_trans; apply frame_object; cbn; auto.
  - apply obind_Ok in H. destruct H as (a & Ha & H). apply obind_Ok in H. destruct H as (b & _ & H). apply lookup_Ok in Ha.
    destruct (store a) eqn:Es; [| |discriminate].
    + destruct (allvalues st b); try discriminate. injection H as <-. now apply frame_object.
    + destruct (negb _); [discriminate|]. destruct (overlapping _ _); [discriminate|]. apply obind_Ok in H. destruct H as (v & _ & H).
      destruct (set_allvalues st x a v) as [st1| |] eqn:S; try discriminate. cbn in H. injection H as <-.
      destruct (set_allvalues_spec _ _ _ _ _ Ha S) as (F & _). eapply frame_trans; [|apply frame_object; reflexivity].
      eapply frame_weaken; [| |exact F]; [intros y0 ->; reflexivity|]. eapply (W _ _ (Assign x y)); eauto. reflexivity.
  - apply obind_Ok in H. destruct H as (a & Ha & H). apply obind_Ok in H. destruct H as (b & _ & H). apply lookup_Ok in Ha.
    destruct (negb _); [discriminate|]. set (cc := match store a with Own _ => _ | _ => _ end) in H.
    assert (E : exists v st1 o, set_allvalues st x a v = Ok st1 /\ st' = set_object st1 x o).
    { subst cc. destruct (store a); [| |discriminate]; (destruct (overlapping _ _); [discriminate|]); apply obind_Ok in H; destruct H as (v & _ & H);
        (destruct (set_allvalues st x a v) as [st1| |] eqn:S; try discriminate); cbn in H; injection H as <-; eauto. }
    destruct E as (v & st1 & o & S & ->).
    destruct (set_allvalues_spec _ _ _ _ _ Ha S) as (F & _). eapply frame_trans; [|apply frame_object; reflexivity].
    eapply frame_weaken; [| |exact F]; [intros y0 ->; reflexivity|]. eapply (W _ _ (AssignBase x y)); eauto. reflexivity.
  - destruct (x =? y)%nat; [discriminate|]. apply obind_Ok in H. destruct H as (a & _ & H). apply obind_Ok in H. destruct H as (b & _ & H).
    destruct (store a), (store b); try discriminate. injection H as <-. eapply frame_trans; apply frame_object; cbn; auto.
  - apply set_timestep_spec in H. destruct H as (o & Ho & F & _). eapply frame_weaken; [| |exact F]; [intros y0 ->; reflexivity|].
    eapply (W _ _ (SetTimestep x i row)); eauto. reflexivity.
  - apply obind_Ok in H. destruct H as (st1 & S & H). apply obind_Ok in H. destruct H as (o1 & _ & H).
    destruct (set_point _ _ _); try discriminate. injection H as <-.
    apply set_timestep_spec in S. destruct S as (o & Ho & F & _). eapply frame_trans; [|apply frame_object; reflexivity].
    eapply frame_weaken; [| |exact F]; [intros y0 ->; reflexivity|]. eapply (W _ _ (PushToIndex x i t row)); eauto. reflexivity.
  - apply obind_Ok in H. destruct H as (o & Ho & H). apply lookup_Ok in Ho.
    assert (S : set_allvalues st x o vals = Ok st') by (destruct (store o); [| |discriminate]; destruct (negb _); [discriminate|auto|discriminate|auto]).
    destruct (set_allvalues_spec _ _ _ _ _ Ho S) as (F & _). eapply frame_weaken; [| |exact F]; [intros y0 ->; reflexivity|].
    eapply (W _ _ (SetBulk x vals)); eauto. reflexivity.
  - apply obind_Ok in H. destruct H as (o & Ho & S). apply lookup_Ok in Ho.
    destruct (set_allvalues_spec _ _ _ _ _ Ho S) as (F & _). eapply frame_weaken; [| |exact F]; [intros y0 ->; reflexivity|].
    eapply (W _ _ (SetZero x)); eauto. reflexivity.
  - apply obind_Ok in H. destruct H as (o & Ho & H). destruct (store o); try discriminate. destruct (negb _); [discriminate|]. injection H as <-.
    now apply frame_object.
  - apply obind_Ok in H. destruct H as (a & Ha & H). apply obind_Ok in H. destruct H as (b & _ & H). apply lookup_Ok in Ha.
    destruct (negb _); [discriminate|]. apply obind_Ok in H. destruct H as (s0 & _ & H). apply obind_Ok in H. destruct H as (d0 & _ & H).
    destruct (Rltb d0 s0); [discriminate|]. destruct (Rltb _ _); [discriminate|].
    destruct (steps_frame _ _ _ _ _ _ _ Ha H) as (F & _). eapply frame_weaken; [| |exact F]; [intros y0 ->; reflexivity|].
    eapply (W _ _ (InterpolateFrom x y)); eauto. reflexivity.
  - destruct (write (arrays st) (Some (a, k)) [r]) as [m| |] eqn:E; try discriminate. injection H as <-.
    destruct (write_spec _ _ _ _ E) as (W1 & W2 & _). split; cbn; auto. intros a0 k0 N. apply W2. intros [-> Hk]. apply N. left.
    exists r. cbn in Hk. f_equal; lia.
Qed.

Lemma same_class_size o s : same_class (store o) s -> size (mk_object (points o) (inner_length o) s) = size o.
Proof. unfold size. cbn. destruct (store o), s; cbn; try tauto; intuition. Qed.

Lemma set_point_spec pts i t pts' : set_point pts i t = Ok pts' -> (i < length pts)%nat /\ length pts' = length pts /\
  forall k, nth k pts' 0 = if (k =? i)%nat then t else nth k pts 0.
Proof.
  unfold set_point. destruct (Nat.ltb_spec i (length pts)) as [L|L]; [|discriminate]. intro E.
  assert (Q : pts' = firstn i pts ++ [t] ++ skipn (i + length [t]) pts) by (cbn [length app]; rewrite Nat.add_1_r; congruence).
  rewrite Q. split; auto. split; [apply splice_length; cbn [length]; lia|]. intro k. rewrite splice_nth by (cbn [length]; lia). cbn [length].
  destruct (Nat.eqb_spec k i) as [->|N].
  - rewrite Nat.leb_refl, (proj2 (Nat.ltb_lt i (i + 1))) by lia. cbn. rewrite Nat.sub_diag. reflexivity.
  - destruct (Nat.leb_spec i k); cbn [andb]; auto. destruct (Nat.ltb_spec k (i + 1)); auto. lia.
Qed.

(** One row per point, after every command but a move assignment. *)
Lemma exec_rows st c st' : rows_fit st -> ~ moves c -> exec st c = Ok st' -> rows_fit st'.
Proof.
  intros R M H. pose proof (exec_frame _ _ _ H) as F.
  assert (G : (forall z o, applied_to c z -> objects st' z = Some o -> size o = (inner_length o * length (points o))%nat) -> rows_fit st').
  { intros G z o Hz.
    assert (D : applied_to c z \/ ~ applied_to c z) by (destruct c; cbn; try (destruct (Nat.eq_dec z x)); try (destruct (Nat.eq_dec z y)); tauto).
    destruct D as [D|D]; [eapply G; eauto|]. apply (R z). rewrite <- (fr_objects _ _ _ _ F z D). auto. }
  apply G. clear G. intros z o A Hz. destruct c; cbn [exec applied_to] in *.
  - subst z. destruct (base_ctor s pts); try discriminate H. cbn in H. injection H as <-. cbn in Hz. rewrite upd_same in Hz. injection Hz as <-.
    unfold size. cbn. rewrite map_length, seq_length. reflexivity.
  - subst z. apply obind_Ok in H. destruct H as (u & _ & H). destruct (Nat.eqb_spec (inner * length pts) n); cbn in H; [|discriminate].
    injection H as <-. cbn in Hz. rewrite upd_same in Hz. injection Hz as <-. unfold size. cbn. auto.
  - subst z. apply obind_Ok in H. destruct H as (u & _ & H). destruct (Nat.eqb_spec (inner * length pts) n); cbn in H; [|discriminate].
    injection H as <-. cbn in Hz. rewrite upd_same in Hz. injection Hz as <-. unfold size. cbn. auto.
  - subst z. apply obind_Ok in H. destruct H as (b & Hb & H). apply lookup_Ok in Hb. apply obind_Ok in H. destruct H as (v & V & H). injection H as <-.
    cbn in Hz. rewrite upd_same in Hz. injection Hz as <-. unfold size at 1. cbn. rewrite (allvalues_length _ _ _ V). eapply R; eauto.
  - apply obind_Ok in H. destruct H as (b & Hb & H). apply lookup_Ok in Hb. destruct (store b) eqn:Eb; try discriminate. injection H as <-.
    cbn in Hz. destruct (Nat.eq_dec z x) as [->|N]; [rewrite upd_same in Hz; injection Hz as <-; eapply R; eauto|].
    rewrite upd_other in Hz by auto. destruct (Nat.eq_dec z y) as [->|N']; [|tauto]. rewrite upd_same in Hz. injection Hz as <-. reflexivity.
  - subst z. apply obind_Ok in H. destruct H as (a & Ha & H). apply obind_Ok in H. destruct H as (b & Hb & H). apply lookup_Ok in Ha, Hb.
    destruct (store a) as [v|p n|p n] eqn:Ea; [| |discriminate].
    + destruct (allvalues st b) as [w| |] eqn:V; try discriminate. injection H as <-. cbn in Hz. rewrite upd_same in Hz. injection Hz as <-.
      unfold size at 1. cbn. rewrite (allvalues_length _ _ _ V). eapply R; eauto.
    + destruct (same_structure b a) eqn:SS; [|discriminate]. cbn [negb] in H. destruct (overlapping _ _); [discriminate|].
      apply obind_Ok in H. destruct H as (w & V & H). destruct (set_allvalues st x a w) as [st1| |]; try discriminate. cbn in H. injection H as <-.
      cbn in Hz. rewrite upd_same in Hz. injection Hz as <-. apply same_structure_iff in SS. destruct SS as [I P]. cbn in I, P.
      pose proof (R _ _ Ha) as Q. unfold size in *. rewrite Ea in Q. cbn. congruence.
  - subst z. apply obind_Ok in H. destruct H as (a & Ha & H). apply obind_Ok in H. destruct H as (b & Hb & H). apply lookup_Ok in Ha, Hb.
    destruct (same_structure b a) eqn:SS; [|discriminate]. cbn [negb] in H. apply same_structure_iff in SS. destruct SS as [I P]. cbn in I, P.
    pose proof (R _ _ Ha) as Q. unfold size in Q. destruct (store a) as [v|p n|p n] eqn:Ea; [| |discriminate]; (destruct (overlapping _ _); [discriminate|]);
      apply obind_Ok in H; destruct H as (w & V & H); (destruct (set_allvalues st x a w) as [st1| |] eqn:S; try discriminate); cbn in H; injection H as <-;
      cbn in Hz; rewrite upd_same in Hz; injection Hz as <-; unfold size; cbn; [|congruence].
    destruct (set_allvalues_spec _ _ _ _ _ Ha S) as (_ & L & _). unfold size in L. rewrite Ea in L. congruence.
  - destruct M. exists x, y. reflexivity.
  - subst z. apply set_timestep_spec in H. destruct H as (a & Ha & _ & _ & _ & _ & v & s & _ & S1 & S2 & _). rewrite S1 in Hz. injection Hz as <-.
    rewrite same_class_size by auto. cbn. eapply R; eauto.
  - subst z. apply obind_Ok in H. destruct H as (st1 & S & H). apply obind_Ok in H. destruct H as (o1 & Ho1 & H). apply lookup_Ok in Ho1.
    destruct (set_point _ _ _) as [pts| |] eqn:P; try discriminate. cbn in H. injection H as <-. cbn in Hz. rewrite upd_same in Hz. injection Hz as <-.
    apply set_timestep_spec in S. destruct S as (a & Ha & _ & _ & _ & _ & v & s & _ & S1 & S2 & _). rewrite S1 in Ho1. injection Ho1 as <-.
    cbn in *. apply set_point_spec in P. destruct P as (_ & P & _). rewrite P. rewrite <- (R _ _ Ha). rewrite <- (same_class_size a s S2). reflexivity.
  - subst z. apply obind_Ok in H. destruct H as (a & Ha & H). apply lookup_Ok in Ha.
    assert (S : set_allvalues st x a vals = Ok st') by (destruct (store a); [| |discriminate]; destruct (negb _); [discriminate|auto|discriminate|auto]).
    destruct (set_allvalues_spec _ _ _ _ _ Ha S) as (_ & _ & s & S1 & S2 & _). rewrite S1 in Hz. injection Hz as <-. rewrite same_class_size by auto. cbn. eapply R; eauto.
  - subst z. apply obind_Ok in H. destruct H as (a & Ha & S). apply lookup_Ok in Ha.
    destruct (set_allvalues_spec _ _ _ _ _ Ha S) as (_ & _ & s & S1 & S2 & _). rewrite S1 in Hz. injection Hz as <-. rewrite same_class_size by auto. cbn. eapply R; eauto.
  - subst z. apply obind_Ok in H. destruct H as (a & Ha & H). apply lookup_Ok in Ha. destruct (store a) as [v|p0 m|p0 m] eqn:Ea; try discriminate.
    destruct (Nat.eqb_spec n m) as [->|]; [|discriminate]. cbn in H. injection H as <-. cbn in Hz. rewrite upd_same in Hz. injection Hz as <-.
    pose proof (R _ _ Ha) as Q. unfold size in *. rewrite Ea in Q. exact Q.
  - subst z. apply obind_Ok in H. destruct H as (a & Ha & H). apply obind_Ok in H. destruct H as (b & _ & H). apply lookup_Ok in Ha.
    destruct (negb _); [discriminate|]. apply obind_Ok in H. destruct H as (s0 & _ & H). apply obind_Ok in H. destruct H as (d0 & _ & H).
    destruct (Rltb d0 s0); [discriminate|]. destruct (Rltb _ _); [discriminate|].
    destruct (steps_frame _ _ _ _ _ _ _ Ha H) as (_ & s & S1 & S2). rewrite S1 in Hz. injection Hz as <-. rewrite same_class_size by auto. cbn. eapply R; eauto.
  - destruct A.
Qed.
