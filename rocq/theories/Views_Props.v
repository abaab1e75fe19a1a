(** * Property C88: InterpolatingVectors with and without memory of their own *)
From Coq Require Import List Arith Reals ZArith Bool Lia Lra.
From Verif Require Import Base Interp_Model Defaults_Model Iface_Model Iface_Proofs Views_Model Views_Spec Views_Proofs Views_Proofs2 Views_Proofs3.
Import ListNotations.
Open Scope R_scope.

(** A command changes only the objects it is applied to, and of the arrays only the part that is mapped
    by the MappedInterpolatingVector whose values it writes (or the cell that is written directly). *)
Theorem C88_frame : forall st c st', exec st c = Ok st' ->
  (forall y, ~ applied_to c y -> objects st' y = objects st y) /\
  (forall a, length (arrays st' a) = length (arrays st a)) /\
  (forall a k, ~ may_write st c a k -> nth k (arrays st' a) 0 = nth k (arrays st a) 0).
Proof. intros st c st' H. apply exec_frame in H. destruct H as [A B C]. auto. Qed.
Print Assumptions C88_frame.

(** So another object shows the same values unless it looks at cells that are written. *)
Theorem C88_others_unchanged : forall st c st' y pts inner vals, exec st c = Ok st' -> ~ applied_to c y ->
  (forall o a k, objects st y = Some o -> may_write st c a k -> apart o a k) ->
  shows st y pts inner vals -> shows st' y pts inner vals.
Proof. intros st c st' y pts inner vals H N A S. eapply shows_frame; eauto. now apply exec_frame. Qed.
Print Assumptions C88_others_unchanged.

(** Construction over sorted points: a vector with storage has room for one row per point; a mapped one is
    constructed exactly for an array part of that length, and shows what is there. *)
Theorem C88_construct : forall st x s pts inner, is_sorted pts = true ->
  (forall g, exists st' vals, exec st (New x s pts inner g) = Ok st' /\ owns st' x /\ shows st' x pts inner vals /\ length vals = (inner * length pts)%nat) /\
  (forall p n, (n = (inner * length pts)%nat ->
     (exists st', exec st (NewMapped x s pts inner p n) = Ok st' /\ maps st' x p n /\ forall v, read (arrays st) p n = Ok v -> shows st' x pts inner v) /\
     (exists st', exec st (NewConstMapped x s pts inner p n) = Ok st' /\ const_maps st' x p n /\ forall v, read (arrays st) p n = Ok v -> shows st' x pts inner v)) /\
   (n <> (inner * length pts)%nat -> exec st (NewMapped x s pts inner p n) = Exc /\ exec st (NewConstMapped x s pts inner p n) = Exc)).
Proof.
  intros st x s pts inner S. assert (B : base_ctor s pts = Ok tt) by (destruct s; cbn; [rewrite S|]; reflexivity). split.
  - intro g. cbn [exec]. rewrite B. cbn [omap]. do 2 eexists. split; [reflexivity|].
    split; [do 2 eexists; cbn; rewrite upd_same; split; reflexivity|].
    split; [eexists; cbn; rewrite upd_same; split; [reflexivity|]; split; [reflexivity|]; split; reflexivity|].
    rewrite map_length, seq_length. reflexivity.
  - intros p n. cbn [exec]. rewrite B. cbn [obind]. split.
    + intros ->. rewrite Nat.eqb_refl. cbn [negb].
      split; (eexists; split; [reflexivity|]; split; [eexists; cbn; rewrite upd_same; split; reflexivity|]);
        intros v V; eexists; cbn; rewrite upd_same; (split; [reflexivity|]); auto.
    + intro N. rewrite (proj2 (Nat.eqb_neq _ _)) by auto. auto.
Qed.
Print Assumptions C88_construct.

(** A copy in an InterpolatingVector (by its constructor or by assignment to it) shows what the
    original showed when it was made, whatever happens later to the original and to the arrays. *)
Theorem C88_copy_independent : forall st c st1 cs st2 x y pts inner vals,
  (c = CopyNew x y \/ (c = Assign x y /\ owns st x)) -> shows st y pts inner vals ->
  exec st c = Ok st1 -> exec_all st1 cs = Ok st2 -> (forall d, In d cs -> ~ applied_to d x) ->
  shows st2 x pts inner vals /\ owns st2 x.
Proof.
  intros st c st1 cs st2 x y pts inner vals Hc (b & Hb & P & I & V) H1 H2 N.
  assert (E : objects st1 x = Some (mk_object pts inner (Own vals))).
  { destruct Hc as [->|[-> (a & v & Ha & Ea)]]; cbn [exec] in H1; unfold lookup in H1.
    - rewrite Hb in H1. cbn [obind] in H1. rewrite V in H1. cbn [obind] in H1. injection H1 as <-. cbn. rewrite upd_same. congruence.
    - rewrite Ha in H1. cbn [obind] in H1. rewrite Hb in H1. cbn [obind] in H1. rewrite Ea, V in H1. cbn in H1. injection H1 as <-. cbn. rewrite upd_same. congruence. }
  pose proof (owned_independent cs st1 st2 x _ vals H2 E eq_refl N) as G. split.
  - exists (mk_object pts inner (Own vals)). auto.
  - exists (mk_object pts inner (Own vals)), vals. auto.
Qed.
Print Assumptions C88_copy_independent.

(** A ConstMappedInterpolatingVector cannot be written: the operations that would do so throw, none
    succeeds, and whatever is done with it no array changes. *)
Theorem C88_const_mapped : forall st x p n, const_maps st x p n ->
  (forall i r, exec st (SetTimestep x i r) = Exc) /\ (forall i t r, exec st (PushToIndex x i t r) = Exc) /\
  (forall v, exec st (SetBulk x v) = Exc) /\ exec st (SetZero x) = Exc /\
  (forall y b, objects st y = Some b -> exec st (AssignBase x y) = Exc) /\
  (forall y st', exec st (Assign x y) <> Ok st' /\ exec st (InterpolateFrom x y) <> Ok st') /\
  (forall c st' a, applied_to c x -> writes_values_of c x \/ (exists q m, c = ResetValues x q m) -> exec st c = Ok st' -> arrays st' a = arrays st a).
Proof.
  intros st x p n (o & Ho & Es).
  assert (T : forall i r, set_timestep st x i r = Exc).
  { intros i r. unfold set_timestep, lookup. rewrite Ho. cbn [obind]. destruct (i <? 0)%Z; auto. destruct (_ <? _)%nat; auto. rewrite Es. reflexivity. }
  split; [exact T|]. split; [intros i t r; cbn [exec]; rewrite T; reflexivity|].
  split; [intro v; cbn [exec]; unfold lookup; rewrite Ho; cbn [obind]; rewrite Es; reflexivity|].
  split; [cbn [exec]; unfold lookup; rewrite Ho; cbn [obind]; unfold set_allvalues; rewrite Es; reflexivity|].
  split. { intros y b Hb. cbn [exec]. unfold lookup. rewrite Ho. cbn [obind]. rewrite Hb. cbn [obind]. destruct (negb _); auto. rewrite Es. reflexivity. }
  split.
  { intros y st'. split; intro H; cbn [exec] in H; unfold lookup in H; rewrite Ho in H; cbn [obind] in H.
    - apply obind_Ok in H. destruct H as (b & _ & H). rewrite Es in H. discriminate.
    - apply obind_Ok in H. destruct H as (b & _ & H). destruct (negb _); [discriminate|]. apply obind_Ok in H. destruct H as (s0 & _ & H).
      apply obind_Ok in H. destruct H as (d0 & Hd & H). destruct (Rltb d0 s0); [discriminate|]. destruct (Rltb _ _); [discriminate|].
      destruct (points o) as [|t ts]; [discriminate Hd|]. cbn [interpolate_steps] in H.
      apply obind_Ok in H. destruct H as (b' & _ & H). apply obind_Ok in H. destruct H as (v & _ & H). apply obind_Ok in H. destruct H as (r & _ & H).
      rewrite T in H. discriminate. }
  intros c st' a A Wr H. apply exec_frame in H. destruct H as [_ L C]. apply nth_ext'; auto. intros k _. apply C.
  intros [[r E]|(z & off & m & Wz & (oz & Hz & Ez) & _)].
  - subst c. destruct Wr as [[]|(q & m & E)]. discriminate.
  - destruct Wr as [Wx|(q & m' & E)]; [|subst c; destruct Wz].
    assert (z = x) by (destruct c; cbn in *; try tauto; congruence). subst z. congruence.
Qed.
Print Assumptions C88_const_mapped.

(** Writing one time step of a vector that is not const changes that row and no other. *)
Theorem C88_write_timestep : forall st x i r st', exec st (SetTimestep x i r) = Ok st' ->
  exists pts inner vals vals', shows st x pts inner vals /\ shows st' x pts inner vals' /\ length vals' = length vals /\
    (0 <= i)%Z /\ (forall j, row inner j vals' = if (j =? Z.to_nat i)%nat then r else row inner j vals) /\
    vector_at st' x i = Ok r.
Proof.
  intros st x i r st' H. apply set_timestep_spec in H. destruct H as (o & Ho & _ & I & Lr & L & vals & s & V & S1 & S2 & S3).
  pose proof (allvalues_length _ _ _ V) as Lv.
  exists (points o), (inner_length o), vals, (firstn (inner_length o * Z.to_nat i) vals ++ r ++ skipn (inner_length o * Z.to_nat i + inner_length o) vals).
  split; [exists o; auto|]. split; [eexists; split; [exact S1|]; auto|].
  split; [apply splice_length'; lia|]. split; auto. split; [intro j; apply row_splice; lia|].
  pose proof (vector_at_row st' x _ i _ S1 S3 I) as Q. cbn [inner_length] in Q. rewrite same_class_size in Q by auto.
  rewrite Q by auto. f_equal. rewrite row_splice by lia. rewrite Nat.eqb_refl. reflexivity.
Qed.
Print Assumptions C88_write_timestep.

(** It is possible exactly for the indices of the points (if the inner length is not zero). *)
Theorem C88_timestep_range : forall st x pts inner vals i r, rows_fit st -> shows st x pts inner vals ->
  (forall p n, ~ const_maps st x p n) -> inner <> 0%nat ->
  ((0 <= i < Z.of_nat (length pts))%Z -> length r = inner -> exists st', exec st (SetTimestep x i r) = Ok st') /\
  (~ (0 <= i < Z.of_nat (length pts))%Z -> exec st (SetTimestep x i r) = Exc /\ vector_at st x i = Exc).
Proof.
  intros st x pts inner vals i r R (o & Ho & <- & <- & V) NC N0. pose proof (R _ _ Ho) as Sz. cbn [exec]. split.
  - intros I Lr. assert (L : (inner_length o * Z.to_nat i + inner_length o <= size o)%nat) by (rewrite Sz; nia).
    unfold set_timestep, lookup. rewrite Ho. cbn [obind]. destruct (Z.ltb_spec i 0); [lia|].
    destruct (Nat.ltb_spec (size o) (inner_length o * Z.to_nat i + inner_length o)); [lia|].
    rewrite Lr, Nat.eqb_refl. cbn [negb]. rewrite V. cbn [obind]. pose proof (allvalues_length _ _ _ V) as Lv.
    assert (Ls : length (firstn (inner_length o * Z.to_nat i) vals ++ r ++ skipn (inner_length o * Z.to_nat i + inner_length o) vals) = size o)
      by (rewrite <- Lv; apply splice_length'; lia).
    unfold set_allvalues. unfold allvalues, size in *. destruct (store o) as [v|p n|p n] eqn:Es.
    + rewrite Ls, Nat.eqb_refl. eauto.
    + rewrite Ls, Nat.eqb_refl. destruct (write_Ok (arrays st) p _ (ex_intro _ vals (eq_ind_r (fun k => read (arrays st) p k = Ok vals) V Ls))) as [m ->].
      cbn. eauto.
    + destruct (NC p n). exists o. auto.
  - intro I. unfold set_timestep, vector_at, lookup. rewrite Ho. cbn [obind]. destruct (Z.ltb_spec i 0); [auto|].
    destruct (Nat.ltb_spec (size o) (inner_length o * Z.to_nat i + inner_length o)); [auto|]. exfalso. rewrite Sz in *. nia.
Qed.
Print Assumptions C88_timestep_range.

(** Writing all values at once. *)
Theorem C88_write_all : forall st x pts inner vals v, shows st x pts inner vals -> (forall p n, ~ const_maps st x p n) ->
  (length v = length vals -> exists st', exec st (SetBulk x v) = Ok st' /\ shows st' x pts inner v) /\
  (length v <> length vals -> exec st (SetBulk x v) = Exc) /\
  (exists st' z, exec st (SetZero x) = Ok st' /\ shows st' x pts inner z /\ length z = length vals /\ forall k, nth k z 0 = 0).
Proof.
  intros st x pts inner vals v (o & Ho & <- & <- & V) NC. pose proof (allvalues_length _ _ _ V) as Lv.
  assert (G : forall w, length w = size o -> exists st', set_allvalues st x o w = Ok st' /\ shows st' x (points o) (inner_length o) w).
  { intros w L. assert (E : exists st', set_allvalues st x o w = Ok st').
    { unfold set_allvalues, size, allvalues in *. destruct (store o) as [u|p n|p n] eqn:Es.
      - rewrite L, Nat.eqb_refl. eauto.
      - rewrite L, Nat.eqb_refl. destruct (write_Ok (arrays st) p w) as [m ->]; [exists vals; congruence|]. cbn. eauto.
      - destruct (NC p n). exists o. auto. }
    destruct E as [st' E]. exists st'. split; auto. destruct (set_allvalues_spec _ _ _ _ _ Ho E) as (_ & _ & s & S1 & _ & S3).
    eexists. split; [exact S1|]. auto. }
  assert (B : exec st (SetBulk x v) = if negb (length v =? size o)%nat then Exc else set_allvalues st x o v).
  { cbn [exec]. unfold lookup. rewrite Ho. cbn [obind]. destruct (store o) as [u|p n|p n] eqn:Es; auto. destruct (NC p n). exists o. auto. }
  split; [|split].
  - intro L. rewrite B, L, Lv, Nat.eqb_refl. cbn [negb]. apply G. congruence.
  - intro L. rewrite B. rewrite (proj2 (Nat.eqb_neq _ _)) by congruence. reflexivity.
  - destruct (G (repeat 0 (size o))) as (st' & E & S); [apply repeat_length|]. exists st', (repeat 0 (size o)).
    split; [cbn [exec]; unfold lookup; rewrite Ho; exact E|]. split; auto. split; [rewrite repeat_length; auto|]. intro k. apply nth_repeat.
Qed.
Print Assumptions C88_write_all.

(** Assignment makes both sides equal.  An InterpolatingVector accepts every vector; a
    MappedInterpolatingVector, and every vector that is assigned to through the base class, accepts exactly the
    vectors with the same points and inner length. *)
Theorem C88_assign : forall st x y a b pts inner vals ptsx innerx valsx, rows_fit st ->
  objects st x = Some a -> objects st y = Some b -> shows st y pts inner vals -> shows st x ptsx innerx valsx ->
  overlapping (store a) (store b) = false -> (forall p n, ~ const_maps st x p n) ->
  (forall c, (c = Assign x y /\ owns st x) \/ ((c = Assign x y \/ c = AssignBase x y) /\ pts = ptsx /\ inner = innerx) ->
     exists st', exec st c = Ok st' /\ shows st' x pts inner vals /\ shows st' y pts inner vals /\ equal st' x y = Ok true) /\
  ((exists p n, maps st x p n) -> ~ (pts = ptsx /\ inner = innerx) -> exec st (Assign x y) = Exc) /\
  (~ (pts = ptsx /\ inner = innerx) -> exec st (AssignBase x y) = Exc).
Proof.
  intros st x y a b pts inner vals ptsx innerx valsx R Ha Hb Sy Sx Ov NC.
  destruct Sy as (b' & Hb' & P & I & V). rewrite Hb in Hb'. injection Hb' as <-.
  destruct Sx as (a' & Ha' & Px & Ix & Vx). rewrite Ha in Ha'. injection Ha' as <-.
  assert (EQ : forall st' p i v, shows st' x p i v -> shows st' y p i v -> equal st' x y = Ok true).
  { intros st' p i v (o1 & H1 & P1 & I1 & V1) (o2 & H2 & P2 & I2 & V2). unfold equal, lookup. rewrite H1. cbn [obind]. rewrite H2. cbn [obind].
    rewrite (proj2 (same_structure_objects o1 o2)) by (split; congruence). cbn [negb]. rewrite V1. cbn [obind]. rewrite V2. cbn [obind].
    rewrite Nat.eqb_refl. cbn [negb]. f_equal. apply eq_forallb; auto. }
  assert (OW : forall c v, store a = Own v -> c = Assign x y -> exists st', exec st c = Ok st' /\ shows st' x pts inner vals /\ shows st' y pts inner vals /\ equal st' x y = Ok true).
  { intros c v Ea ->. exists (set_object st x (mk_object pts inner (Own vals))).
    assert (Q1 : shows (set_object st x (mk_object pts inner (Own vals))) x pts inner vals) by (eexists; cbn; rewrite upd_same; split; [reflexivity|auto]).
    assert (Q2 : shows (set_object st x (mk_object pts inner (Own vals))) y pts inner vals).
    { destruct (Nat.eq_dec y x) as [->|N]; [exact Q1|]. exists b. cbn. rewrite upd_other by auto. auto. }
    split; [cbn [exec]; unfold lookup; rewrite Ha; cbn [obind]; rewrite Hb; cbn [obind]; rewrite Ea, V; cbn; congruence|]. split; auto. split; auto. eapply EQ; eauto. }
  split; [|split].
  - intros c [[-> (o & v & Ho & Eo)]|[Hc [-> ->]]]; [rewrite Ha in Ho; injection Ho as <-; eapply OW; eauto|].
    assert (SS : same_structure b a = true) by (apply same_structure_objects; split; congruence).
    assert (Sz : size a = size b) by (rewrite (R _ _ Ha), (R _ _ Hb); congruence).
    destruct (store a) as [v|p n|p n] eqn:Ea; [| |destruct (NC p n); exists a; auto].
    + destruct Hc as [Hc|Hc]; [eapply OW; eauto|]. subst c.
      assert (S : set_allvalues st x a vals = Ok (set_object st x (mk_object (points a) (inner_length a) (Own vals)))).
      { unfold set_allvalues. rewrite Ea. rewrite (allvalues_length _ _ _ V), <- Sz. unfold size. rewrite Ea, Nat.eqb_refl. reflexivity. }
      set (st' := set_object (set_object st x (mk_object (points a) (inner_length a) (Own vals))) x (mk_object (points b) (inner_length b) (Own vals))).
      assert (Q1 : shows st' x ptsx innerx vals) by (eexists; cbn; rewrite upd_same; split; [reflexivity|auto]).
      assert (Q2 : shows st' y ptsx innerx vals).
      { destruct (Nat.eq_dec y x) as [->|N]; [exact Q1|]. exists b. cbn. rewrite !upd_other by auto. auto. }
      exists st'. split; [cbn [exec]; unfold lookup; rewrite Ha; cbn [obind]; rewrite Hb; cbn [obind]; rewrite SS; cbn [negb]; rewrite Ea, Ov, V; cbn [obind]; rewrite S; reflexivity|].
      split; auto. split; auto. eapply EQ; eauto.
    + assert (S : exists st1, set_allvalues st x a vals = Ok st1).
      { unfold set_allvalues. rewrite Ea, (allvalues_length _ _ _ V), <- Sz. unfold size. rewrite Ea, Nat.eqb_refl.
        destruct (write_Ok (arrays st) p vals) as [m ->]; [|cbn; eauto]. exists valsx. rewrite (allvalues_length _ _ _ V), <- Sz. unfold size, allvalues in *. rewrite Ea in *. auto. }
      destruct S as [st1 S]. assert (V1 : allvalues st1 b = Ok vals).
      { apply (assigned_source st a b x vals st1 Ha V); [rewrite Ea; exact Ov|exact Sz|intros s E; congruence|exact S]. }
      destruct (set_allvalues_spec _ _ _ _ _ Ha S) as (F & _ & s & S1 & S2 & S3).
      rewrite Ea in S2. destruct s as [|p' n'|]; try destruct S2. subst p' n'.
      set (st' := set_object st1 x (mk_object (points b) (inner_length b) (View p n))).
      assert (Q1 : shows st' x ptsx innerx vals) by (eexists; cbn; rewrite upd_same; split; [reflexivity|]; split; [auto|]; split; [auto|]; exact S3).
      assert (Q2 : shows st' y ptsx innerx vals).
      { destruct (Nat.eq_dec y x) as [->|N]; [exact Q1|]. exists b. cbn. rewrite upd_other by auto. rewrite (fr_objects _ _ _ _ F) by auto. auto. }
      exists st'. split; [|split; auto; split; auto; eapply EQ; eauto].
      destruct Hc as [->| ->]; cbn [exec]; unfold lookup; rewrite Ha; cbn [obind]; rewrite Hb; cbn [obind]; rewrite ?Ea, SS; cbn [negb]; rewrite ?Ea, Ov, V; cbn [obind]; rewrite S; reflexivity.
  - intros (p & n & o & Ho & Eo) D. rewrite Ha in Ho. injection Ho as <-. cbn [exec]. unfold lookup. rewrite Ha. cbn [obind]. rewrite Hb. cbn [obind]. rewrite Eo.
    destruct (same_structure b a) eqn:SS; [|reflexivity]. apply same_structure_objects in SS. destruct D. split; intuition congruence.
  - intros D. cbn [exec]. unfold lookup. rewrite Ha. cbn [obind]. rewrite Hb. cbn [obind].
    destruct (same_structure b a) eqn:SS; [|reflexivity]. apply same_structure_objects in SS. destruct D. split; intuition congruence.
Qed.
Print Assumptions C88_assign.

(** Comparison. *)
Theorem C88_equal : forall st x y pts inner vals pts' inner' vals', rows_fit st ->
  shows st x pts inner vals -> shows st y pts' inner' vals' ->
  exists r, equal st x y = Ok r /\ (r = true <-> pts = pts' /\ inner = inner' /\ vals = vals').
Proof.
  intros st x y pts inner vals pts' inner' vals' R (a & Ha & <- & <- & Va) (b & Hb & <- & <- & Vb).
  unfold equal, lookup. rewrite Ha. cbn [obind]. rewrite Hb. cbn [obind]. destruct (same_structure a b) eqn:SS; cbn [negb].
  - apply same_structure_objects in SS. destruct SS as [I P]. rewrite Va. cbn [obind]. rewrite Vb. cbn [obind].
    assert (L : length vals = length vals') by (rewrite (allvalues_length _ _ _ Va), (allvalues_length _ _ _ Vb), (R _ _ Ha), (R _ _ Hb); congruence).
    rewrite L, Nat.eqb_refl. cbn [negb]. eexists. split; [reflexivity|]. rewrite eq_forallb by auto. tauto.
  - eexists. split; [reflexivity|]. split; [discriminate|]. intros (P & I & _). rewrite (proj2 (same_structure_objects a b)) in SS by auto. discriminate.
Qed.
Print Assumptions C88_equal.

(** reset_values lets a ConstMappedInterpolatingVector look at another array of the same length. *)
Theorem C88_reset : forall st x p n q m, const_maps st x p n ->
  (m <> n -> exec st (ResetValues x q m) = Exc) /\
  (m = n -> exists st', exec st (ResetValues x q m) = Ok st' /\ const_maps st' x q n /\ (forall a, arrays st' a = arrays st a) /\
     forall pts inner vals v, shows st x pts inner vals -> read (arrays st) q n = Ok v -> shows st' x pts inner v).
Proof.
  intros st x p n q m (o & Ho & Es). cbn [exec]. unfold lookup. rewrite Ho. cbn [obind]. rewrite Es. split.
  - intro N. rewrite (proj2 (Nat.eqb_neq _ _)) by auto. reflexivity.
  - intros ->. rewrite Nat.eqb_refl. cbn [negb]. eexists. split; [reflexivity|]. split; [|split; [reflexivity|]].
    + eexists. cbn. rewrite upd_same. split; reflexivity.
    + intros pts inner vals v (o' & Ho' & P & I & _) Rd. rewrite Ho in Ho'. injection Ho' as <-. eexists. cbn. rewrite upd_same. split; [reflexivity|]. auto.
Qed.
Print Assumptions C88_reset.

(** Moving: the target shows what the source showed; after move construction the source is an empty
    vector. *)
Theorem C88_move : forall st x y pts inner vals, x <> y -> shows st y pts inner vals -> owns st y ->
  (exists st', exec st (MoveNew x y) = Ok st' /\ shows st' x pts inner vals /\ shows st' y [] 0 []) /\
  (owns st x -> exists st' w, exec st (MoveAssign x y) = Ok st' /\ shows st' x pts inner vals /\ shows st' y [] 0 w).
Proof.
  intros st x y pts inner vals N (b & Hb & P & I & V) (b' & v & Hb' & Eb). rewrite Hb in Hb'. injection Hb' as <-.
  assert (v = vals) as -> by (unfold allvalues in V; rewrite Eb in V; congruence). cbn [exec]. unfold lookup. rewrite Hb. cbn [obind]. rewrite Eb. split.
  - eexists. split; [reflexivity|]. split.
    + exists b. cbn. rewrite upd_same. unfold allvalues. rewrite Eb. auto.
    + eexists. cbn. rewrite upd_other, upd_same by auto. split; [reflexivity|]. auto.
  - intros (a & w & Ha & Ea). rewrite (proj2 (Nat.eqb_neq _ _)) by auto. rewrite Ha. cbn [obind]. rewrite Ea.
    eexists. exists w. split; [reflexivity|]. split.
    + exists b. cbn. rewrite upd_same. unfold allvalues. rewrite Eb. auto.
    + eexists. cbn. rewrite upd_other, upd_same by auto. split; [reflexivity|]. auto.
Qed.
Print Assumptions C88_move.

(** interpolate_from between objects that do not share memory is the function of C03. *)
Theorem C88_interpolate : forall st x y a b va vb st', x <> y ->
  objects st x = Some a -> allvalues st a = Ok va -> objects st y = Some b -> allvalues st b = Ok vb ->
  (forall ar k, may_write st (InterpolateFrom x y) ar k -> apart b ar k) -> exec st (InterpolateFrom x y) = Ok st' ->
  exists v, interpolate_from (mk_ivec (points a) (inner_length a) va) (mk_ivec (points b) (inner_length b) vb) = Ok (mk_ivec (points a) (inner_length a) v) /\
    shows st' x (points a) (inner_length a) v.
Proof.
  intros st x y a b va vb st' N Ha Va Hb Vb Ap H. cbn [exec] in H. unfold lookup in H. rewrite Ha in H. cbn [obind] in H. rewrite Hb in H. cbn [obind] in H.
  unfold interpolate_from. cbn [ipoints iinner]. destruct (negb _); [discriminate|].
  apply obind_Ok in H. destruct H as (s0 & -> & H). apply obind_Ok in H. destruct H as (d0 & -> & H). cbn [obind].
  destruct (Rltb d0 s0); [discriminate|]. destruct (Rltb _ _); [discriminate|].
  apply (steps_loop x y (points a) st 0%nat st' a va b vb N Ha Va Hb Vb); auto.
  intros ar k Hc. apply Ap. right. destruct (store a) as [|[[c off]|] n|] eqn:E; cbn in Hc; try tauto. destruct Hc as [-> Hk].
  exists x, off, n. split; [reflexivity|]. split; [exists a; auto|auto].
Qed.
Print Assumptions C88_interpolate.

(** push_to_index also replaces the point. *)
Theorem C88_push_to_index : forall st x i t r st', exec st (PushToIndex x i t r) = Ok st' ->
  exists pts pts' inner vals vals', shows st x pts inner vals /\ shows st' x pts' inner vals' /\
    (0 <= i < Z.of_nat (length pts))%Z /\ length pts' = length pts /\
    (forall k, nth k pts' 0 = if (k =? Z.to_nat i)%nat then t else nth k pts 0) /\
    (forall j, row inner j vals' = if (j =? Z.to_nat i)%nat then r else row inner j vals).
Proof.
  intros st x i t r st' H. cbn [exec] in H. apply obind_Ok in H. destruct H as (st1 & S & H). apply obind_Ok in H. destruct H as (o1 & Ho1 & H).
  apply lookup_Ok in Ho1. destruct (set_point (points o1) (Z.to_nat i) t) as [pts'| |] eqn:P; try discriminate H. cbn in H. injection H as <-.
  destruct (C88_write_timestep _ _ _ _ _ S) as (pts & inner & vals & vals' & S0 & (o' & Ho' & P' & I' & V') & _ & I & Rw & _).
  rewrite Ho1 in Ho'. injection Ho' as <-. apply set_point_spec in P. destruct P as (P0 & P1 & P2). rewrite P' in P0, P1, P2.
  exists pts, pts', inner, vals, vals'. split; auto. split; [|split; [lia|]; auto].
  eexists. cbn. rewrite upd_same. split; [reflexivity|]. split; [auto|]. split; [auto|]. unfold allvalues in *. cbn. exact V'.
Qed.
Print Assumptions C88_push_to_index.

(** As long as nothing is move-assigned, every vector keeps one row of values per point. *)
Theorem C88_sizes_partial : forall cs st st', rows_fit st -> (forall c, In c cs -> ~ moves c) -> exec_all st cs = Ok st' -> rows_fit st'.
Proof. intros cs st st' R N H. eapply rows_all; eauto. Qed.
Print Assumptions C88_sizes_partial.

Definition nothing : state := mk_state (fun _ => []) (fun _ => None).

(** Full statement: always.  A vector that was moved from by assignment keeps the other's old values, with inner
    length zero; comparing it with an empty vector is undefined. *)
Theorem C88_sizes_refuted : exists cs st', exec_all nothing cs = Ok st' /\ ~ rows_fit st' /\
  exists x y, equal st' x y = UB.
Proof.
  exists [New 0 Eigen_vector [0] 1 (fun _ => 7); New 1 Eigen_vector [0] 1 (fun _ => 8); MoveAssign 0 1; New 2 Eigen_vector [] 0 (fun _ => 0)].
  assert (S : is_sorted [0] = true) by reflexivity.
  eexists. split; [unfold exec_all; cbn; reflexivity|]. split.
  - intro R. specialize (R 1%nat _ eq_refl). discriminate R.
  - exists 1%nat, 2%nat. reflexivity.
Qed.
Print Assumptions C88_sizes_refuted.

(** Full statement: push_to_index throws if there is no such point, and leaves the points sorted.  With inner length
    zero it writes beyond the points; and it accepts any point. *)
Theorem C88_push_range_refuted : exists cs st i t, exec_all nothing cs = Ok st /\ rows_fit st /\
  shows st 0 [0; 1] 0 [] /\ (Z.of_nat (length [0; 1]) <= i)%Z /\ exec st (PushToIndex 0 i t []) = UB.
Proof.
  exists [New 0 Eigen_vector [0; 1] 0 (fun _ => 0)]. eexists. exists 5%Z, 2.
  assert (S : is_sorted [0; 1] = true) by (cbn; unfold Rltb; destruct (Rlt_dec 1 0); [lra|reflexivity]).
  split; [unfold exec_all; cbn [ofold exec base_ctor]; rewrite S; cbn; reflexivity|]. split.
  - intros x o Hx. cbn in Hx. unfold upd in Hx. destruct (x =? 0)%nat; [|discriminate]. injection Hx as <-. reflexivity.
  - split; [eexists; split; [reflexivity|]; auto|]. split; [cbn; lia|]. reflexivity.
Qed.
Print Assumptions C88_push_range_refuted.

Theorem C88_push_sorted_refuted : exists cs st st' pts, exec_all nothing cs = Ok st /\
  shows st 0 [0; 1] 1 [3; 4] /\ exec st (PushToIndex 0 0 2 [5]) = Ok st' /\ shows st' 0 pts 1 [5; 4] /\ is_sorted pts = false.
Proof.
  exists [New 0 Eigen_vector [0; 1] 1 (fun k => 3 + INR k)]. eexists. eexists. exists [2; 1].
  assert (S : is_sorted [0; 1] = true) by (cbn; unfold Rltb; destruct (Rlt_dec 1 0); [lra|reflexivity]).
  split; [unfold exec_all; cbn [ofold exec base_ctor]; rewrite S; cbn; reflexivity|].
  split; [eexists; split; [reflexivity|]; split; [reflexivity|]; split; [reflexivity|]; cbn; do 2 f_equal; [lra|f_equal; lra]|].
  split; [reflexivity|]. split; [eexists; split; [reflexivity|]; split; [reflexivity|]; split; [reflexivity|]; cbn; do 3 f_equal; lra|].
  cbn. unfold Rltb. destruct (Rlt_dec 1 2); [reflexivity|lra].
Qed.
Print Assumptions C88_push_sorted_refuted.

(** A case: an array, a MappedInterpolatingVector and a ConstMappedInterpolatingVector on it, a copy of the
    latter; after writing through the first the second shows the new values, the copy the old ones. *)
Example C88_case : exists st st', 
  exec_all (mk_state (fun a => if (a =? 0)%nat then [1; 2; 3] else []) (fun _ => None))
    [NewMapped 0 Eigen_vector [0] 2 (Some (0, 0)%nat) 2; NewConstMapped 1 Eigen_vector [0] 2 (Some (0, 1)%nat) 2; CopyNew 2 1] = Ok st /\
  rows_fit st /\ shows st 1 [0] 2 [2; 3] /\ exec st (SetTimestep 0 0 [8; 9]) = Ok st' /\
  shows st' 0 [0] 2 [8; 9] /\ shows st' 1 [0] 2 [9; 3] /\ shows st' 2 [0] 2 [2; 3] /\ arrays st' 0%nat = [8; 9; 3].
Proof.
  eexists. eexists. split; [reflexivity|]. split.
  { intros x o Hx. cbn in Hx. unfold upd in Hx. destruct (x =? 2)%nat; [injection Hx as <-; reflexivity|].
    destruct (x =? 1)%nat; [injection Hx as <-; reflexivity|]. destruct (x =? 0)%nat; [injection Hx as <-; reflexivity|discriminate]. }
  split; [eexists; split; [reflexivity|]; auto|]. split; [reflexivity|].
  repeat (split; [eexists; split; [reflexivity|]; auto|]). reflexivity.
Qed.
