(** * C89: constraint Jacobians with and without memory of their own *)
From Coq Require Import List Arith Reals Bool Lia Lra.
From Verif Require Import Base Interp_Model Defaults_Model Jac_Model Jac_Spec Jac_Proofs Jac_Props Views_Model Views_Proofs Views_Proofs3
  Jacview_Model Jacview_Spec Jacview_Proofs Jacview_Proofs2.
Import ListNotations.
Open Scope R_scope.

Lemma proper_width l : proper_layout l -> (outer_width l =? 0)%nat = false.
Proof.
  intros (bh & bw & cons & ctrl & Hc & Hu & Hne & E).
  destruct (make_data_ok bh bw cons ctrl Hc Hu Hne) as (l' & E' & Hbh & Hbw & Hlen & Ho0 & Ho). assert (l' = l) by congruence. subst l'.
  rewrite (l_outer_width ctrl bh bw l Hbh Hbw Hlen Ho0). apply Nat.eqb_neq. destruct ctrl; cbn; [congruence|lia].
Qed.

Lemma shown_matrix st x l v : proper_layout l -> jshows st x l v -> matrix_of st x = Ok (whole_matrix l (fun k => nth k v 0)).
Proof.
  intros P (o & Ho & L & G). unfold matrix_of, jlookup. rewrite Ho. cbn [obind]. rewrite L in *. rewrite (proper_width l P), G. reflexivity.
Qed.

(** A command changes only the object it is applied to and only the cells of arrays which that object maps;
    every other Jacobian keeps its matrix unless it maps one of these cells. *)
Theorem C89_frame st c st' : jfit st -> proper_command c -> jexec st c = Ok st' ->
  jfit st' /\
  (forall y, ~ japplied_to c y -> jacobians st' y = jacobians st y) /\
  (forall a, length (jarrays st' a) = length (jarrays st a)) /\
  (forall a k, ~ jmay_write st c a k -> nth k (jarrays st' a) 0 = nth k (jarrays st a) 0) /\
  (forall y o, ~ japplied_to c y -> jacobians st y = Some o -> (forall a k, jmay_write st c a k -> japart o a k) ->
     matrix_of st' y = matrix_of st y).
Proof.
  intros Fi PC H. destruct (jexec_frame _ _ _ Fi PC H) as [F Fi']. split; auto. split; [|split; [|split]].
  - apply (jf_objects _ _ _ _ F).
  - apply (jf_length _ _ _ _ F).
  - apply (jf_cells _ _ _ _ F).
  - intros y o Ny Ho Ap. unfold matrix_of, jlookup. rewrite (jf_objects _ _ _ _ F y Ny), Ho. cbn [obind].
    rewrite (frame_get _ _ o _ _ F Ap). reflexivity.
Qed.
Print Assumptions C89_frame.

Lemma run_frame cs : forall st st' x, jfit st -> (forall c, In c cs -> proper_command c /\ ~ japplied_to c x) -> jexec_all st cs = Ok st' ->
  jfit st' /\ jacobians st' x = jacobians st x.
Proof.
  induction cs as [|c cs IH]; intros st st' x Fi A H; cbn in H.
  - injection H as <-. auto.
  - apply obind_Ok in H. destruct H as (st1 & H1 & H2). destruct (A c (or_introl eq_refl)) as [PC NA].
    destruct (jexec_frame _ _ _ Fi PC H1) as [F Fi1]. destruct (IH st1 st' x Fi1) as [Fi' E]; auto.
    { intros c' Hc'. apply A. right. auto. }
    split; auto. rewrite E. apply (jf_objects _ _ _ _ F). auto.
Qed.

(** A copy made by the copy constructor of ConstraintJacobian shows the values of its source, also if that maps
    foreign memory, and keeps them whatever is done to others. *)
Theorem C89_copy_independent st x y l v : jfit st -> jshows st y l v ->
  exists st1, jexec st (JCopy x y) = Ok st1 /\ jowns st1 x /\ jshows st1 x l v /\
    forall cs st2, (forall c, In c cs -> proper_command c /\ ~ japplied_to c x) -> jexec_all st1 cs = Ok st2 -> jshows st2 x l v.
Proof.
  intros Fi (o & Ho & L & G). pose proof (get_length _ _ _ G) as Lv.
  set (o' := mk_jacobian (lay o) (JOwn v)).
  assert (E : jexec st (JCopy x y) = Ok (set_jacobian st x o')).
  { cbn [jexec]. unfold jlookup. rewrite Ho. cbn [obind]. rewrite G. reflexivity. }
  assert (X : jacobians (set_jacobian st x o') x = Some o') by (cbn; unfold upd; rewrite Nat.eqb_refl; reflexivity).
  assert (Fo : fits o') by (split; [apply (proj1 (Fi _ _ Ho))|cbn; auto]).
  eexists. split; [exact E|]. split; [exists o', v; auto|]. split.
  - exists o'. split; auto. split; auto. apply get_own; auto.
  - intros cs st2 A H. destruct (jexec_frame _ _ _ Fi (I : proper_command (JCopy x y)) E) as [_ Fi1].
    destruct (run_frame cs _ _ x Fi1 A H) as [_ E2]. exists o'. rewrite E2. split; auto. split; auto. apply get_own; auto.
Qed.
Print Assumptions C89_copy_independent.

(** A copy of a MappedConstraintJacobian maps the same memory: whatever is written later through others, both
    show the same values and the same matrix. *)
Theorem C89_shared_copy st x y p : jfit st -> jmaps st y p ->
  exists st1, jexec st (JCopyMapped x y) = Ok st1 /\
    forall cs st2, (forall c, In c cs -> proper_command c /\ ~ japplied_to c x /\ ~ japplied_to c y) -> jexec_all st1 cs = Ok st2 ->
      (forall l v, jshows st2 x l v <-> jshows st2 y l v) /\ matrix_of st2 x = matrix_of st2 y.
Proof.
  intros Fi (o & n & Ho & Hs).
  assert (E : jexec st (JCopyMapped x y) = Ok (set_jacobian st x o)).
  { cbn [jexec]. unfold jlookup. rewrite Ho. cbn [obind]. rewrite Hs. reflexivity. }
  eexists. split; [exact E|]. intros cs st2 A H. destruct (jexec_frame _ _ _ Fi (I : proper_command (JCopyMapped x y)) E) as [_ Fi1].
  destruct (run_frame cs _ st2 x Fi1 (fun c Hc => conj (proj1 (A c Hc)) (proj1 (proj2 (A c Hc)))) H) as [_ E1].
  destruct (run_frame cs _ st2 y Fi1 (fun c Hc => conj (proj1 (A c Hc)) (proj2 (proj2 (A c Hc)))) H) as [_ E2].
  assert (Q : jacobians st2 x = jacobians st2 y).
  { rewrite E1, E2. cbn. unfold upd. rewrite Nat.eqb_refl. destruct (Nat.eqb_spec y x); auto. }
  split; [intros; unfold jshows; rewrite Q; tauto|]. unfold matrix_of, jlookup. rewrite Q. reflexivity.
Qed.
Print Assumptions C89_shared_copy.

(** Assignment: Jacobians of the same layout then show the same values and are equal; a different layout throws. *)
Theorem C89_assign st x y la lb v w : jfit st -> jshows st x la v -> jshows st y lb w ->
  (forall a b, jacobians st x = Some a -> jacobians st y = Some b -> joverlapping a b = false) ->
  (la = lb -> exists st', jexec st (JAssign x y) = Ok st' /\ jshows st' x lb w /\ jshows st' y lb w /\
     matrix_of st' x = matrix_of st y /\ matrix_of st' y = matrix_of st y /\ jequal st' x y = Ok true) /\
  (la <> lb -> jexec st (JAssign x y) = Exc).
Proof.
  intros Fi (a & Ha & La & Ga) (b & Hb & Lb & Gb) Ov. subst la lb. split.
  - intro SL. destruct (assign_ok st x y a b v w Fi Ha Hb SL Ga Gb (Ov a b Ha Hb)) as (st' & E & X & Y & _).
    exists st'. pose proof (proj1 (Fi _ _ Hb)) as PL. split; auto. split; auto. split; auto.
    rewrite !(shown_matrix _ _ _ _ PL X), (shown_matrix _ _ _ _ PL Y). rewrite (shown_matrix st y (lay b) w PL) by (exists b; auto).
    split; auto. split; auto. destruct X as (a' & A1 & A2 & A3), Y as (b' & B1 & B2 & B3).
    unfold jequal, jlookup. rewrite A1, B1. cbn [obind]. rewrite A2, B2, (proj2 (same_layout_iff _ _) eq_refl). cbn [negb]. rewrite A3, B3. cbn [obind].
    f_equal. apply (proj2 (eq_forallb w w eq_refl)). reflexivity.
  - intro N. cbn [jexec]. unfold jlookup. rewrite Ha. cbn [obind]. rewrite Hb. cbn [obind].
    destruct (same_layout (lay a) (lay b)) eqn:S; auto. apply same_layout_iff in S. contradiction.
Qed.
Print Assumptions C89_assign.

(** Equality is equality of layouts and values; comparing never changes anything. *)
Theorem C89_equal st x y la lb v w : jshows st x la v -> jshows st y lb w ->
  exists b, jequal st x y = Ok b /\ (b = true <-> la = lb /\ v = w).
Proof.
  intros (a & Ha & La & Ga) (b & Hb & Lb & Gb). subst la lb. unfold jequal, jlookup. rewrite Ha, Hb. cbn [obind].
  destruct (same_layout (lay a) (lay b)) eqn:S; cbn [negb].
  - apply same_layout_iff in S. rewrite Ga, Gb. cbn [obind]. eexists. split; [reflexivity|].
    rewrite (eq_forallb v w); [tauto|]. rewrite (get_length _ _ _ Ga), (get_length _ _ _ Gb), S. auto.
  - exists false. split; auto. split; [discriminate|]. intros [E _]. apply (proj2 (same_layout_iff _ _)) in E. congruence.
Qed.
Print Assumptions C89_equal.

(** As long as the pointer is null, every access to the values throws. *)
Theorem C89_null st x o n : jfit st -> jacobians st x = Some o -> jstore o = JView None n ->
  matrix_of st x = Exc /\ jexec st (JSetZero x) = Exc /\ jexec st (JSetOnes x) = Exc /\
  (forall j B, (j < outer_width (lay o))%nat -> jexec st (JWriteColumn x j B) = Exc) /\
  (forall y, jexec st (JCopy y x) = Exc) /\
  (forall y o', jacobians st y = Some o' -> jexec st (JAssign x y) = Exc /\ jexec st (JAssign y x) = Exc).
Proof.
  intros Fi Ho Hs. assert (N : has_values o = Exc) by (unfold has_values; rewrite Hs; reflexivity).
  assert (G : get_allvalues st o = Exc) by (unfold get_allvalues; rewrite N; reflexivity).
  assert (W : forall z s v, write_part st z o s v = Exc) by (intros; unfold write_part; rewrite N; reflexivity).
  unfold matrix_of. cbn [jexec]. unfold jlookup. rewrite Ho. cbn [obind]. rewrite (proper_width _ (proj1 (Fi _ _ Ho))), G.
  split; [reflexivity|]. split; [apply W|]. split; [apply W|]. split; [|split].
  - intros j B Hj. apply Nat.ltb_lt in Hj. rewrite Hj. cbn [negb]. apply W.
  - intro y. reflexivity.
  - intros y o' Hy. rewrite Hy. cbn [obind]. rewrite N. split.
    + destruct (same_layout (lay o) (lay o')); reflexivity.
    + destruct (same_layout (lay o') (lay o)); cbn [negb]; auto. unfold has_values. destruct (jstore o') as [|[|] ?]; reflexivity.
Qed.
Print Assumptions C89_null.

(** Filling column block [j] sets exactly the entries of that block. *)
Theorem C89_write_column st x l v j B : jfit st -> jshows st x l v -> (j < outer_width l)%nat ->
  exists st' M M', jexec st (JWriteColumn x j B) = Ok st' /\ matrix_of st x = Ok M /\ matrix_of st' x = Ok M' /\
    (forall row col, in_column_block l j row col -> M' row col = B (row - inner_rowstart l j)%nat (col - j * block_width l)%nat) /\
    (forall row col, ~ in_column_block l j row col -> M' row col = M row col).
Proof.
  intros Fi (o & Ho & L & G) Hj. subst l. pose proof (proj1 (Fi _ _ Ho)) as PL.
  set (blk := row_major (inner_col_height (lay o) j) (block_width (lay o)) B).
  assert (Lb : (inner_column_offset (lay o) j + length blk <= nonZeros (lay o))%nat).
  { unfold blk. rewrite row_major_length. apply column_fits; auto. }
  destruct (write_part_total st x o (inner_column_offset (lay o) j) blk Ho (Fi _ _ Ho) Lb) as [st' W]; [eauto|].
  destruct (write_part_spec _ _ _ _ _ _ Ho (Fi _ _ Ho) Lb W) as (_ & s & S1 & S2 & _ & S4). specialize (S4 v G).
  assert (X : jshows st' x (lay o) (firstn (inner_column_offset (lay o) j) v ++ blk ++ skipn (inner_column_offset (lay o) j + length blk) v)).
  { exists (mk_jacobian (lay o) s). auto. }
  do 3 eexists. split; [|split; [apply (shown_matrix st x (lay o) v PL); exists o; auto|split; [apply (shown_matrix _ _ _ _ PL X)|]]].
  - cbn [jexec]. unfold jlookup. rewrite Ho. cbn [obind]. rewrite (proj2 (Nat.ltb_lt _ _) Hj). cbn [negb]. exact W.
  - pose proof (column_matrix (lay o) j B v PL Hj (get_length _ _ _ G)) as C. cbn zeta in C.
    split; intros row col H; apply C; auto.
Qed.
Print Assumptions C89_write_column.

(** setZero and setOnes: every stored entry gets the value, all others are zero. *)
Theorem C89_set_values st x l v : jfit st -> jshows st x l v ->
  (exists st' M, jexec st (JSetZero x) = Ok st' /\ matrix_of st' x = Ok M /\ forall row col, M row col = 0) /\
  (exists st' M, jexec st (JSetOnes x) = Ok st' /\ matrix_of st' x = Ok M /\
     forall row col, (In (row, col) (supply_indices l) -> M row col = 1) /\ (~ In (row, col) (supply_indices l) -> M row col = 0)).
Proof.
  intros Fi (o & Ho & L & G). subst l. pose proof (proj1 (Fi _ _ Ho)) as PL. pose proof (get_length _ _ _ G) as Lv.
  assert (A : forall w, length w = nonZeros (lay o) -> exists st', write_part st x o 0 w = Ok st' /\ jshows st' x (lay o) w).
  { intros w Lw. assert (B : (0 + length w <= nonZeros (lay o))%nat) by (rewrite Lw; auto).
    destruct (write_part_total st x o 0 w Ho (Fi _ _ Ho) B) as [st' W]; [eauto|]. exists st'. split; auto.
    destruct (write_part_spec _ _ _ _ _ _ Ho (Fi _ _ Ho) B W) as (_ & s & S1 & _ & _ & S4). specialize (S4 v G).
    rewrite whole_splice in S4 by congruence. exists (mk_jacobian (lay o) s). auto. }
  assert (R : forall r k, (k < nonZeros (lay o))%nat -> nth k (repeat r (nonZeros (lay o))) 0 = r).
  { intros r k H. apply (repeat_spec (nonZeros (lay o)) r). apply nth_In. rewrite repeat_length. auto. }
  pose proof PL as (bh & bw & cons & ctrl & Hc & Hu & Hne & E).
  destruct (C07_index_lists bh bw cons ctrl Hc Hu Hne) as (l' & E' & Ls & _ & Ii & Wv & Wz & _). assert (l' = lay o) by congruence. subst l'.
  assert (M : forall r row col, (In (row, col) (supply_indices (lay o)) -> whole_matrix (lay o) (fun k => nth k (repeat r (nonZeros (lay o))) 0) row col = r) /\
     (~ In (row, col) (supply_indices (lay o)) -> whole_matrix (lay o) (fun k => nth k (repeat r (nonZeros (lay o))) 0) row col = 0)).
  { intros r row col. split; intro H.
    - destruct (In_nth_error _ _ H) as [k Hk]. rewrite (Wv _ _ _ _ Hk). apply R. rewrite <- Ls. apply nth_error_Some. congruence.
    - apply Wz. rewrite <- Ii. exact H. }
  cbn [jexec]. unfold jlookup. rewrite Ho. cbn [obind]. split.
  - destruct (A (repeat 0 (nonZeros (lay o)))) as (st' & W & S); [apply repeat_length|]. exists st'. eexists. split; [exact W|].
    split; [apply (shown_matrix _ _ _ _ PL S)|]. intros row col. destruct (classic_entry (lay o) row col) as [[k Hk]|N].
    + apply (proj1 (M 0 row col)). eapply nth_error_In; eauto.
    + apply (proj2 (M 0 row col)). auto.
  - destruct (A (repeat 1 (nonZeros (lay o)))) as (st' & W & S); [apply repeat_length|]. exists st'. eexists. split; [exact W|].
    split; [apply (shown_matrix _ _ _ _ PL S)|]. apply M.
Qed.
Print Assumptions C89_set_values.

(** Handing values over: replace_storage to the array of the caller followed by an assignment puts into cell
    off + k of the array the entry of the matrix whose indices are the k-th ones of supply_indices; nothing else
    of the arrays changes. *)
Theorem C89_handover st x y o n arr off l w : jfit st -> jacobians st x = Some o -> lay o = l -> jstore o = JView n (nonZeros l) -> x <> y ->
  jshows st y l w -> (forall a k, (a = arr /\ off <= k < off + nonZeros l)%nat -> forall b, jacobians st y = Some b -> japart b a k) ->
  (off + nonZeros l <= length (jarrays st arr))%nat ->
  exists st' M, jexec_all st [JReplace x (Some (arr, off)) (nonZeros l); JAssign x y] = Ok st' /\ matrix_of st y = Ok M /\
    (forall k row col, nth_error (supply_indices l) k = Some (row, col) -> nth (off + k) (jarrays st' arr) 0 = M row col) /\
    (forall a k, ~ (a = arr /\ off <= k < off + nonZeros l)%nat -> nth k (jarrays st' a) 0 = nth k (jarrays st a) 0) /\
    matrix_of st' x = Ok M /\ matrix_of st' y = Ok M.
Proof.
  intros Fi Ho L Hs Nxy Y Ap Room. subst l. pose proof (proj1 (Fi _ _ Ho)) as PL.
  set (o1 := mk_jacobian (lay o) (JView (Some (arr, off)) (nonZeros (lay o)))). set (st1 := set_jacobian st x o1).
  assert (E1 : jexec st (JReplace x (Some (arr, off)) (nonZeros (lay o))) = Ok st1).
  { cbn [jexec]. unfold jlookup. rewrite Ho. cbn [obind]. rewrite Hs, Nat.eqb_refl. reflexivity. }
  destruct (jexec_frame _ _ _ Fi (I : proper_command (JReplace x (Some (arr, off)) (nonZeros (lay o)))) E1) as [_ Fi1].
  destruct Y as (b & Hb & Lb & Gb).
  assert (X1 : jacobians st1 x = Some o1) by (cbn; unfold upd; rewrite Nat.eqb_refl; reflexivity).
  assert (Y1 : jacobians st1 y = Some b) by (cbn; unfold upd; destruct (Nat.eqb_spec y x); [congruence|auto]).
  assert (G1 : exists v, get_allvalues st1 o1 = Ok v).
  { unfold get_allvalues, has_values, read. cbn. destruct (Nat.eqb_spec (nonZeros (lay o)) 0); eauto. rewrite (proj2 (Nat.leb_le _ _) Room). eauto. }
  destruct G1 as [v G1].
  assert (Gb1 : get_allvalues st1 b = Ok w) by (rewrite <- Gb; reflexivity).
  assert (Ov : joverlapping o1 b = false).
  { unfold joverlapping. cbn [jstore o1]. destruct (jstore b) as [|[[q qo]|] m] eqn:Eb; auto. cbn [overlapping lay o1]. rewrite Lb.
    destruct (Nat.eqb_spec arr q) as [->|]; auto. cbn [andb]. destruct (Nat.eqb_spec off qo) as [->|No]; [reflexivity|]. cbn [andb negb].
    destruct (Nat.ltb_spec off (qo + nonZeros (lay o))); [|reflexivity]. destruct (Nat.ltb_spec qo (off + nonZeros (lay o))); [|reflexivity]. exfalso.
    assert (Q : forall k, (off <= k < off + nonZeros (lay o))%nat -> japart b q k) by (intros; apply Ap; auto).
    unfold japart in Q. rewrite Eb, Lb in Q. destruct (Q (Nat.max off qo)) as [?|[?|?]]; lia. }
  destruct (assign_ok st1 x y o1 b v w Fi1 X1 Y1 (eq_sym Lb) G1 Gb1 Ov) as (st' & E2 & SX & SY & K).
  destruct (jexec_frame _ _ _ Fi1 (I : proper_command (JAssign x y)) E2) as [F _].
  rewrite Lb in SX, SY.
  exists st', (whole_matrix (lay o) (fun k => nth k w 0)). split; [cbn [jexec_all ofold]; unfold jexec_all; cbn [ofold]; rewrite E1; cbn [obind]; rewrite E2; reflexivity|].
  split; [apply shown_matrix; auto; exists b; auto|]. split; [|split; [|split; apply shown_matrix; auto]].
  - intros k row col Hk. destruct (K _ _ eq_refl) as (o2 & O1 & O2 & O3). destruct SX as (o2' & O1' & _ & G2). assert (o2' = o2) by congruence. subst o2'.
    destruct PL as (bh & bw & cons & ctrl & Hc & Hu & Hne & E).
    destruct (C07_index_lists bh bw cons ctrl Hc Hu Hne) as (l' & E' & Ls & _ & _ & Wv & _). assert (l' = lay o) by congruence. subst l'.
    rewrite (Wv _ _ _ _ Hk). unfold get_allvalues, has_values in G2. rewrite O2, O3 in G2. cbn [obind lay o1] in G2. unfold read in G2.
    assert (Kn : (k < nonZeros (lay o))%nat) by (rewrite <- Ls; apply nth_error_Some; congruence).
    destruct (Nat.eqb_spec (nonZeros (lay o)) 0); [lia|]. destruct (off + nonZeros (lay o) <=? length (jarrays st' arr))%nat; [|discriminate].
    injection G2 as <-. rewrite Views_Proofs.nth_firstn, Views_Proofs.nth_skipn by lia. reflexivity.
  - intros a k N. rewrite (jf_cells _ _ _ _ F a k); [reflexivity|]. intros [[r Q]|(z & oz & off' & n' & Z1 & Z2 & Z3 & Z4)]; [discriminate|].
    cbn in Z1. subst z. rewrite X1 in Z2. injection Z2 as <-. cbn in Z3, Z4. injection Z3 as -> -> _. auto.
Qed.
Print Assumptions C89_handover.

(** Three constraint and three control points with blocks of size 1 x 2: a Jacobian with storage, one with a null
    pointer, and an array with room for the values at position 2.  The second column block is filled with 7 and
    the values are handed over. *)
Example C89_case : exists l, made_for 1 2 [1; 2; 5/2] [1; 2; 5/2] l /\ (0 < nonZeros l)%nat /\
  let st := mk_jstate (fun a => if (a =? 5)%nat then repeat 4 (nonZeros l + 3) else [])
    (fun x => if (x =? 0)%nat then Some (mk_jacobian l (JOwn (repeat 0 (nonZeros l))))
              else if (x =? 1)%nat then Some (mk_jacobian l (JView None (nonZeros l))) else None) in
  jfit st /\ jexec st (JAssign 1 0) = Exc /\
  exists st', jexec_all st [JWriteColumn 0 1 (fun _ _ => 7); JReplace 1 (Some (5, 2)%nat) (nonZeros l); JAssign 1 0] = Ok st' /\
    nth 0 (jarrays st' 5%nat) 0 = 4 /\ nth (nonZeros l + 2) (jarrays st' 5%nat) 0 = 4 /\
    (exists k row, nth_error (supply_indices l) k = Some (row, 2%nat) /\ nth (2 + k) (jarrays st' 5%nat) 0 = 7) /\
    (exists k row, nth_error (supply_indices l) k = Some (row, 0%nat) /\ nth (2 + k) (jarrays st' 5%nat) 0 = 0).
Proof.
  destruct C07_example as (N1 & N2 & Ne & MD & _).
  destruct (C07_index_lists 1 2 _ _ N1 N2 Ne) as (l & E & Ls & Nd & Ii & Wv & _).
  destruct (make_data_ok 1 2 _ _ N1 N2 Ne) as (l' & E' & Hbh & Hbw & Hlen & Ho0 & Ho). assert (l' = l) by congruence. subst l'.
  assert (Ow : outer_width l = 3%nat) by (rewrite (l_outer_width _ 1 2 l Hbh Hbw Hlen Ho0); reflexivity).
  assert (PL : proper_layout l) by (exists 1%nat, 2%nat, [1; 2; 5/2], [1; 2; 5/2]; repeat split; auto).
  assert (In2 : In (1, 2)%nat (supply_indices l)).
  { apply Ii. exists 1%nat, 0%nat, 1%nat, 0%nat. repeat split; auto; apply MD. }
  assert (In0 : In (0, 0)%nat (supply_indices l)).
  { apply Ii. exists 0%nat, 0%nat, 0%nat, 0%nat. repeat split; auto; cbn; lia. }
  assert (NZ : (0 < nonZeros l)%nat) by (rewrite <- Ls; destruct (supply_indices l); cbn in *; [tauto|lia]).
  exists l. split; [split; auto|]. split; auto. intro st.
  assert (Fi : jfit st).
  { intros [|[|x]] o H; cbn in H; [injection H as <-|injection H as <-|discriminate]; cbn; rewrite ?repeat_length; auto. }
  split; auto. split.
  { apply (proj1 (proj2 (proj2 (proj2 (proj2 (proj2 (C89_null st 1 _ _ Fi eq_refl eq_refl))))) 0%nat _ eq_refl)). }
  assert (S0 : jshows st 0 l (repeat 0 (nonZeros l))).
  { eexists. split; [reflexivity|]. split; [reflexivity|]. apply get_own; [reflexivity|]. apply (Fi 0%nat). reflexivity. }
  destruct (C89_write_column st 0 l _ 1 (fun _ _ => 7) Fi S0 ltac:(lia)) as (st1 & M & M' & E1 & EM & EM' & W1 & W2).
  destruct (C89_frame st _ st1 Fi (I : proper_command (JWriteColumn 0 1 _)) E1) as (Fi1 & O1 & L1 & K1 & _).
  assert (X1 : jacobians st1 1%nat = Some (mk_jacobian l (JView None (nonZeros l)))) by (rewrite O1; [reflexivity|cbn; lia]).
  assert (A1 : forall a k, nth k (jarrays st1 a) 0 = nth k (jarrays st a) 0).
  { intros a k. apply K1. intros [[r Q]|(x & o & off & n & Q1 & Q2 & Q3 & _)]; [discriminate|]. cbn in Q1. subst x. cbn in Q2. injection Q2 as <-. discriminate. }
  assert (P1 : exists b u, jacobians st1 0%nat = Some b /\ lay b = l /\ jstore b = JOwn u).
  { cbn [jexec] in E1. unfold jlookup in E1. cbn [jacobians st Nat.eqb obind] in E1. destruct (negb _); [discriminate|].
    unfold write_part in E1. cbn in E1. destruct (_ <=? _)%nat; [|discriminate]. injection E1 as <-. cbn. do 2 eexists. repeat split; reflexivity. }
  destruct P1 as (b & u & B1 & B2 & B3).
  assert (S1 : jshows st1 0 l u).
  { exists b. split; auto. split; auto. apply get_own; auto. apply (Fi1 _ _ B1). }
  destruct (C89_handover st1 1 0 _ None 5 2 l u Fi1 X1 eq_refl eq_refl ltac:(lia) S1) as (st' & M2 & E2 & EM2 & H1 & H2 & _).
  { intros a k _ b' Hb'. assert (b' = b) by congruence. subst b'. unfold japart. rewrite B3. exact I. }
  { rewrite L1. cbn. rewrite repeat_length. lia. }
  assert (M2 = M') by congruence. subst M2.
  exists st'. split.
  { unfold jexec_all in *. cbn [ofold] in *. rewrite E1. cbn [obind]. exact E2. }
  split; [rewrite H2, A1 by lia; cbn; destruct (nonZeros l); reflexivity|]. split.
  { rewrite H2, A1 by lia. cbn [jarrays st Nat.eqb]. apply (repeat_spec (nonZeros l + 3) 4). apply nth_In. rewrite repeat_length. lia. }
  rewrite (shown_matrix st 0 l _ PL S0) in EM. injection EM as <-.
  split.
  - assert (H : (0 < inner_col_height l 1)%nat).
    { rewrite (l_inner_col_height _ _ 1 2 l Hbh Hbw Hlen Ho0 Ho) by (cbn; lia). 
      pose proof (proj1 (may_depend_iff _ _ 1 2 l N1 Hbh Hbw Hlen Ho0 1 1 ltac:(cbn; lia) ltac:(cbn; lia)) MD) as Q.
      set (h := col_height _ _ 1) in *. clearbody h. cbn [length] in Q. lia. }
    destruct (C07_column_blocks 1 2 _ _ l N1 N2 E 1 0 0 ltac:(cbn; lia) H ltac:(lia)) as [P _].
    exists (column_block_position l 1 0 0), (inner_rowstart l 1 + 0)%nat. split; auto. rewrite (H1 _ _ _ P). apply W1.
    unfold in_column_block. rewrite Hbw. lia.
  - destruct (In_nth_error _ _ In0) as [k Hk]. exists k, 0%nat. split; auto. rewrite (H1 _ _ _ Hk), W2.
    + rewrite (Wv _ _ _ _ Hk). destruct (Nat.lt_ge_cases k (nonZeros l)); [|apply nth_overflow; rewrite repeat_length; auto].
      apply (repeat_spec (nonZeros l) 0). apply nth_In. rewrite repeat_length. auto.
    + unfold in_column_block. rewrite Hbw. lia.
Qed.
