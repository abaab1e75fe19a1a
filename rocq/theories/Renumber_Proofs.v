(** The equations do not depend on numbers and directions. *)
From Coq Require Import Reals Lra Lia List Arith Bool Permutation.
From Coquelicot Require Import Coquelicot Complex.
From Verif Require Import Base Interp_Model Interp_Proofs Calc Euler_Model Euler_Spec Box_Model Net_Model Net_Spec Net_Proofs5 Net_Proofs8 Mass_Proofs Steady_Proofs
  Renumber_Spec.
Import ListNotations.
Local Open Scope R_scope.

Lemma rsum_perm {A} (f : A -> R) l l' : Permutation l l' -> rsum f l = rsum f l'.
Proof. induction 1; cbn [rsum]; lra. Qed.

(** ** Turning a cell around *)
Definition mirror (u v : vec) : Prop := v 0%nat = u 0%nat /\ v 1%nat = - u 1%nat.
Lemma source_mirror d k u v : mirror u v -> match source d k u with
  | Ok s => exists s', source d k v = Ok s' /\ s' 0%nat = s 0%nat /\ s' 1%nat = - s 1%nat
  | Exc => source d k v = Exc
  | UB => source d k v = UB
  end.
Proof.
  intros (H0 & H1). unfold source. rewrite H0, H1.
  assert (E : Reynolds (- u 1%nat) d = Reynolds (u 1%nat) d) by (unfold Reynolds; rewrite Rabs_Ropp; reflexivity).
  rewrite E. destruct (Rltb (Reynolds (u 1%nat) d) laminar_border).
  - eexists. split; [reflexivity|]. cbn. split; [reflexivity|]. unfold Rdiv. ring.
  - destruct (lambda_non_laminar (Reynolds (u 1%nat) d) d k); cbn [obind]; try reflexivity.
    eexists. split; [reflexivity|]. cbn. split; [reflexivity|]. rewrite Rabs_Ropp. unfold Rdiv. ring.
Qed.
Lemma source_zero d k u s : source d k u = Ok s -> s 0%nat = 0.
Proof.
  unfold source. destruct (Rltb _ _); [intro H; injection H as <-; reflexivity|].
  destruct (lambda_non_laminar _ _ _); cbn [obind]; try discriminate. intro H. injection H as <-. reflexivity.
Qed.
Lemma flux_mirror d u v : mirror u v -> flux d v 0%nat = - flux d u 0%nat /\ flux d v 1%nat = flux d u 1%nat.
Proof. intros (H0 & H1). unfold flux. rewrite H0, H1. cbn. split; unfold Rdiv; ring. Qed.
Lemma cell_mirror d k dx t0 t1 ll lr l r ll' lr' l' r' :
  mirror ll lr' -> mirror lr ll' -> mirror l r' -> mirror r l' ->
  cell_balanced d k dx t0 t1 ll lr l r -> cell_balanced d k dx t0 t1 ll' lr' l' r'.
Proof.
  intros M1 M2 M3 M4 (sl & sr & El & Er & H).
  pose proof (source_mirror d k l r' M3) as S3. pose proof (source_mirror d k r l' M4) as S4. rewrite El in S3. rewrite Er in S4.
  destruct S3 as (sr' & E3 & A0 & A1). destruct S4 as (sl' & E4 & B0 & B1).
  exists sl', sr'. split; [exact E4|]. split; [exact E3|].
  destruct (flux_mirror d l r' M3) as (F0 & F1). destruct (flux_mirror d r l' M4) as (G0 & G1).
  pose proof (H 0%nat ltac:(lia)) as H0. pose proof (H 1%nat ltac:(lia)) as H1.
  destruct M1 as (a0 & a1). destruct M2 as (b0 & b1). destruct M3 as (c0 & c1). destruct M4 as (d0 & d1).
  intros c Hc. destruct c as [|[|c]]; [| |lia].
  - rewrite F0, G0, A0, B0, a0, b0, c0, d0. lra.
  - rewrite F1, G1, A1, B1, a1, b1, c1, d1. lra.
Qed.
Lemma cell_same_values d k dx t0 t1 ll lr l r ll' lr' l' r' :
  (forall c, (c < 2)%nat -> ll' c = ll c) -> (forall c, (c < 2)%nat -> lr' c = lr c) ->
  (forall c, (c < 2)%nat -> l' c = l c) -> (forall c, (c < 2)%nat -> r' c = r c) ->
  cell_balanced d k dx t0 t1 ll lr l r -> cell_balanced d k dx t0 t1 ll' lr' l' r'.
Proof.
  intros M1 M2 M3 M4 (sl & sr & El & Er & H).
  assert (Sl : source d k l' = source d k l) by (unfold source; rewrite !M3 by lia; reflexivity).
  assert (Sr : source d k r' = source d k r) by (unfold source; rewrite !M4 by lia; reflexivity).
  exists sl, sr. rewrite Sl, Sr. split; [exact El|]. split; [exact Er|]. intros c Hc. pose proof (H c Hc) as Hc'.
  assert (Fl : flux d l' c = flux d l c) by (unfold flux; rewrite !M3 by lia; reflexivity).
  assert (Fr : flux d r' c = flux d r c) by (unfold flux; rewrite !M4 by lia; reflexivity).
  rewrite M1, M2, M3, M4, Fl, Fr by exact Hc. exact Hc'.
Qed.

Section Same.
Variables (N N' : network) (pn pe : nat -> nat) (flip : nat -> bool).
Hypothesis W : well_formed N.
Hypothesis S : same_network N N' pn pe flip.

Definition image (i : nat) (e : edge) : edge :=
  if flip i then mkEdge (pn (e_to e)) (pn (e_from e)) (e_type e) else mkEdge (pn (e_from e)) (pn (e_to e)) (e_type e).
Lemma image_edge i e : nth_error (edges N) i = Some e -> nth_error (edges N') (pe i) = Some (image i e).
Proof. intro H. destruct S as (_ & _ & _ & _ & _ & E). apply (E i e H). Qed.
Lemma image_type i e : e_type (image i e) = e_type e.
Proof. unfold image. destruct (flip i); reflexivity. Qed.
Lemma image_node j t : nth_error (nodes N) j = Some t -> nth_error (nodes N') (pn j) = Some t.
Proof. destruct S as (_ & _ & _ & _ & E & _). apply E. Qed.
Lemma lt_node j t : nth_error (nodes N) j = Some t -> (j < length (nodes N))%nat.
Proof. intro H. apply nth_error_Some. congruence. Qed.
Lemma lt_edge i e : nth_error (edges N) i = Some e -> (i < length (edges N))%nat.
Proof. intro H. apply nth_error_Some. congruence. Qed.
Lemma pn_inj j j' : (j < length (nodes N))%nat -> (j' < length (nodes N))%nat -> pn j = pn j' -> j = j'.
Proof. destruct S as (_ & (_ & P) & _). apply P. Qed.
Lemma ends i e : nth_error (edges N) i = Some e -> edge_ok N e /\ (e_from e < length (nodes N))%nat /\ (e_to e < length (nodes N))%nat.
Proof.
  intro H. assert (K : edge_ok N e) by (eapply wf_edge; [exact W|apply in_numbered; exact H]).
  split; [exact K|]. apply edge_nodes_lt. exact K.
Qed.
Lemma permutes_onto n f : permutes n f -> Permutation (map f (seq 0 n)) (seq 0 n).
Proof.
  intros (A & B). apply NoDup_Permutation_bis.
  - assert (G : forall l, (forall k, In k l -> (k < n)%nat) -> NoDup l -> NoDup (map f l)).
    { induction l as [|a l IH]; intros H ND; [constructor|]. inversion ND as [|? ? NI ND']; subst. cbn. constructor.
      - intro Q. apply in_map_iff in Q. destruct Q as (b & E & Hb). apply NI.
        rewrite (B a b); [exact Hb|apply H; left; reflexivity|apply H; right; exact Hb|congruence].
      - apply IH; [intros; apply H; right; assumption|exact ND']. }
    apply G; [intros k Hk; apply in_seq in Hk; lia|apply seq_NoDup].
  - rewrite map_length. apply Nat.le_refl.
  - intros k Hk. apply in_map_iff in Hk. destruct Hk as (b & <- & Hb). apply in_seq in Hb. apply in_seq. pose proof (A b). lia.
Qed.
Lemma onto n f k : permutes n f -> (k < n)%nat -> exists j, (j < n)%nat /\ f j = k.
Proof.
  intros P H. assert (K : In k (map f (seq 0 n))).
  { eapply Permutation_in; [apply Permutation_sym, permutes_onto; exact P|]. apply in_seq. lia. }
  apply in_map_iff in K. destruct K as (j & E & Hj). apply in_seq in Hj. exists j. split; [lia|exact E].
Qed.
Lemma numbered_image : Permutation (map (fun ie => (pe (fst ie), image (fst ie) (snd ie))) (numbered N)) (numbered N').
Proof.
  pose proof S as S0. destruct S0 as (_ & _ & L & Pe & _ & _). apply NoDup_Permutation_bis.
  - apply (NoDup_map_inv fst). rewrite map_map. cbn [fst]. rewrite <- (map_map fst pe).
    unfold numbered. rewrite combine_fst. eapply Permutation_NoDup; [apply Permutation_sym, permutes_onto; exact Pe|apply seq_NoDup].
  - rewrite map_length. unfold numbered. rewrite !combine_length, !seq_length. lia.
  - intros [i' e'] H. apply in_map_iff in H. destruct H as ([i e] & E & Hie). cbn [fst snd] in E. injection E as <- <-.
    apply in_numbered in Hie. apply in_numbered. apply image_edge. exact Hie.
Qed.
Lemma rsum_edges (F F' : nat -> edge -> R) : (forall i e, nth_error (edges N) i = Some e -> F' (pe i) (image i e) = F i e) ->
  rsum (fun ie => F' (fst ie) (snd ie)) (numbered N') = rsum (fun ie => F (fst ie) (snd ie)) (numbered N).
Proof.
  intro H. rewrite <- (rsum_perm _ _ _ numbered_image), rsum_map. apply rsum_ext. intros [i e] Hie. cbn [fst snd].
  apply H. apply in_numbered. exact Hie.
Qed.

(** ** States *)
Variables x y : vec.
Hypothesis X : same_state N N' pn pe flip x y.

Lemma voltage_same j : is_power_node N j -> voltage N' (pn j) y = voltage N j x.
Proof.
  intro H. destruct X as (V & _). unfold voltage.
  pose proof (V j 0%nat H ltac:(lia)) as V0. pose proof (V j 1%nat H ltac:(lia)) as V1. rewrite !Nat.add_0_r in V0. rewrite V0, V1. reflexivity.
Qed.
Lemma csum_edges (F F' : edge -> C) : (forall i e, nth_error (edges N) i = Some e -> F' (image i e) = F e) ->
  csum F' (edges N') = csum F (edges N).
Proof.
  intro H.
  assert (K : forall part : C -> R, part (RtoC 0) = 0 -> (forall a b, part (Cplus a b) = part a + part b) ->
     part (csum F' (edges N')) = part (csum F (edges N))).
  { intros part P0 P1. rewrite !conj_csum by assumption.
    rewrite <- (rsum_snd (fun e => part (F' e)) (edges N') 0), <- (rsum_snd (fun e => part (F e)) (edges N) 0).
    apply (rsum_edges (fun _ e => part (F e)) (fun _ e => part (F' e))). intros i e Hi. rewrite (H i e Hi). reflexivity. }
  rewrite (surjective_pairing (csum F' (edges N'))), (surjective_pairing (csum F (edges N))).
  f_equal; apply K; reflexivity.
Qed.
Lemma power_same j G B : is_power_node N j -> power N' (pn j) G B y = power N j G B x.
Proof.
  intro H. unfold power. rewrite voltage_same by exact H. f_equal. f_equal. unfold current. rewrite voltage_same by exact H. f_equal.
  assert (Hj : (j < length (nodes N))%nat).
  { unfold is_power_node in H. apply nth_error_Some. destruct (nth_error (nodes N) j); [discriminate|destruct H]. }
  apply csum_edges. intros i e He. rewrite image_type. destruct (ends i e He) as ((_ & K) & L1 & L2).
  destruct (e_type e) as [| | | | |g b] eqn:Ty; try reflexivity. destruct K as (K1 & K2).
  assert (Q : forall k, (k < length (nodes N))%nat -> Nat.eqb (pn k) (pn j) = Nat.eqb k j).
  { intros k Hk. destruct (Nat.eqb_spec k j) as [->|D]; [apply Nat.eqb_refl|]. apply Nat.eqb_neq. intro E. apply D. apply pn_inj; assumption. }
  unfold image. destruct (flip i); cbn [e_from e_to]; rewrite !Q, !voltage_same by assumption.
  - ring.
  - reflexivity.
Qed.

Lemma block_size i e : nth_error (edges N) i = Some e ->
  snd (edge_block N i) = (fst (edge_block N i) + edge_states (e_type e))%nat /\
  snd (edge_block N' (pe i)) = (fst (edge_block N' (pe i)) + edge_states (e_type e))%nat.
Proof.
  intro H. destruct (edge_block_spec N i e H) as (s & E & _). destruct (edge_block_spec N' (pe i) _ (image_edge i e H)) as (s' & E' & _).
  rewrite E, E', image_type. split; reflexivity.
Qed.
Definition opposite (d : direction) : direction := match d with dstart => dend | dend => dstart end.
Definition moved (i : nat) (d : direction) : direction := if flip i then opposite d else d.
Lemma ends_same i e d : nth_error (edges N) i = Some e -> carries_gas e = true ->
  (d = dend -> forall a b, e_type e <> EGaspower a b) ->
  pressure_at N' (pe i) (image i e) (moved i d) y = pressure_at N i e d x /\
  flow_at N' (pe i) (moved i d) y = (if flip i then - flow_at N i d x else flow_at N i d x).
Proof.
  intros He C NG. destruct (block_size i e He) as (B1 & B2). destruct X as (_ & V). specialize (V i e He). cbv zeta in V.
  destruct (ends i e He) as ((_ & K) & _).
  unfold pressure_at, flow_at, end_position, moved. rewrite image_type, B1, B2.
  destruct S as (_ & _ & _ & _ & _ & SE). destruct (SE i e He) as (_ & U). clear SE.
  destruct (flip i) eqn:Fl.
  - specialize (U eq_refl). unfold undirected, carries_gas in *.
    assert (K2 : edge_states (e_type e) = (2 * points (e_type e))%nat /\ (2 <= points (e_type e))%nat).
    { destruct (e_type e); try destruct U; try discriminate; cbn [edge_states points]; lia. }
    destruct K2 as (K2 & K3). rewrite K2.
    pose proof (V 0%nat ltac:(lia)) as (V0 & V0'). pose proof (V (points (e_type e) - 1)%nat ltac:(lia)) as (V1 & V1').
    replace (points (e_type e) - 1 - (points (e_type e) - 1))%nat with 0%nat in V1, V1' by lia.
    replace (points (e_type e) - 1 - 0)%nat with (points (e_type e) - 1)%nat in V0, V0' by lia.
    destruct d; cbn [opposite].
    + replace (fst (edge_block N' (pe i)) + 2 * points (e_type e) - 2)%nat with (fst (edge_block N' (pe i)) + 2 * (points (e_type e) - 1))%nat by lia.
      rewrite V1, V1'. replace (fst (edge_block N i) + 2 * 0)%nat with (fst (edge_block N i)) by lia. split; reflexivity.
    + replace (fst (edge_block N i) + 2 * points (e_type e) - 2)%nat with (fst (edge_block N i) + 2 * (points (e_type e) - 1))%nat by lia.
      replace (fst (edge_block N' (pe i))) with (fst (edge_block N' (pe i)) + 2 * 0)%nat by lia. rewrite V0, V0'. split; reflexivity.
  - assert (K3 : (2 <= edge_states (e_type e))%nat /\ (d = dend -> 4 <= edge_states (e_type e))%nat).
    { unfold carries_gas in C. destruct (e_type e); try discriminate; cbn [edge_states]; split; try lia. intro D. exfalso. eapply NG; eauto. }
    destruct K3 as (K3 & K4). destruct d.
    + pose proof (V 0%nat ltac:(lia)) as V0. rewrite !Nat.add_0_r in V0. rewrite V0, (V 1%nat) by lia. split; reflexivity.
    + specialize (K4 eq_refl).
      replace (fst (edge_block N' (pe i)) + edge_states (e_type e) - 2)%nat with (fst (edge_block N' (pe i)) + (edge_states (e_type e) - 2))%nat by lia.
      replace (fst (edge_block N i) + edge_states (e_type e) - 2)%nat with (fst (edge_block N i) + (edge_states (e_type e) - 2))%nat by lia.
      rewrite <- !Nat.add_assoc. rewrite !V by lia. split; reflexivity.
Qed.
Lemma touches_same i e d j : nth_error (edges N) i = Some e -> (j < length (nodes N))%nat ->
  (touches (image i e) (moved i d) (pn j) <-> touches e d j).
Proof.
  intros He Hj. destruct (ends i e He) as (_ & L1 & L2). unfold image, moved, touches.
  assert (Q : forall k, (k < length (nodes N))%nat -> (pn k = pn j <-> k = j)).
  { intros k Hk. split; [apply pn_inj; assumption|intros ->; reflexivity]. }
  destruct (flip i), d; cbn [opposite e_from e_to]; apply Q; assumption.
Qed.
Lemma moved_moved i d : exists d', moved i d' = d.
Proof. unfold moved. destruct (flip i); [exists (opposite d); destruct d; reflexivity|exists d; reflexivity]. Qed.
Lemma edge_found i' e' : nth_error (edges N') i' = Some e' -> exists i e, nth_error (edges N) i = Some e /\ i' = pe i /\ e' = image i e.
Proof.
  intro H. pose proof S as S0. destruct S0 as (_ & _ & L & Pe & _ & _).
  assert (Hi : (i' < length (edges N))%nat) by (rewrite <- L; apply nth_error_Some; congruence).
  destruct (onto _ _ i' Pe Hi) as (i & Li & <-). destruct (nth_error (edges N) i) as [e|] eqn:E; [|apply nth_error_None in E; lia].
  exists i, e. rewrite (image_edge i e E) in H. injection H as <-. auto.
Qed.
Lemma node_found j' t : nth_error (nodes N') j' = Some t -> exists j, nth_error (nodes N) j = Some t /\ j' = pn j.
Proof.
  intro H. pose proof S as S0. destruct S0 as (L & Pn & _).
  assert (Hj : (j' < length (nodes N))%nat) by (rewrite <- L; apply nth_error_Some; congruence).
  destruct (onto _ _ j' Pn Hj) as (j & Lj & <-). destruct (nth_error (nodes N) j) as [t'|] eqn:E; [|apply nth_error_None in E; lia].
  exists j. rewrite (image_node j t' E) in H. injection H as <-. auto.
Qed.
Lemma carries_image i e : carries_gas (image i e) = carries_gas e.
Proof. unfold carries_gas. rewrite image_type. reflexivity. Qed.
Lemma has_gas_same j : (j < length (nodes N))%nat -> (has_gas_edge N' (pn j) <-> has_gas_edge N j).
Proof.
  intro Hj. split.
  - intros (i' & e' & d' & H1 & H2 & H3). destruct (edge_found i' e' H1) as (i & e & E & -> & ->).
    destruct (moved_moved i d') as (d & <-). exists i, e, d. rewrite carries_image in H2. apply touches_same in H3; auto.
  - intros (i & e & d & H1 & H2 & H3). exists (pe i), (image i e), (moved i d). rewrite carries_image.
    split; [apply image_edge; exact H1|]. split; [exact H2|]. apply touches_same; assumption.
Qed.
Lemma no_plant_end i e d j : nth_error (edges N) i = Some e -> is_gas_node N j -> touches e d j ->
  d = dend -> forall a b, e_type e <> EGaspower a b.
Proof.
  intros He G T -> a b Ty. destruct (ends i e He) as ((_ & K) & _). rewrite Ty in K. cbn [touches] in T. rewrite T in K.
  exact (gas_not_power N j G (proj2 K)).
Qed.
Lemma pressures_same j pr : is_gas_node N j -> (j < length (nodes N))%nat ->
  (equal_pressures N' (pn j) y pr <-> equal_pressures N j x pr).
Proof.
  intros G Hj. split.
  - intros H i e d H1 H2 H3. destruct (ends_same i e d H1 H2 (no_plant_end i e d j H1 G H3)) as (<- & _).
    apply H; [apply image_edge; exact H1|rewrite carries_image; exact H2|apply touches_same; assumption].
  - intros H i' e' d' H1 H2 H3. destruct (edge_found i' e' H1) as (i & e & E & -> & ->).
    destruct (moved_moved i d') as (d & <-). rewrite carries_image in H2. apply touches_same in H3; [|exact E|exact Hj].
    destruct (ends_same i e d E H2 (no_plant_end i e d j E G H3)) as (-> & _). apply (H i e d); assumption.
Qed.
Lemma outflow_same j : is_gas_node N j -> (j < length (nodes N))%nat -> net_outflow N' (pn j) y = net_outflow N j x.
Proof.
  intros G Hj. unfold net_outflow.
  apply (rsum_edges (fun i e => if carries_gas e then (if Nat.eqb (e_from e) j then flow_at N i dstart x else 0)
       - (if Nat.eqb (e_to e) j then flow_at N i dend x else 0) else 0)
     (fun i e => if carries_gas e then (if Nat.eqb (e_from e) (pn j) then flow_at N' i dstart y else 0)
       - (if Nat.eqb (e_to e) (pn j) then flow_at N' i dend y else 0) else 0)).
  intros i e He. rewrite carries_image. destruct (carries_gas e) eqn:C; [|reflexivity]. destruct (ends i e He) as ((_ & K) & L1 & L2).
  assert (Q : forall k, (k < length (nodes N))%nat -> Nat.eqb (pn k) (pn j) = Nat.eqb k j).
  { intros k Hk. destruct (Nat.eqb_spec k j) as [->|D]; [apply Nat.eqb_refl|]. apply Nat.eqb_neq. intro E. apply D. apply pn_inj; assumption. }
  destruct (ends_same i e dstart He C ltac:(discriminate)) as (_ & F0).
  assert (F1 : Nat.eqb (e_to e) j = true -> flow_at N' (pe i) (moved i dend) y = (if flip i then - flow_at N i dend x else flow_at N i dend x)).
  { intro T. apply Nat.eqb_eq in T. apply (ends_same i e dend He C). apply (no_plant_end i e dend j He G). exact T. }
  unfold image, moved in *. destruct (flip i); cbn [e_from e_to opposite] in *; rewrite !Q by assumption.
  - destruct (Nat.eqb (e_to e) j); [rewrite F1 by reflexivity|]; destruct (Nat.eqb (e_from e) j); rewrite ?F0; ring.
  - destruct (Nat.eqb (e_to e) j); [rewrite F1 by reflexivity|]; rewrite F0; reflexivity.
Qed.
Lemma node_same j t time : nth_error (nodes N) j = Some t -> (node_equation N' (pn j) t time y <-> node_equation N j t time x).
Proof.
  intro H. pose proof (lt_node j t H) as Hj. destruct t as [|sink b|b|k ext G B b]; cbn [node_equation].
  - assert (Gn : is_gas_node N j) by (unfold is_gas_node; rewrite H; exact Logic.I).
    rewrite has_gas_same by exact Hj. rewrite outflow_same by assumption. setoid_rewrite pressures_same; [|assumption..]. reflexivity.
  - assert (Gn : is_gas_node N j) by (unfold is_gas_node; rewrite H; exact Logic.I).
    rewrite has_gas_same by exact Hj. rewrite outflow_same by assumption. setoid_rewrite pressures_same; [|assumption..]. reflexivity.
  - assert (Gn : is_gas_node N j) by (unfold is_gas_node; rewrite H; exact Logic.I).
    rewrite has_gas_same by exact Hj. setoid_rewrite pressures_same; [|assumption..]. reflexivity.
  - assert (Pn : is_power_node N j) by (unfold is_power_node; rewrite H; exact Logic.I).
    rewrite power_same by exact Pn. destruct X as (V & _).
    pose proof (V j 0%nat Pn ltac:(lia)) as V0. pose proof (V j 1%nat Pn ltac:(lia)) as V1. rewrite !Nat.add_0_r in V0. rewrite V0, V1. reflexivity.
Qed.
End Same.
