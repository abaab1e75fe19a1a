(** The equations of a part that is not connected with the rest. *)
From Coq Require Import Reals Lra Lia List Arith Bool Permutation.
From Coquelicot Require Import Coquelicot Complex.
From Verif Require Import Base Interp_Model Interp_Proofs Calc Euler_Model Euler_Spec Box_Model Net_Model Net_Spec Net_Proofs5 Net_Proofs6 Net_Proofs8 Mass_Proofs Steady_Proofs
  Sim_Spec Renumber_Spec Renumber_Proofs.
From Verif Require Import Apart_Spec.
Import ListNotations.
Local Open Scope R_scope.

Section Part.
Variables (N N' : network) (pn pe : nat -> nat).
Hypothesis W : well_formed N.
Hypothesis O : occurs N N' pn pe.
Hypothesis U : unconnected N N' pn pe.

Definition image (e : edge) : edge := mkEdge (pn (e_from e)) (pn (e_to e)) (e_type e).
Lemma image_edge i e : nth_error (edges N) i = Some e -> nth_error (edges N') (pe i) = Some (image e).
Proof. intro H. destruct O as (_ & _ & _ & E). apply (E i e H). Qed.
Lemma image_node j t : nth_error (nodes N) j = Some t -> nth_error (nodes N') (pn j) = Some t.
Proof. destruct O as (_ & _ & E & _). apply E. Qed.
Lemma lt_node j t : nth_error (nodes N) j = Some t -> (j < length (nodes N))%nat.
Proof. intro H. apply nth_error_Some. congruence. Qed.
Lemma lt_edge i e : nth_error (edges N) i = Some e -> (i < length (edges N))%nat.
Proof. intro H. apply nth_error_Some. congruence. Qed.
Lemma pn_inj j j' : (j < length (nodes N))%nat -> (j' < length (nodes N))%nat -> pn j = pn j' -> j = j'.
Proof. destruct O as (P & _). apply P. Qed.
Lemma pn_eqb k j : (k < length (nodes N))%nat -> (j < length (nodes N))%nat -> Nat.eqb (pn k) (pn j) = Nat.eqb k j.
Proof.
  intros Hk Hj. destruct (Nat.eqb_spec k j) as [->|D]; [apply Nat.eqb_refl|]. apply Nat.eqb_neq. intro E. apply D. apply pn_inj; assumption.
Qed.
Lemma ends i e : nth_error (edges N) i = Some e -> edge_ok N e /\ (e_from e < length (nodes N))%nat /\ (e_to e < length (nodes N))%nat.
Proof.
  intro H. assert (K : edge_ok N e) by (eapply wf_edge; [exact W|apply in_numbered; exact H]).
  split; [exact K|]. apply edge_nodes_lt. exact K.
Qed.
Lemma edge_found i' e' j : nth_error (edges N') i' = Some e' -> (j < length (nodes N))%nat -> e_from e' = pn j \/ e_to e' = pn j ->
  exists i e, nth_error (edges N) i = Some e /\ i' = pe i /\ e' = image e.
Proof.
  intros H Hj T. destruct (U i' e' j H Hj T) as (i & Hi & ->). destruct (nth_error (edges N) i) as [e|] eqn:E; [|apply nth_error_None in E; lia].
  exists i, e. rewrite (image_edge i e E) in H. injection H as <-. auto.
Qed.

(** ** Sums over the edges at a node *)
Definition inside (ie : nat * edge) : bool := existsb (Nat.eqb (fst ie)) (map pe (seq 0 (length (edges N)))).
Lemma inside_spec i' e' : nth_error (edges N') i' = Some e' ->
  (inside (i', e') = true <-> exists i e, nth_error (edges N) i = Some e /\ i' = pe i /\ e' = image e).
Proof.
  intro H. unfold inside. cbn [fst]. rewrite existsb_exists. split.
  - intros (k & Hk & E). apply Nat.eqb_eq in E. subst k. apply in_map_iff in Hk. destruct Hk as (i & <- & Hi). apply in_seq in Hi.
    destruct (nth_error (edges N) i) as [e|] eqn:E; [|apply nth_error_None in E; lia]. exists i, e.
    rewrite (image_edge i e E) in H. injection H as <-. auto.
  - intros (i & e & E & -> & ->). exists (pe i). split; [|apply Nat.eqb_refl]. apply in_map. apply in_seq. pose proof (lt_edge i e E). lia.
Qed.
Lemma pe_nodup : NoDup (map pe (seq 0 (length (edges N)))).
Proof.
  assert (G : forall l, (forall k, In k l -> (k < length (edges N))%nat) -> NoDup l -> NoDup (map pe l)).
  { destruct O as (_ & P & _). induction l as [|a l IH]; intros H ND; [constructor|]. inversion ND as [|? ? NI ND']; subst. cbn. constructor.
    - intro Q. apply in_map_iff in Q. destruct Q as (b & E & Hb). apply NI.
      rewrite (P a b); [exact Hb|apply H; left; reflexivity|apply H; right; exact Hb|congruence].
    - apply IH; [intros; apply H; right; assumption|exact ND']. }
  apply G; [intros k Hk; apply in_seq in Hk; lia|apply seq_NoDup].
Qed.
Lemma numbered_part : Permutation (map (fun ie => (pe (fst ie), image (snd ie))) (numbered N)) (filter inside (numbered N')).
Proof.
  apply NoDup_Permutation.
  - apply (NoDup_map_inv fst). rewrite map_map. cbn [fst]. rewrite <- (map_map fst pe). unfold numbered. rewrite combine_fst. apply pe_nodup.
  - apply NoDup_filter. apply (NoDup_map_inv fst). apply numbered_nodup.
  - intros (i' & e'). rewrite filter_In, in_map_iff. split.
    + intros ((i & e) & E & H). cbn [fst snd] in E. injection E as <- <-. apply in_numbered in H. pose proof (image_edge i e H) as K.
      split; [apply in_numbered; exact K|]. apply (inside_spec _ _ K). exists i, e. auto.
    + intros (H & K). apply in_numbered in H. apply (inside_spec _ _ H) in K. destruct K as (i & e & E & -> & ->).
      exists (i, e). split; [reflexivity|]. apply in_numbered. exact E.
Qed.
Lemma rsum_at (j : nat) (F F' : nat -> edge -> R) : (j < length (nodes N))%nat ->
  (forall i e, nth_error (edges N) i = Some e -> F' (pe i) (image e) = F i e) ->
  (forall i' e', e_from e' <> pn j -> e_to e' <> pn j -> F' i' e' = 0) ->
  rsum (fun ie => F' (fst ie) (snd ie)) (numbered N') = rsum (fun ie => F (fst ie) (snd ie)) (numbered N).
Proof.
  intros Hj H Z.
  transitivity (rsum (fun ie => F' (fst ie) (snd ie)) (filter inside (numbered N'))).
  - rewrite rsum_filter. apply rsum_ext. intros (i' & e') Hie. apply in_numbered in Hie. destruct (inside (i', e')) eqn:I; [reflexivity|].
    cbn [fst snd]. apply Z; intro T.
    + destruct (edge_found i' e' j Hie Hj (or_introl T)) as (i & e & K). assert (inside (i', e') = true) by (apply (inside_spec _ _ Hie); eauto). congruence.
    + destruct (edge_found i' e' j Hie Hj (or_intror T)) as (i & e & K). assert (inside (i', e') = true) by (apply (inside_spec _ _ Hie); eauto). congruence.
  - rewrite <- (rsum_perm _ _ _ numbered_part), rsum_map. apply rsum_ext. intros [i e] Hie. cbn [fst snd]. apply H. apply in_numbered. exact Hie.
Qed.
Lemma csum_at (j : nat) (F F' : edge -> C) : (j < length (nodes N))%nat ->
  (forall i e, nth_error (edges N) i = Some e -> F' (image e) = F e) ->
  (forall e', e_from e' <> pn j -> e_to e' <> pn j -> F' e' = RtoC 0) ->
  csum F' (edges N') = csum F (edges N).
Proof.
  intros Hj H Z.
  assert (K : forall part : C -> R, part (RtoC 0) = 0 -> (forall a b, part (Cplus a b) = part a + part b) ->
     part (csum F' (edges N')) = part (csum F (edges N))).
  { intros part P0 P1. rewrite !conj_csum by assumption.
    rewrite <- (rsum_snd (fun e => part (F' e)) (edges N') 0), <- (rsum_snd (fun e => part (F e)) (edges N) 0).
    apply (rsum_at j (fun _ e => part (F e)) (fun _ e => part (F' e)) Hj).
    - intros i e Hi. rewrite (H i e Hi). reflexivity.
    - intros i' e' A B. rewrite (Z e' A B). exact P0. }
  rewrite (surjective_pairing (csum F' (edges N'))), (surjective_pairing (csum F (edges N))).
  f_equal; apply K; reflexivity.
Qed.
Lemma count_at (j : nat) (h h' : edge -> bool) : (j < length (nodes N))%nat ->
  (forall i e, nth_error (edges N) i = Some e -> h' (image e) = h e) ->
  (forall e', e_from e' <> pn j -> e_to e' <> pn j -> h' e' = false) ->
  length (filter h' (edges N')) = length (filter h (edges N)).
Proof.
  intros Hj H Z. apply INR_eq. rewrite <- (Rmult_1_r (INR (length (filter h' (edges N'))))), <- (Rmult_1_r (INR (length (filter h (edges N))))).
  rewrite <- !rsum_count. rewrite <- (rsum_snd (fun e => if h' e then 1 else 0) (edges N') 0), <- (rsum_snd (fun e => if h e then 1 else 0) (edges N) 0).
  apply (rsum_at j (fun _ e => if h e then 1 else 0) (fun _ e => if h' e then 1 else 0) Hj).
  - intros i e Hi. rewrite (H i e Hi). reflexivity.
  - intros i' e' A B. rewrite (Z e' A B). reflexivity.
Qed.

(** ** States *)
Variables x y : vec.
Hypothesis X : state_part N N' pn pe x y.

Lemma voltage_part j : is_power_node N j -> voltage N' (pn j) y = voltage N j x.
Proof.
  intro H. destruct X as (V & _). unfold voltage.
  pose proof (V j 0%nat H ltac:(lia)) as V0. pose proof (V j 1%nat H ltac:(lia)) as V1. rewrite !Nat.add_0_r in V0. rewrite V0, V1. reflexivity.
Qed.
Lemma power_part j G B : is_power_node N j -> power N' (pn j) G B y = power N j G B x.
Proof.
  intro H. unfold power. rewrite voltage_part by exact H. f_equal. f_equal. unfold current. rewrite voltage_part by exact H. f_equal.
  assert (Hj : (j < length (nodes N))%nat).
  { unfold is_power_node in H. apply nth_error_Some. destruct (nth_error (nodes N) j); [discriminate|destruct H]. }
  apply (csum_at j); [exact Hj| |].
  - intros i e He. destruct (ends i e He) as ((_ & K) & L1 & L2). unfold image. cbn [e_type e_from e_to].
    destruct (e_type e) as [| | | | |g b] eqn:Ty; try reflexivity. destruct K as (K1 & K2).
    rewrite !pn_eqb, !voltage_part by assumption. reflexivity.
  - intros e' A B'. destruct (e_type e'); try reflexivity. apply Nat.eqb_neq in A. apply Nat.eqb_neq in B'. rewrite A, B'. apply Cplus_0_l.
Qed.
Lemma block_part i e : nth_error (edges N) i = Some e ->
  snd (edge_block N i) = (fst (edge_block N i) + edge_states (e_type e))%nat /\
  snd (edge_block N' (pe i)) = (fst (edge_block N' (pe i)) + edge_states (e_type e))%nat.
Proof.
  intro H. destruct (edge_block_spec N i e H) as (s & E & _). destruct (edge_block_spec N' (pe i) _ (image_edge i e H)) as (s' & E' & _).
  rewrite E, E'. split; reflexivity.
Qed.
Lemma ends_part i e d : nth_error (edges N) i = Some e -> carries_gas e = true ->
  (d = dend -> forall a b, e_type e <> EGaspower a b) ->
  pressure_at N' (pe i) (image e) d y = pressure_at N i e d x /\ flow_at N' (pe i) d y = flow_at N i d x.
Proof.
  intros He C NG. destruct (block_part i e He) as (B1 & B2). destruct X as (_ & V). pose proof (fun k => V i e k He) as V'. clear V.
  destruct (ends i e He) as ((_ & K) & _).
  unfold pressure_at, flow_at, end_position. cbn [image e_type]. rewrite B1, B2.
  assert (K3 : (2 <= edge_states (e_type e))%nat /\ (d = dend -> 4 <= edge_states (e_type e))%nat).
  { unfold carries_gas in C. destruct (e_type e); try discriminate; cbn [edge_states]; split; try lia. intro D. exfalso. eapply NG; eauto. }
  destruct K3 as (K3 & K4). destruct d.
  - pose proof (V' 0%nat ltac:(lia)) as V0. rewrite !Nat.add_0_r in V0. rewrite V0, (V' 1%nat) by lia. split; reflexivity.
  - specialize (K4 eq_refl).
    replace (fst (edge_block N' (pe i)) + edge_states (e_type e) - 2)%nat with (fst (edge_block N' (pe i)) + (edge_states (e_type e) - 2))%nat by lia.
    replace (fst (edge_block N i) + edge_states (e_type e) - 2)%nat with (fst (edge_block N i) + (edge_states (e_type e) - 2))%nat by lia.
    rewrite <- !Nat.add_assoc. rewrite !V' by lia. split; reflexivity.
Qed.
Lemma touches_part i e d j : nth_error (edges N) i = Some e -> (j < length (nodes N))%nat -> (touches (image e) d (pn j) <-> touches e d j).
Proof.
  intros He Hj. destruct (ends i e He) as (_ & L1 & L2).
  assert (Q : forall k, (k < length (nodes N))%nat -> (pn k = pn j <-> k = j)).
  { intros k Hk. split; [apply pn_inj; assumption|intros ->; reflexivity]. }
  destruct d; cbn [touches image e_from e_to]; apply Q; assumption.
Qed.
Lemma found_at i' e' d j : nth_error (edges N') i' = Some e' -> (j < length (nodes N))%nat -> touches e' d (pn j) ->
  exists i e, nth_error (edges N) i = Some e /\ i' = pe i /\ e' = image e /\ touches e d j.
Proof.
  intros H Hj T. destruct (edge_found i' e' j H Hj) as (i & e & E & -> & ->); [destruct d; [left|right]; exact T|].
  exists i, e. split; [exact E|]. do 2 (split; [reflexivity|]). apply (touches_part i e d j E Hj). exact T.
Qed.
Lemma has_gas_part j : (j < length (nodes N))%nat -> (has_gas_edge N' (pn j) <-> has_gas_edge N j).
Proof.
  intro Hj. split.
  - intros (i' & e' & d & H1 & H2 & H3). destruct (found_at i' e' d j H1 Hj H3) as (i & e & E & -> & -> & T). exists i, e, d. auto.
  - intros (i & e & d & H1 & H2 & H3). exists (pe i), (image e), d.
    split; [apply image_edge; exact H1|]. split; [exact H2|]. apply (touches_part i e d j H1 Hj). exact H3.
Qed.
Lemma no_plant i e d j : nth_error (edges N) i = Some e -> is_gas_node N j -> touches e d j ->
  d = dend -> forall a b, e_type e <> EGaspower a b.
Proof.
  intros He G T -> a b Ty. destruct (ends i e He) as ((_ & K) & _). rewrite Ty in K. cbn [touches] in T. rewrite T in K.
  exact (gas_not_power N j G (proj2 K)).
Qed.
(** The pressures at the ends at a node are the same ones. *)
Lemma pressures_part j (Q : R -> Prop) : is_gas_node N j -> (j < length (nodes N))%nat ->
  ((forall i e d, nth_error (edges N') i = Some e -> carries_gas e = true -> touches e d (pn j) -> Q (pressure_at N' i e d y)) <->
   (forall i e d, nth_error (edges N) i = Some e -> carries_gas e = true -> touches e d j -> Q (pressure_at N i e d x))).
Proof.
  intros G Hj. split.
  - intros H i e d H1 H2 H3. destruct (ends_part i e d H1 H2 (no_plant i e d j H1 G H3)) as (<- & _).
    apply H; [apply image_edge; exact H1|exact H2|apply (touches_part i e d j H1 Hj); exact H3].
  - intros H i' e' d H1 H2 H3. destruct (found_at i' e' d j H1 Hj H3) as (i & e & E & -> & -> & T).
    destruct (ends_part i e d E H2 (no_plant i e d j E G T)) as (-> & _). apply (H i e d); assumption.
Qed.
Lemma equal_part j pr : is_gas_node N j -> (j < length (nodes N))%nat -> (equal_pressures N' (pn j) y pr <-> equal_pressures N j x pr).
Proof. intros G Hj. apply (pressures_part j (fun p => p = pr) G Hj). Qed.
Lemma near_part j pr eps : is_gas_node N j -> (j < length (nodes N))%nat -> (pressures_near N' (pn j) y pr eps <-> pressures_near N j x pr eps).
Proof. intros G Hj. apply (pressures_part j (fun p => within eps p pr) G Hj). Qed.
Lemma close_part j eps : is_gas_node N j -> (j < length (nodes N))%nat -> (close_pressures N' (pn j) y eps <-> close_pressures N j x eps).
Proof.
  intros G Hj. split.
  - intros H i e d i' e' d' H1 H2 H3 H4 H5 H6.
    destruct (ends_part i e d H1 H2 (no_plant i e d j H1 G H3)) as (<- & _). destruct (ends_part i' e' d' H4 H5 (no_plant i' e' d' j H4 G H6)) as (<- & _).
    apply H; try assumption; try (apply image_edge; assumption); eapply touches_part; eassumption.
  - intros H i1 e1 d i1' e1' d' H1 H2 H3 H4 H5 H6.
    destruct (found_at i1 e1 d j H1 Hj H3) as (i & e & E & -> & -> & T). destruct (found_at i1' e1' d' j H4 Hj H6) as (i' & e' & E' & -> & -> & T').
    destruct (ends_part i e d E H2 (no_plant i e d j E G T)) as (-> & _). destruct (ends_part i' e' d' E' H5 (no_plant i' e' d' j E' G T')) as (-> & _).
    apply H; assumption.
Qed.
Lemma gas_ends_part j : (j < length (nodes N))%nat -> gas_ends N' (pn j) = gas_ends N j.
Proof.
  intro Hj. unfold gas_ends. f_equal; apply (count_at j); try exact Hj.
  - intros i e He. destruct (ends i e He) as (_ & L1 & L2). unfold image. cbn [e_from]. rewrite pn_eqb by assumption. reflexivity.
  - intros e' A _. apply Nat.eqb_neq in A. rewrite A. apply andb_false_r.
  - intros i e He. destruct (ends i e He) as (_ & L1 & L2). unfold image. cbn [e_to]. rewrite pn_eqb by assumption. reflexivity.
  - intros e' _ A. apply Nat.eqb_neq in A. rewrite A. apply andb_false_r.
Qed.
Lemma outflow_part j : is_gas_node N j -> (j < length (nodes N))%nat -> net_outflow N' (pn j) y = net_outflow N j x.
Proof.
  intros G Hj. unfold net_outflow.
  apply (rsum_at j (fun i e => if carries_gas e then (if Nat.eqb (e_from e) j then flow_at N i dstart x else 0)
       - (if Nat.eqb (e_to e) j then flow_at N i dend x else 0) else 0)
     (fun i e => if carries_gas e then (if Nat.eqb (e_from e) (pn j) then flow_at N' i dstart y else 0)
       - (if Nat.eqb (e_to e) (pn j) then flow_at N' i dend y else 0) else 0) Hj).
  - intros i e He. change (carries_gas (image e)) with (carries_gas e). destruct (carries_gas e) eqn:C; [|reflexivity].
    destruct (ends i e He) as (_ & L1 & L2). unfold image. cbn [e_from e_to]. rewrite !pn_eqb by assumption.
    destruct (ends_part i e dstart He C ltac:(discriminate)) as (_ & F0).
    assert (F1 : Nat.eqb (e_to e) j = true -> flow_at N' (pe i) dend y = flow_at N i dend x).
    { intro T. apply Nat.eqb_eq in T. apply (ends_part i e dend He C). apply (no_plant i e dend j He G). exact T. }
    destruct (Nat.eqb (e_to e) j); [rewrite F1 by reflexivity|]; rewrite F0; reflexivity.
  - intros i' e' A B. apply Nat.eqb_neq in A. apply Nat.eqb_neq in B. rewrite A, B. destruct (carries_gas e'); lra.
Qed.
Lemma node_part j t time : nth_error (nodes N) j = Some t -> (node_equation N' (pn j) t time y <-> node_equation N j t time x).
Proof.
  intro H. pose proof (lt_node j t H) as Hj. destruct t as [|sink b|b|k ext G B b]; cbn [node_equation].
  - assert (Gn : is_gas_node N j) by (unfold is_gas_node; rewrite H; exact Logic.I).
    rewrite has_gas_part by exact Hj. rewrite outflow_part by assumption. setoid_rewrite equal_part; [|assumption..]. reflexivity.
  - assert (Gn : is_gas_node N j) by (unfold is_gas_node; rewrite H; exact Logic.I).
    rewrite has_gas_part by exact Hj. rewrite outflow_part by assumption. setoid_rewrite equal_part; [|assumption..]. reflexivity.
  - assert (Gn : is_gas_node N j) by (unfold is_gas_node; rewrite H; exact Logic.I).
    rewrite has_gas_part by exact Hj. setoid_rewrite equal_part; [|assumption..]. reflexivity.
  - assert (Pn : is_power_node N j) by (unfold is_power_node; rewrite H; exact Logic.I).
    rewrite power_part by exact Pn. destruct X as (V & _).
    pose proof (V j 0%nat Pn ltac:(lia)) as V0. pose proof (V j 1%nat Pn ltac:(lia)) as V1. rewrite !Nat.add_0_r in V0. rewrite V0, V1. reflexivity.
Qed.
Lemma node_part_within eps j t time : nth_error (nodes N) j = Some t ->
  (node_equation_within N' eps (pn j) t time y <-> node_equation_within N eps j t time x).
Proof.
  intro H. pose proof (lt_node j t H) as Hj. destruct t as [|sink b|b|k ext G B b]; cbn [node_equation_within].
  - assert (Gn : is_gas_node N j) by (unfold is_gas_node; rewrite H; exact Logic.I).
    rewrite has_gas_part by exact Hj. rewrite outflow_part by assumption. rewrite gas_ends_part by exact Hj. rewrite close_part by assumption. reflexivity.
  - assert (Gn : is_gas_node N j) by (unfold is_gas_node; rewrite H; exact Logic.I).
    rewrite has_gas_part by exact Hj. rewrite outflow_part by assumption. rewrite gas_ends_part by exact Hj. setoid_rewrite close_part; [|assumption..]. reflexivity.
  - assert (Gn : is_gas_node N j) by (unfold is_gas_node; rewrite H; exact Logic.I).
    rewrite has_gas_part by exact Hj. setoid_rewrite near_part; [|assumption..]. reflexivity.
  - assert (Pn : is_power_node N j) by (unfold is_power_node; rewrite H; exact Logic.I).
    rewrite power_part by exact Pn. destruct X as (V & _).
    pose proof (V j 0%nat Pn ltac:(lia)) as V0. pose proof (V j 1%nat Pn ltac:(lia)) as V1. rewrite !Nat.add_0_r in V0. rewrite V0, V1. reflexivity.
Qed.
End Part.
