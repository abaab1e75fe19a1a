(** Two solutions differ by a change of this kind. *)
From Coq Require Import Reals Lra Lia List Arith Bool.
From Verif Require Import Base Calc Euler_Model Euler_Spec Box_Model Net_Model Net_Spec Net_Proofs5 Net_Proofs8 Mass_Proofs Level_Spec Level_Proofs Lift_Spec.
From Verif Require Import Adapt_Spec Adapt_Proofs.
Import ListNotations.
Local Open Scope R_scope.

Definition both_ends (e : edge) : bool := match e_type e with ELine _ _ | EGaspower _ _ => false | _ => true end.
Definition rise (N : network) (x y : vec) (j : nat) : R :=
  match find (fun ie => carries_gas (snd ie) && Nat.eqb (e_from (snd ie)) j)%bool (numbered N) with
  | Some (i, e) => pressure_at N i e dstart y - pressure_at N i e dstart x
  | None => match find (fun ie => both_ends (snd ie) && Nat.eqb (e_to (snd ie)) j)%bool (numbered N) with
            | Some (i, e) => pressure_at N i e dend y - pressure_at N i e dend x
            | None => 0
            end
  end.
Definition more_flow (N : network) (x y : vec) (i : nat) : R := flow_at N i dstart y - flow_at N i dstart x.

Section Only.
Variable N : network.
Variables (t0 t1 : R) (last x y c c' : vec).
Hypothesis W : well_formed N.
Hypothesis Hx : network_equations N t0 t1 last x c.
Hypothesis Hy : network_equations N t0 t1 last y c'.
Hypothesis Same : forall i e, nth_error (edges N) i = Some e ->
  match e_type e with
  | EPipe _ _ _ _ => forall d, pressure_at N i e d y = pressure_at N i e d x /\ flow_at N i d y = flow_at N i d x
  | EGaspower _ _ => flow_at N i dstart y = flow_at N i dstart x
  | _ => True
  end.

Lemma gas_end_node i e d : nth_error (edges N) i = Some e -> gas_end e d -> is_gas_node N (end_node e d) /\ carries_gas e = true.
Proof.
  intros H G. pose proof W as W'. unfold well_formed in W'. rewrite List.Forall_forall in W'. destruct (W' e (nth_error_In _ _ H)) as (_ & K).
  unfold gas_end, carries_gas, end_node in *. destruct (e_type e), d; try destruct G; tauto.
Qed.
Lemma common z cc : network_equations N t0 t1 last z cc -> forall j, is_gas_node N j -> has_gas_edge N j -> exists pr, equal_pressures N j z pr.
Proof.
  intros (H & _) j G Hh. unfold is_gas_node in G. destruct (nth_error (nodes N) j) as [t|] eqn:Hj; [|destruct G]. specialize (H j t Hj).
  destruct t; try destruct G; cbn [node_equation] in H; specialize (H Hh).
  - exact (proj1 H).
  - destruct H as (v & _ & H & _). exact H.
  - destruct H as (v & _ & H). eauto.
Qed.
Lemma start_end e : carries_gas e = true -> gas_end e dstart.
Proof. unfold carries_gas, gas_end. destruct (e_type e); try discriminate; auto. Qed.
Lemma end_end e : both_ends e = true -> gas_end e dend /\ carries_gas e = true.
Proof. unfold both_ends, gas_end, carries_gas. destruct (e_type e); try discriminate; auto. Qed.
Lemma rise_at i e d : nth_error (edges N) i = Some e -> gas_end e d ->
  pressure_at N i e d y = pressure_at N i e d x + rise N x y (end_node e d).
Proof.
  intros H G. destruct (gas_end_node i e d H G) as (Gj & C). set (j := end_node e d) in *.
  assert (T : touches e d j) by (unfold touches, j; destruct d; reflexivity).
  assert (Hh : has_gas_edge N j) by (exists i, e, d; auto).
  destruct (common x c Hx j Gj Hh) as (px & Px). destruct (common y c' Hy j Gj Hh) as (py & Py).
  rewrite (Px i e d H C T), (Py i e d H C T). unfold rise.
  destruct (find (fun ie => carries_gas (snd ie) && Nat.eqb (e_from (snd ie)) j)%bool (numbered N)) as [[i1 e1]|] eqn:F1.
  - apply find_some in F1. destruct F1 as (I & B). apply in_numbered in I. cbn [snd] in B. apply andb_prop in B. destruct B as (B1 & B2). apply Nat.eqb_eq in B2.
    rewrite (Px i1 e1 dstart I B1 B2), (Py i1 e1 dstart I B1 B2). ring.
  - destruct (find (fun ie => both_ends (snd ie) && Nat.eqb (e_to (snd ie)) j)%bool (numbered N)) as [[i1 e1]|] eqn:F2.
    + apply find_some in F2. destruct F2 as (I & B). apply in_numbered in I. cbn [snd] in B. apply andb_prop in B. destruct B as (B1 & B2). apply Nat.eqb_eq in B2.
      apply end_end in B1. destruct B1 as (_ & B1). rewrite (Px i1 e1 dend I B1 B2), (Py i1 e1 dend I B1 B2). ring.
    + exfalso. destruct d.
      * pose proof (find_none _ _ F1 (i, e) ltac:(apply in_numbered; exact H)) as B. cbn [snd] in B. rewrite C in B. cbn [andb] in B. apply Nat.eqb_neq in B. apply B. exact T.
      * pose proof (find_none _ _ F2 (i, e) ltac:(apply in_numbered; exact H)) as B. cbn [snd] in B.
        assert (Be : both_ends e = true) by (unfold both_ends, gas_end in *; destruct (e_type e); try destruct G; reflexivity).
        rewrite Be in B. cbn [andb] in B. apply Nat.eqb_neq in B. apply B. exact T.
Qed.
Lemma rise_none j : ~ has_gas_edge N j -> rise N x y j = 0.
Proof.
  intro Hh. unfold rise. destruct (find _ (numbered N)) as [[i1 e1]|] eqn:F1.
  - exfalso. apply Hh. apply find_some in F1. destruct F1 as (I & B). apply in_numbered in I. cbn [snd] in B. apply andb_prop in B. destruct B as (B1 & B2). apply Nat.eqb_eq in B2.
    exists i1, e1, dstart. auto.
  - clear F1. destruct (find _ (numbered N)) as [[i1 e1]|] eqn:F2; [|reflexivity].
    exfalso. apply Hh. apply find_some in F2. destruct F2 as (I & B). apply in_numbered in I. cbn [snd] in B. apply andb_prop in B. destruct B as (B1 & B2). apply Nat.eqb_eq in B2.
    exists i1, e1, dend. apply end_end in B1. tauto.
Qed.
Lemma short_ends i e v cc : nth_error (edges N) i = Some e -> short e -> edge_equation N i e t0 t1 last v cc ->
  pressure_at N i e dend v = pressure_at N i e dstart v + lift N i e cc /\ flow_at N i dend v = flow_at N i dstart v.
Proof.
  intros H S E. destruct (block_after N i e H) as (A & _). unfold edge_equation in E. cbv zeta in E. unfold pressure_at, flow_at, end_position, lift, short in *. rewrite A.
  assert (Q : (fst (edge_block N i) + 4 - 2 = fst (edge_block N i) + 2)%nat) by lia.
  assert (Q' : (fst (edge_block N i) + 2 + 1 = fst (edge_block N i) + 3)%nat) by lia.
  destruct (e_type e); try destruct S; cbn [edge_states]; rewrite Q, Q'; lra.
Qed.
Lemma more_at i e d : nth_error (edges N) i = Some e -> gas_end e d -> flow_at N i d y = flow_at N i d x + more_flow N x y i.
Proof.
  intros H G. unfold more_flow. destruct d; [ring|].
  destruct (e_type e) eqn:T; try (unfold gas_end in G; rewrite T in G; destruct G; fail).
  - pose proof (Same i e H) as Q. rewrite T in Q. rewrite (proj2 (Q dstart)), (proj2 (Q dend)). ring.
  - assert (S : short e) by (unfold short; rewrite T; exact Logic.I).
    rewrite (proj2 (short_ends i e x c H S (proj2 Hx i e H))), (proj2 (short_ends i e y c' H S (proj2 Hy i e H))). ring.
  - assert (S : short e) by (unfold short; rewrite T; exact Logic.I).
    rewrite (proj2 (short_ends i e x c H S (proj2 Hx i e H))), (proj2 (short_ends i e y c' H S (proj2 Hy i e H))). ring.
  - assert (S : short e) by (unfold short; rewrite T; exact Logic.I).
    rewrite (proj2 (short_ends i e x c H S (proj2 Hx i e H))), (proj2 (short_ends i e y c' H S (proj2 Hy i e H))). ring.
Qed.
Lemma only_adapted : adapted N (rise N x y) c c'.
Proof.
  intros i e H S. assert (G : forall d, gas_end e d) by (intro d; unfold gas_end, short in *; destruct (e_type e), d; tauto).
  pose proof (rise_at i e dstart H (G dstart)) as A. pose proof (rise_at i e dend H (G dend)) as B. cbn [end_node] in A, B.
  pose proof (proj1 (short_ends i e x c H S (proj2 Hx i e H))). pose proof (proj1 (short_ends i e y c' H S (proj2 Hy i e H))). lra.
Qed.
Lemma divergence_more j : is_gas_node N j -> divergence N (more_flow N x y) j = net_outflow N j y - net_outflow N j x.
Proof.
  intro Gj. replace (net_outflow N j y - net_outflow N j x) with (net_outflow N j y + -1 * net_outflow N j x) by ring.
  unfold divergence, net_outflow. rewrite <- rsum_scal, rsum_plus. apply rsum_ext. intros [i e] I. apply in_numbered in I. cbn [fst snd].
  destruct (carries_gas e) eqn:C; [|ring].
  assert (T : forall d, Nat.eqb (end_node e d) j = true -> flow_at N i d y = flow_at N i d x + more_flow N x y i).
  { intros d E. apply Nat.eqb_eq in E. apply (more_at i e d I). apply (touching N W e d j (nth_error_In _ _ I) C); [destruct d; exact E|exact Gj]. }
  pose proof (T dstart) as T1. pose proof (T dend) as T2. cbn [end_node] in *.
  destruct (Nat.eqb (e_from e) j), (Nat.eqb (e_to e) j); rewrite ?T1, ?T2 by reflexivity; ring.
Qed.
Lemma no_edges (j : nat) : ~ has_gas_edge N j -> divergence N (more_flow N x y) j = 0.
Proof.
  intro Hh. unfold divergence. transitivity (rsum (fun _ : nat * edge => 0 * 0) (numbered N)); [|rewrite rsum_scal; ring].
  apply rsum_ext. intros [i e] I. apply in_numbered in I. cbn [fst snd]. destruct (carries_gas e) eqn:C; [|ring].
  destruct (Nat.eqb_spec (e_from e) j) as [E|_]; [exfalso; apply Hh; exists i, e, dstart; auto|].
  destruct (Nat.eqb_spec (e_to e) j) as [E|_]; [exfalso; apply Hh; exists i, e, dend; auto|]. ring.
Qed.
Lemma gas_edge_dec j : has_gas_edge N j \/ ~ has_gas_edge N j.
Proof.
  destruct (existsb (fun ie => carries_gas (snd ie) && (Nat.eqb (e_from (snd ie)) j || Nat.eqb (e_to (snd ie)) j))%bool (numbered N)) eqn:E.
  - left. apply existsb_exists in E. destruct E as ([i e] & I & B). apply in_numbered in I. cbn [snd] in B. apply andb_prop in B. destruct B as (B1 & B2).
    apply orb_prop in B2. destruct B2 as [B2|B2]; apply Nat.eqb_eq in B2; [exists i, e, dstart|exists i, e, dend]; auto.
  - right. intros (i & e & d & H & C & T). apply Bool.not_true_iff_false in E. apply E. apply existsb_exists. exists (i, e). split; [apply in_numbered; exact H|].
    cbn [snd]. rewrite C. destruct d; cbn [touches] in T; rewrite T, Nat.eqb_refl; [reflexivity|apply orb_true_r].
Qed.
Lemma only_adaptable : adaptable N (rise N x y) (more_flow N x y).
Proof.
  split; [|split].
  - intros j b Hj. destruct (gas_edge_dec j) as [Hh|Hh]; [|apply rise_none; exact Hh].
    pose proof (proj1 Hx j _ Hj) as A. pose proof (proj1 Hy j _ Hj) as B. cbn [node_equation] in A, B. destruct (A Hh) as (v & V & P). destruct (B Hh) as (v' & V' & P').
    rewrite V in V'. injection V' as <-. assert (Gj : is_gas_node N j) by (unfold is_gas_node; rewrite Hj; exact Logic.I).
    destruct Hh as (i & e & d & H & C & T). destruct (touching N W e d j (nth_error_In _ _ H) C T Gj) as (G & E).
    pose proof (rise_at i e d H G) as R. rewrite E, (P i e d H C T), (P' i e d H C T) in R. lra.
  - intros i e H. pose proof (Same i e H) as Q. destruct (e_type e) eqn:T; auto.
    + assert (G : forall d, gas_end e d) by (intro d; unfold gas_end; rewrite T; destruct d; exact Logic.I).
      pose proof (rise_at i e dstart H (G dstart)) as A. pose proof (rise_at i e dend H (G dend)) as B. cbn [end_node] in A, B.
      destruct (Q dstart) as (Q1 & Q2). destruct (Q dend) as (Q3 & _). rewrite Q1 in A. rewrite Q3 in B. unfold more_flow. rewrite Q2. lra.
    + assert (S : short e) by (unfold short; rewrite T; exact Logic.I). pose proof (only_adapted i e H S) as L. unfold lift in L. rewrite T in L. lra.
    + unfold more_flow. rewrite Q. ring.
  - intros j B. assert (Gj : is_gas_node N j) by (unfold is_gas_node, balances in *; destruct (nth_error (nodes N) j) as [[]|]; tauto).
    destruct (gas_edge_dec j) as [Hh|Hh]; [|apply no_edges; exact Hh]. rewrite divergence_more by exact Gj. unfold balances in B.
    destruct (nth_error (nodes N) j) as [t|] eqn:Hj; [|destruct B]. pose proof (proj1 Hx j t Hj) as A. pose proof (proj1 Hy j t Hj) as A'. destruct t; try destruct B; cbn [node_equation] in A, A'.
    + destruct (A Hh) as (_ & Q). destruct (A' Hh) as (_ & Q'). lra.
    + destruct (A Hh) as (v & V & _ & Q). destruct (A' Hh) as (v' & V' & _ & Q'). rewrite V in V'. injection V' as <-. lra.
Qed.
End Only.
