(** Other boundary conditions at a node. *)
From Coq Require Import Reals ZArith Lra Lia List Arith Bool.
From Coquelicot Require Import Complex.
From Verif Require Import Base Calc Euler_Model Box_Model Net_Model Net_Spec Insert_Proofs.
From Verif Require Import Swap_Spec.
Import ListNotations.
Local Open Scope R_scope.

(** Gas nodes in place of gas nodes, power nodes with the same admittance in place of power nodes. *)
Definition alike (t t' : nodetype) : Prop :=
  match t, t' with
  | Powernode _ _ G B _, Powernode _ _ G' B' _ => G' = G /\ B' = B
  | Powernode _ _ _ _ _, _ | _, Powernode _ _ _ _ _ => False
  | _, _ => True
  end.

Lemma alike_map l l' : Forall2 alike l l' -> map node_states l' = map node_states l.
Proof. induction 1 as [|t t' ? ? A _ IH]; [reflexivity|]. cbn [map]. rewrite IH. f_equal. destruct t, t'; try destruct A; reflexivity. Qed.
Lemma alike_nth_error l l' : Forall2 alike l l' -> forall j,
  match nth_error l j, nth_error l' j with Some t, Some t' => alike t t' | None, None => True | _, _ => False end.
Proof. induction 1 as [|t t' ? ? A _ IH]; intros [|j]; cbn; auto. apply IH. Qed.

Lemma csum_same {A} (f g : A -> C) q : (forall a, f a = g a) -> csum f q = csum g q.
Proof. intro H. induction q as [|a q IH]; cbn; [reflexivity|]. unfold csum in IH. rewrite H, IH. reflexivity. Qed.

Section Shape.
Variables (N N' : network).
Hypothesis He : edges N' = edges N.
Hypothesis Hn : Forall2 alike (nodes N) (nodes N').

Lemma alike_states : map node_states (nodes N') = map node_states (nodes N).
Proof. exact (alike_map _ _ Hn). Qed.
Lemma alike_number : length (nodes N') = length (nodes N).
Proof. rewrite <- (map_length node_states (nodes N')), <- (map_length node_states (nodes N)), alike_states. reflexivity. Qed.
Lemma alike_sizes : state_sizes N' = state_sizes N.
Proof. unfold state_sizes. rewrite He, alike_states. reflexivity. Qed.
Lemma alike_total : number_of_states N' = number_of_states N.
Proof. unfold number_of_states. rewrite alike_sizes. reflexivity. Qed.
Lemma alike_node_block j : node_block N' j = node_block N j.
Proof. unfold node_block, state_blocks. rewrite alike_sizes. reflexivity. Qed.
Lemma alike_edge_block i : edge_block N' i = edge_block N i.
Proof. unfold edge_block, state_blocks. rewrite alike_sizes, alike_number. reflexivity. Qed.
Lemma alike_control_block i : control_block N' i = control_block N i.
Proof. unfold control_block, control_blocks, control_sizes. rewrite He. reflexivity. Qed.
Lemma alike_pressure i e d x : pressure_at N' i e d x = pressure_at N i e d x.
Proof. unfold pressure_at, end_position. rewrite alike_edge_block. reflexivity. Qed.
Lemma alike_flow i d x : flow_at N' i d x = flow_at N i d x.
Proof. unfold flow_at, end_position. rewrite alike_edge_block. reflexivity. Qed.
Lemma alike_equal j x pr : equal_pressures N' j x pr <-> equal_pressures N j x pr.
Proof. unfold equal_pressures. rewrite He. setoid_rewrite alike_pressure. reflexivity. Qed.
Lemma alike_has j : has_gas_edge N' j <-> has_gas_edge N j.
Proof. unfold has_gas_edge. rewrite He. reflexivity. Qed.
Lemma rsum_same {A} (f g : A -> R) q : (forall a, f a = g a) -> rsum f q = rsum g q.
Proof. intro H. induction q as [|a q IH]; cbn; [reflexivity|]. rewrite H, IH. reflexivity. Qed.
Lemma alike_outflow j x : net_outflow N' j x = net_outflow N j x.
Proof. unfold net_outflow, numbered. rewrite He. apply rsum_same. intro ie. rewrite !alike_flow. reflexivity. Qed.
Lemma alike_voltage j x : voltage N' j x = voltage N j x.
Proof. unfold voltage. rewrite alike_node_block. reflexivity. Qed.
Lemma alike_power j G B x : power N' j G B x = power N j G B x.
Proof.
  unfold power, current. rewrite alike_voltage, He. f_equal. f_equal. f_equal. apply csum_same. intro e.
  destruct (e_type e); rewrite ?alike_voltage; reflexivity.
Qed.
Lemma alike_node_equation j t time x : node_equation N' j t time x <-> node_equation N j t time x.
Proof.
  destruct t as [|sink b|b|k ext G B b]; cbn [node_equation].
  - rewrite alike_has, alike_outflow. setoid_rewrite alike_equal. reflexivity.
  - rewrite alike_has, alike_outflow. setoid_rewrite alike_equal. reflexivity.
  - rewrite alike_has. setoid_rewrite alike_equal. reflexivity.
  - rewrite alike_power, alike_node_block. reflexivity.
Qed.
Lemma alike_nth j : match nth_error (nodes N) j, nth_error (nodes N') j with Some t, Some t' => alike t t' | None, None => True | _, _ => False end.
Proof. exact (alike_nth_error _ _ Hn j). Qed.
Lemma alike_edge_equation i e t0 t1 last x c : edge_equation N' i e t0 t1 last x c <-> edge_equation N i e t0 t1 last x c.
Proof.
  unfold edge_equation. rewrite alike_edge_block, alike_control_block. destruct (e_type e); try reflexivity.
  pose proof (alike_nth (e_to e)) as A. destruct (nth_error (nodes N) (e_to e)) as [t|], (nth_error (nodes N') (e_to e)) as [t'|]; try destruct A; try reflexivity.
  destruct t, t'; try destruct A; try reflexivity. subst. setoid_rewrite alike_power. reflexivity.
Qed.
Lemma alike_gas j : is_gas_node N' j <-> is_gas_node N j.
Proof.
  unfold is_gas_node. pose proof (alike_nth j) as A. destruct (nth_error (nodes N) j) as [t|], (nth_error (nodes N') j) as [t'|]; try destruct A; try reflexivity.
  destruct t, t'; try destruct A; reflexivity.
Qed.
Lemma alike_is_power j : is_power_node N' j <-> is_power_node N j.
Proof.
  unfold is_power_node. pose proof (alike_nth j) as A. destruct (nth_error (nodes N) j) as [t|], (nth_error (nodes N') j) as [t'|]; try destruct A; try reflexivity.
  destruct t, t'; try destruct A; reflexivity.
Qed.
Lemma alike_well_formed : well_formed N -> well_formed N'.
Proof.
  unfold well_formed. rewrite He, !Forall_forall. intros W e I. specialize (W e I). destruct W as (A & B). split; [exact A|].
  destruct (e_type e); rewrite ?alike_gas, ?alike_is_power; exact B.
Qed.
Lemma alike_pipes : pipes_ok N -> pipes_ok N'.
Proof. unfold pipes_ok. rewrite He. auto. Qed.
End Shape.

(** ** One node *)
Section Node.
Variables (N : network) (j : nat) (t : nodetype).
Hypothesis Hj : nth_error (nodes N) j = Some t.

Lemma with_node_nth t' j0 : nth_error (nodes (with_node N j t')) j0 = if Nat.eqb j0 j then Some t' else nth_error (nodes N) j0.
Proof.
  cbn [with_node nodes]. rewrite nth_error_map, nth_error_numbered. destruct (Nat.eqb_spec j0 j) as [->|Ne]; [rewrite Hj; cbn; rewrite Nat.eqb_refl; reflexivity|].
  destruct (nth_error (nodes N) j0); [|reflexivity]. cbn. rewrite (proj2 (Nat.eqb_neq j0 j) Ne). reflexivity.
Qed.
Lemma with_node_alike t' : alike t t' -> Forall2 alike (nodes N) (nodes (with_node N j t')).
Proof.
  intro A. cbn [with_node nodes].
  assert (Rf : forall u, alike u u) by (intros []; cbn; auto).
  assert (G : forall l s, (forall u, nth_error l (j - s) = Some u -> (s <= j)%nat -> u = t) ->
    Forall2 alike l (map (fun ju : nat * nodetype => if Nat.eqb (fst ju) j then t' else snd ju) (combine (seq s (length l)) l))).
  { induction l as [|u l IH]; intros s H; [constructor|]. cbn [length seq combine map fst snd]. constructor.
    - destruct (Nat.eqb_spec s j) as [->|]; [|apply Rf]. rewrite (H u) by (rewrite ?Nat.sub_diag; auto). exact A.
    - apply IH. intros u0 H0 L. apply H; [|lia]. replace (j - s)%nat with (S (j - S s)) by lia. exact H0. }
  apply G. intros u H _. rewrite Nat.sub_0_r in H. congruence.
Qed.
(** The equations with another node: those of the other nodes and of the edges are the same. *)
Lemma with_node_equations t' t'' t0 t1 last x c : alike t t' -> alike t t'' ->
  (node_equation N j t' t1 x -> node_equation N j t'' t1 x) ->
  network_equations (with_node N j t') t0 t1 last x c -> network_equations (with_node N j t'') t0 t1 last x c.
Proof.
  intros A1 A2 H (Q & E). pose proof (with_node_alike t' A1) as F1. pose proof (with_node_alike t'' A2) as F2. split.
  - intros j0 u Hu. apply (alike_node_equation N (with_node N j t'') eq_refl F2). rewrite with_node_nth in Hu. specialize (Q j0). rewrite with_node_nth in Q.
    destruct (Nat.eq_dec j0 j) as [Ej|Ne]; [rewrite Ej, Nat.eqb_refl in *|rewrite (proj2 (Nat.eqb_neq j0 j) Ne) in *].
    + injection Hu as <-. apply H. apply (alike_node_equation N (with_node N j t') eq_refl F1). apply Q. reflexivity.
    + apply (alike_node_equation N (with_node N j t') eq_refl F1). apply Q. exact Hu.
  - intros i e Hi. apply (alike_edge_equation N (with_node N j t'') eq_refl F2). apply (alike_edge_equation N (with_node N j t') eq_refl F1). apply E. exact Hi.
Qed.
End Node.
