(** The state with the values of the new short pipe. *)
From Coq Require Import Reals ZArith Lra Lia List Arith Bool.
From Verif Require Import Base Calc Euler_Model Box_Model Net_Model Net_Spec Net_Proofs5 Level_Spec Level_Proofs Apart_Spec Apart_Proofs Apart_Proofs2.
From Verif Require Import Insert_Spec Insert_Proofs.
Import ListNotations.
Local Open Scope R_scope.

Lemma equations_read N t0 t1 last x y c : well_formed N ->
  (forall k, (k < number_of_states N)%nat -> y k = x k) -> network_equations N t0 t1 last y c -> network_equations N t0 t1 last x c.
Proof.
  intros W A. set (f := fun k : nat => k).
  assert (O : occurs N N f f).
  { split; [intros ? ? _ _; auto|]. split; [intros ? ? _ _; auto|]. split; [auto|]. intros i [a b t]. auto. }
  assert (U : unconnected N N f f).
  { intros i' e' j H _ _. exists i'. split; [apply nth_error_Some; congruence|reflexivity]. }
  apply (network_part N N f f W O U t0 t1 last last x y c c).
  - split; reflexivity.
  - split.
    + intros j k Hj Hk. apply A. unfold is_power_node in Hj. destruct (nth_error (nodes N) j) as [t|] eqn:E; [|destruct Hj].
      destruct (node_block_spec N j t E) as (s & B & L). unfold f. rewrite B. cbn [fst]. destruct t; try destruct Hj. cbn in L. lia.
    + intros i e k H Hk. apply A. destruct (edge_block_spec N i e H) as (s & B & L). unfold f. rewrite B. cbn [fst]. lia.
  - intros i e _ _. reflexivity.
Qed.

Section Insert.
Variables (N : network) (i : nat) (e : edge) (d : direction).
Hypothesis W : well_formed N.
Hypothesis He : nth_error (edges N) i = Some e.
Hypothesis Hd : gas_end e d.
Let n := number_of_states N.
Let N' := insert_shortpipe N i d (end_node e d).

Lemma end_read x y : (forall k, (k < n)%nat -> y k = x k) -> pressure_at N i e d y = pressure_at N i e d x /\ flow_at N i d y = flow_at N i d x.
Proof.
  intro A. destruct (end_inside N i e d W He Hd) as (B1 & B2). destruct (block_after N i e He) as (_ & B3). destruct (block_after N i e He) as (B4 & _). fold n in B3.
  assert (E0 : y (end_position N i d) = x (end_position N i d)) by (apply A; lia).
  assert (E1 : y (end_position N i d + 1)%nat = x (end_position N i d + 1)%nat) by (apply A; lia).
  unfold pressure_at, flow_at. rewrite E0, E1. auto.
Qed.
Definition extended (x : vec) : vec := fun k =>
  if Nat.ltb k n then x k
  else if Nat.even (k - n) then pressure_at N i e d x
  else match d with dstart => flow_at N i d x | dend => - flow_at N i d x end.
Lemma extended_old x k : (k < n)%nat -> extended x k = x k.
Proof. intro H. unfold extended. rewrite (proj2 (Nat.ltb_lt k n) H). reflexivity. Qed.
Lemma extended_values x : shortpipe_values N i e d (extended x).
Proof.
  destruct (end_read x (extended x) (extended_old x)) as (P & Q). unfold shortpipe_values. cbv zeta. rewrite P, Q. fold n. unfold extended.
  rewrite !(fun k => proj2 (Nat.ltb_ge (n + k) n)) by lia. rewrite (proj2 (Nat.ltb_ge n n)) by lia.
  rewrite !(Nat.add_comm n), !Nat.add_sub, Nat.sub_diag. cbn. auto.
Qed.
Lemma inserted_solutions t0 t1 last x c : network_equations N t0 t1 last x c ->
  exists x', (forall k, (k < n)%nat -> x' k = x k) /\ network_equations N' t0 t1 last x' c /\
    forall y, (forall k, (k < n)%nat -> y k = x k) -> network_equations N' t0 t1 last y c ->
      forall k, (k < number_of_states N')%nat -> y k = x' k.
Proof.
  intro H. exists (extended x). split; [apply extended_old|]. split.
  - apply (inserted_equations N i e d W He Hd). split; [|apply extended_values].
    apply (equations_read N t0 t1 last (extended x) x c W); [|exact H]. intros k Hk. symmetry. apply extended_old. exact Hk.
  - intros y A Y k Hk. apply (inserted_equations N i e d W He Hd) in Y. destruct Y as (_ & V).
    unfold N' in Hk. rewrite (inserted_states N i e d Hd) in Hk. fold n in Hk.
    destruct (lt_dec k n) as [L|L]; [rewrite A, extended_old by exact L; reflexivity|].
    pose proof (extended_values x) as V'. unfold shortpipe_values in V, V'. cbv zeta in V, V'. fold n in V, V'.
    destruct (end_read x y A) as (P & Q). destruct (end_read x (extended x) (extended_old x)) as (P' & Q'). rewrite P, Q in V. rewrite P', Q' in V'.
    destruct V as (V0 & V1 & V2 & V3). destruct V' as (V0' & V1' & V2' & V3').
    assert (Hk' : (k = n \/ k = n + 1 \/ k = n + 2 \/ k = n + 3)%nat) by lia. destruct Hk' as [-> | [-> | [-> | ->]]]; congruence.
Qed.

(** ** The new network is a network *)
Lemma inserted_well_formed : well_formed N'.
Proof.
  unfold well_formed. apply Forall_forall. intros e0 I. apply In_nth_error in I. destruct I as (i0 & H0).
  assert (G : forall j0, is_gas_node N j0 -> is_gas_node N' j0).
  { intros j0 G. unfold is_gas_node in *. destruct (nth_error (nodes N) j0) eqn:E; [|destruct G].
    cbn. rewrite nth_error_app1 by (apply nth_error_Some; congruence). rewrite E. exact G. }
  assert (P : forall j0, is_power_node N j0 -> is_power_node N' j0).
  { intros j0 G'. unfold is_power_node in *. destruct (nth_error (nodes N) j0) eqn:E; [|destruct G'].
    cbn. rewrite nth_error_app1 by (apply nth_error_Some; congruence). rewrite E. exact G'. }
  assert (K : is_gas_node N' (length (nodes N))) by (unfold is_gas_node; cbn; rewrite nth_error_app2, Nat.sub_diag by lia; exact Logic.I).
  pose proof (j_small N i e d W He Hd) as J.
  assert (All := proj1 (Forall_forall _ _) W).
  destruct (edge_cases N i e d He i0 e0 H0) as [(-> & ->)|[(-> & ->)|(Ne & L & O)]].
  - split; cbn; [lia|]. split; [apply G; apply (gas_j N i e d W He Hd)|exact K].
  - destruct (All e (nth_error_In _ _ He)) as (A & B). destruct (edge_inside N W i e He) as (In1 & In2).
    unfold edge_ok. rewrite (moved_type N i e d Hd e). unfold gas_end in Hd. split; [destruct d; cbn; lia|].
    destruct d; cbn [moved e_from e_to]; destruct (e_type e); intuition auto.
  - destruct (All e0 (nth_error_In _ _ O)) as (A & B). split; [exact A|]. destruct (e_type e0); intuition auto.
Qed.
Lemma inserted_pipes : pipes_ok N -> pipes_ok N'.
Proof.
  unfold pipes_ok. rewrite !Forall_forall. intros HP e0 I. apply In_nth_error in I. destruct I as (i0 & H0).
  destruct (edge_cases N i e d He i0 e0 H0) as [(-> & ->)|[(-> & ->)|(Ne & L & O)]].
  - exact Logic.I.
  - rewrite (moved_type N i e d Hd e). exact (HP e (nth_error_In _ _ He)).
  - exact (HP e0 (nth_error_In _ _ O)).
Qed.
Lemma inserted_boundary t : boundary_defined N t -> boundary_defined N' t.
Proof.
  intros HB j0. specialize (HB j0). cbn [N' insert_shortpipe nodes]. destruct (lt_dec j0 (length (nodes N))) as [L|L].
  - rewrite nth_error_app1 by exact L. exact HB.
  - rewrite nth_error_app2 by lia. destruct (j0 - length (nodes N))%nat as [|[|]]; exact Logic.I.
Qed.
End Insert.
