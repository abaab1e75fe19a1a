(** A finished simulation of a network. *)
From Coq Require Import Reals ZArith Lra Lia List Arith FunctionalExtensionality.
From Verif Require Import Base Interp_Model Calc Newton_Model Newton_Spec Evolve_Model Evolve_Spec Evolve_Proofs
  Box_Model Net_Model Net_Spec Sim_Model Sim_Spec Sim_Proofs.
Import ListNotations.
Local Open Scope R_scope.

Lemma sum_squares_pos n r : 0 <= sum_squares n r.
Proof. induction n as [|n IH]; cbn; [lra|]. pose proof (Rle_0_sqr (r n)). unfold Rsqr in *. lra. Qed.
Lemma sum_squares_entry n r i : (i < n)%nat -> r i * r i <= sum_squares n r.
Proof.
  induction n as [|n IH]; intro H; [lia|]. cbn [sum_squares].
  pose proof (Rle_0_sqr (r n)). pose proof (sum_squares_pos n r). unfold Rsqr in *.
  destruct (Nat.eq_dec i n); [subst; lra|]. specialize (IH ltac:(lia)). lra.
Qed.
Lemma norm_entry n r i : (i < n)%nat -> Rabs (r i) <= euclidean_norm n r.
Proof.
  intro H. unfold euclidean_norm. rewrite <- sqrt_Rsqr_abs. apply sqrt_le_1.
  - apply Rle_0_sqr.
  - apply sum_squares_pos.
  - apply sum_squares_entry. exact H.
Qed.

Section Network.
Variables (E LU : Type) (n : nat) (net : E -> network).
Variable prepare : E -> R -> R -> vec -> list R -> outcome E.
Variable factor : E -> R -> R -> vec -> list R -> vec -> option LU.
Variable linsolve : LU -> vec -> vec.
Let PB := network_problem E LU n net prepare factor linsolve.

Lemma network_never_nan : never_nan PB.
Proof. unfold never_nan. intros. discriminate. Qed.
Lemma network_zero_step : zero_step_ends PB.
Proof.
  unfold zero_step_ends. intros. left. cbn. apply functional_extensionality. intro. ring.
Qed.

Theorem network_step_within cfg controls fuel t0 t1 u v e1 :
  well_formed (net e1) -> pipes_ok (net e1) -> number_of_states (net e1) = n -> boundary_defined (net e1) t1 ->
  (0 <= maximal_iterations (newton cfg))%Z -> tolerance (newton cfg) < 1000000 ->
  accepted PB (newton cfg) fuel controls t0 t1 u v e1 ->
  0 <= tolerance (newton cfg) /\
  exists c e0, (iinner controls = 0%nat /\ c = [] \/ (0 < iinner controls)%nat /\ interp_at controls t1 = Ok c) /\
    prepare e0 t0 t1 u c = Ok e1 /\
    network_equations_within (net e1) (tolerance (newton cfg)) t0 t1 u v (control_vector c).
Proof.
  intros W HP Hn HB Hm Ht A. pose proof A as A'.
  destruct A as [c [e0 [full [sol [Hc [Hp _]]]]]].
  destruct (accepted_equations PB fuel cfg controls t0 t1 u v e1 network_never_nan Hm Ht A') as [c' [Hc' H]].
  assert (c' = c) by (destruct Hc as [[? ?]|[? ?]], Hc' as [[? ?]|[? ?]]; try lia; congruence). subst c'.
  assert (T : exists r, evaluate (net e1) t0 t1 u v (control_vector c) (fun _ => 0) = Ok r /\
      euclidean_norm n r <= tolerance (newton cfg)).
  { destruct (evaluate_small 0 (Rle_refl 0) (net e1) t0 t1 u v (control_vector c) (fun _ => 0) W HP HB) as [r [Er _]].
    exists r. split; [exact Er|]. cbn in H. rewrite Er in H. exact H. }
  destruct T as [r [Er Hr]].
  assert (Te : 0 <= tolerance (newton cfg)) by (eapply Rle_trans; [apply sqrt_pos|exact Hr]).
  split; [exact Te|]. exists c, e0. split; [exact Hc|]. split; [exact Hp|].
  destruct (evaluate_small _ Te (net e1) t0 t1 u v (control_vector c) (fun _ => 0) W HP HB) as [r' [Er' K]].
  assert (r' = r) by congruence. subst r'. apply K. intros i Hi. rewrite Hn in Hi.
  eapply Rle_trans; [apply (norm_entry n r i Hi)|exact Hr].
Qed.
End Network.
