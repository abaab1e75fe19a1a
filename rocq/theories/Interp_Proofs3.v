(** * Quadrature weights on sorted grids with repeated time points *)
From Coq Require Import List Arith Reals Lra Lia Sorted.
From Verif Require Import Base Interp_Model Interp_Spec Interp_Proofs Interp_Proofs2.
Import ListNotations.
Open Scope R_scope.

Lemma sorted_le pts : Sorted Rle pts -> forall i j, (i <= j < length pts)%nat ->
  nth i pts 0 <= nth j pts 0.
Proof.
  intro H. apply Sorted_StronglySorted in H; [|intros x y z; apply Rle_trans].
  induction H as [|a l H IH F]; intros i j L; [cbn in L; lia|].
  destruct i as [|i], j as [|j]; cbn [nth length] in *; try lia.
  - lra.
  - apply (proj1 (Forall_forall _ _) F). apply nth_In. lia.
  - apply IH. lia.
Qed.

Lemma quadrature_nonneg_sorted pts i : (2 <= length pts)%nat -> Sorted Rle pts -> (i < length pts)%nat ->
  0 <= quadrature_weight pts i.
Proof.
  intros H2 Hi Hlt. unfold quadrature_weight.
  rewrite (proj2 (Nat.eqb_neq (length pts) 1)) by lia.
  destruct (i =? 0)%nat eqn:E0; [|destruct (i =? length pts - 1)%nat eqn:E1];
    apply Nat.eqb_eq in E0 || apply Nat.eqb_neq in E0.
  - assert (nth 0 pts 0 <= nth 1 pts 0) by (apply sorted_le; auto; lia). lra.
  - apply Nat.eqb_eq in E1. assert (nth (i - 1) pts 0 <= nth i pts 0) by (apply sorted_le; auto; lia). lra.
  - apply Nat.eqb_neq in E1. assert (nth (i - 1) pts 0 <= nth (i + 1) pts 0) by (apply sorted_le; auto; lia). lra.
Qed.

Lemma quadrature_sorted : forall pts f, (2 <= length pts)%nat -> Sorted Rle pts ->
  length (quadrature_weights pts) = length pts /\
  (forall i w, nth_error (quadrature_weights pts) i = Some w -> 0 <= w) /\
  Rsum (length pts) (fun i => nth i (quadrature_weights pts) 0 * f i) = trapezoid pts f /\
  Rsum (length pts) (fun i => nth i (quadrature_weights pts) 0) =
    nth (length pts - 1) pts 0 - nth 0 pts 0 /\
  (forall c d, (forall i, (i < length pts)%nat -> f i = c + d * nth i pts 0) ->
     let a := nth 0 pts 0 in let b := nth (length pts - 1) pts 0 in
     Rsum (length pts) (fun i => nth i (quadrature_weights pts) 0 * f i) =
     (c * b + d * (b * b) / 2) - (c * a + d * (a * a) / 2)).
Proof.
  intros pts f H2 Hi.
  assert (L : length (quadrature_weights pts) = length pts)
    by (unfold quadrature_weights; rewrite map_length, seq_length; reflexivity).
  assert (W : forall i, (i < length pts)%nat -> nth i (quadrature_weights pts) 0 = quadrature_weight pts i).
  { intros i H. apply nth_error_nth. apply weights_list; auto. }
  assert (T : forall g, Rsum (length pts) (fun i => nth i (quadrature_weights pts) 0 * g i) = trapezoid pts g).
  { intro g. rewrite <- quadrature_is_trapezoid by auto. apply Rsum_ext. intros i H. rewrite W by auto. reflexivity. }
  split; [exact L|]. split; [|split; [apply T|split]].
  - intros i w Hw. assert (i < length pts)%nat by (rewrite <- L; eapply nth_error_lt_inv; eauto).
    rewrite weights_list in Hw by auto. injection Hw as <-. apply quadrature_nonneg_sorted; auto.
  - rewrite (Rsum_ext _ _ (fun i => nth i (quadrature_weights pts) 0 * (1 + 0 * nth i pts 0)))
      by (intros; ring).
    rewrite (T (fun i => 1 + 0 * nth i pts 0)), trapezoid_affine by auto. cbv zeta. field.
  - intros c d Hf. cbv zeta. rewrite T.
    replace (trapezoid pts f) with (trapezoid pts (fun i => c + d * nth i pts 0)).
    + rewrite trapezoid_affine by auto. cbv zeta. field.
    + unfold trapezoid. apply Rsum_ext. intros i H. rewrite !Hf by lia. reflexivity.
Qed.
