(** * C05 on sorted grids in which time points may be repeated *)
From Coq Require Import List Arith Reals Lra Lia Sorted.
From Verif Require Import Base Interp_Model Interp_Spec Interp_Proofs3.
Import ListNotations.
Open Scope R_scope.

Theorem C05_quadrature_sorted : forall pts f, (2 <= length pts)%nat -> Sorted Rle pts ->
  length (quadrature_weights pts) = length pts /\
  (forall i w, nth_error (quadrature_weights pts) i = Some w -> 0 <= w) /\
  Rsum (length pts) (fun i => nth i (quadrature_weights pts) 0 * f i) = trapezoid pts f /\
  Rsum (length pts) (fun i => nth i (quadrature_weights pts) 0) =
    nth (length pts - 1) pts 0 - nth 0 pts 0 /\
  (forall c d, (forall i, (i < length pts)%nat -> f i = c + d * nth i pts 0) ->
     let a := nth 0 pts 0 in let b := nth (length pts - 1) pts 0 in
     Rsum (length pts) (fun i => nth i (quadrature_weights pts) 0 * f i) =
     (c * b + d * (b * b) / 2) - (c * a + d * (a * a) / 2)).
Proof. exact quadrature_sorted. Qed.
Print Assumptions C05_quadrature_sorted.

(** A grid with a repeated point: weights 1/2, 1/2, 1, 1. *)
Example C05_sorted_case : (2 <= length [0; 1; 1; 3])%nat /\ Sorted Rle [0; 1; 1; 3] /\
  nth 0 (quadrature_weights [0; 1; 1; 3]) 0 = 1 / 2 /\
  nth 1 (quadrature_weights [0; 1; 1; 3]) 0 = 1 / 2 /\
  nth 2 (quadrature_weights [0; 1; 1; 3]) 0 = 1 /\
  nth 3 (quadrature_weights [0; 1; 1; 3]) 0 = 1.
Proof.
  split; [cbn; lia|]. split.
  - repeat constructor; lra.
  - unfold quadrature_weights, quadrature_weight. cbn. repeat split; lra.
Qed.
