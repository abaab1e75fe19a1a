(** * Specification: affine dependence on the last state and the controls *)
From Coq Require Import Reals List Arith.
From Verif Require Import Base Calc Net_Model.
Local Open Scope R_scope.

(** Between [u] and [u'] the values [r] and [r'] change exactly by the matrix times the difference. *)
Definition changes_by (m n : nat) (A : mat) (u u' r r' : vec) : Prop :=
  forall i, (i < m)%nat -> r' i - r i = vsum n (fun k => A i k * (u' k - u k)).
(** The point between [u] and [u'] (or beyond) at the parameter [s]. *)
Definition mix (s : R) (u u' : vec) : vec := fun k => (1 - s) * u k + s * u' k.

(** The states [last] and [last'] differ in the pipes only by a value with alternating sign: [a i] for the densities and [b i] for
    the flows of pipe [i].  Variables outside of pipes may differ in any way. *)
Definition alternating (N : network) (a b : nat -> R) (last last' : vec) : Prop :=
  forall i e d k dx np, nth_error (edges N) i = Some e -> e_type e = EPipe d k dx np ->
    forall m, (m < np)%nat ->
      let s := (fst (edge_block N i) + 2 * m)%nat in
      last' s = last s + (-1) ^ m * a i /\ last' (s + 1)%nat = last (s + 1)%nat + (-1) ^ m * b i.
