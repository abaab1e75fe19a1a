(** * Specification of the running cost *)
From Coq Require Import Reals List Arith.
From Verif Require Import Base Calc Net_Model Net_Spec.
Import ListNotations.
Local Open Scope R_scope.

(** Number of controls that belong to the edges before edge [i]. *)
Definition controls_before (N : network) (i : nat) : nat :=
  length (filter (fun e => match e_type e with ECompressor _ | EControlvalve => true | _ => false end)
                 (firstn i (edges N))).
(** Weighted sum of the squared pressure rises of the compressors. *)
Definition compression_cost (N : network) (c : vec) : R :=
  rsum (fun i => match nth_error (edges N) i with
                 | Some e => match e_type e with ECompressor w => w * c (controls_before N i) ^ 2 | _ => 0 end
                 | None => 0
                 end) (seq 0 (length (edges N))).
