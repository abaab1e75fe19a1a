(** * Specification: states with the same complex voltages *)
From Coq Require Import Reals ZArith List Arith.
From Verif Require Import Base Calc Net_Model Net_Spec.
Import ListNotations.
Local Open Scope R_scope.

Definition of_power_node (N : network) (k : nat) : Prop :=
  exists j, is_power_node N j /\ (k = fst (node_block N j) \/ k = (fst (node_block N j) + 1)%nat).
(** At node [j] the phase is moved by [m j] half turns; an odd number of them changes the sign of the voltage. *)
Definition half_turned (N : network) (m : nat -> Z) (x y : vec) : Prop :=
  (forall j, is_power_node N j ->
     y (fst (node_block N j)) = (if Z.even (m j) then x (fst (node_block N j)) else - x (fst (node_block N j))) /\
     y (fst (node_block N j) + 1)%nat = x (fst (node_block N j) + 1)%nat + IZR (m j) * PI) /\
  (forall k, ~ of_power_node N k -> y k = x k).
(** Where the voltage is given only whole turns are allowed, where the phase is given none at all. *)
Definition allowed (N : network) (m : nat -> Z) : Prop :=
  forall j, match nth_error (nodes N) j with
            | Some (Powernode PV _ _ _ _) => Z.even (m j) = true
            | Some (Powernode Vphi _ _ _ _) => m j = 0%Z
            | _ => True
            end.
