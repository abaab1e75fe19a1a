(** * Specification: controls that are adapted to other pressures *)
From Coq Require Import Reals List Arith.
From Verif Require Import Base Calc Net_Model Net_Spec Level_Spec Lift_Spec.
Local Open Scope R_scope.

(** A change [h] of the pressures at the nodes and [z] of the flows through the edges that leaves alone what the controls can not
    make up for: nodes with given pressure, pipes, both ends of a short pipe relative to each other, the flow into a power plant and
    the balance of the flows at the nodes. *)
Definition adaptable (N : network) (h z : nat -> R) : Prop :=
  (forall j b, nth_error (nodes N) j = Some (Pressurenode b) -> h j = 0) /\
  (forall i e, nth_error (edges N) i = Some e ->
     match e_type e with
     | EPipe _ _ _ _ => h (e_from e) = 0 /\ h (e_to e) = 0 /\ z i = 0
     | EShortpipe => h (e_from e) = h (e_to e)
     | EGaspower _ _ => z i = 0
     | ECompressor _ | EControlvalve | ELine _ _ => True
     end) /\
  (forall j, balances N j -> divergence N z j = 0).
(** The controls [c'] raise the pressures by what [h] demands more than [c]. *)
Definition adapted (N : network) (h : nat -> R) (c c' : vec) : Prop :=
  forall i e, nth_error (edges N) i = Some e -> short e -> lift N i e c' = lift N i e c + (h (e_to e) - h (e_from e)).
