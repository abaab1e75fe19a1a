(** * Specification of gas networks whose pressures or flows are not determined *)
From Coq Require Import Reals List Arith.
From Verif Require Import Base Calc Net_Model Net_Spec.
Import ListNotations.
Local Open Scope R_scope.

(** The node at an end of an edge, and the ends at which an edge carries gas. *)
Definition end_node (e : edge) (d : direction) : nat := match d with dstart => e_from e | dend => e_to e end.
Definition gas_end (e : edge) (d : direction) : Prop :=
  match e_type e, d with
  | ELine _ _, _ | EGaspower _ _, dend => False
  | _, _ => True
  end.
(** Short pipes, compressors and control valves. *)
Definition short (e : edge) : Prop :=
  match e_type e with EShortpipe | ECompressor _ | EControlvalve => True | _ => False end.
(** Nodes with a balance of flows. *)
Definition balances (N : network) (j : nat) : Prop :=
  match nth_error (nodes N) j with Some Innode | Some (Flownode _ _) => True | _ => False end.

(** What leaves node [j] minus what arrives, if [z i] flows through edge [i]. *)
Definition divergence (N : network) (z : nat -> R) (j : nat) : R :=
  rsum (fun ie => if carries_gas (snd ie)
                  then (if Nat.eqb (e_from (snd ie)) j then z (fst ie) else 0)
                       - (if Nat.eqb (e_to (snd ie)) j then z (fst ie) else 0)
                  else 0) (numbered N).

(** A change [h] of the pressures at the nodes and [z] of the flows through the edges that no equation sees: nodes
    with given pressure and pipes are left alone, both ends of short edges change alike, the changes of the flows are
    balanced. *)
Definition unseen (N : network) (h z : nat -> R) : Prop :=
  (forall j b, nth_error (nodes N) j = Some (Pressurenode b) -> h j = 0) /\
  (forall i e, nth_error (edges N) i = Some e ->
     match e_type e with
     | EPipe _ _ _ _ => h (e_from e) = 0 /\ h (e_to e) = 0 /\ z i = 0
     | EShortpipe | ECompressor _ | EControlvalve => h (e_from e) = h (e_to e)
     | EGaspower _ _ => z i = 0
     | ELine _ _ => True
     end) /\
  (forall j, balances N j -> divergence N z j = 0).
(** It changes something. *)
Definition seen_somewhere (N : network) (h z : nat -> R) : Prop :=
  exists i e d, nth_error (edges N) i = Some e /\ gas_end e d /\ (h (end_node e d) <> 0 \/ z i <> 0).

(** The state [y] is the state [x] changed by [a] times [h] and [z]. *)
Definition changed (N : network) (h z : nat -> R) (a : R) (x y : vec) : Prop :=
  (forall i e d, nth_error (edges N) i = Some e -> gas_end e d ->
     y (end_position N i d) = x (end_position N i d) + a * h (end_node e d) /\
     y (end_position N i d + 1)%nat = x (end_position N i d + 1)%nat + a * z i) /\
  (forall k, (forall i e d, nth_error (edges N) i = Some e -> gas_end e d ->
                k <> end_position N i d /\ k <> (end_position N i d + 1)%nat) -> y k = x k).
