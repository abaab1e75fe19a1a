(** * Specification: networks that agree at a time *)
From Coq Require Import Reals List.
From Verif Require Import Base Calc Net_Model.
Import ListNotations.
Local Open Scope R_scope.

(** The same node with the same boundary value at time [t]; at other times the values may differ in any way. *)
Inductive node_at_time (t : R) : nodetype -> nodetype -> Prop :=
| same_Innode : node_at_time t Innode Innode
| same_Flownode : forall sink b b', b' t = b t -> node_at_time t (Flownode sink b) (Flownode sink b')
| same_Pressurenode : forall b b', b' t = b t -> node_at_time t (Pressurenode b) (Pressurenode b')
| same_Powernode : forall k external G B b b', b' t = b t -> node_at_time t (Powernode k external G B b) (Powernode k external G B b').
Definition same_at (t : R) (N N' : network) : Prop := Forall2 (node_at_time t) (nodes N) (nodes N') /\ edges N' = edges N.

(** The value number [i] of a table counts up to time [t]: the one before is earlier than [t]. *)
Definition counts (points : list R) (t : R) (i : nat) : Prop :=
  i = 0%nat \/ exists s, nth_error points (i - 1) = Some s /\ s < t.
