(** * Specification: the same problem at another time of day *)
From Coq Require Import Reals List.
From Verif Require Import Base Interp_Model Calc Net_Model.
Import ListNotations.
Local Open Scope R_scope.

(** A table with all its times later by [s]. *)
Definition later (s : R) (v : ivec) : ivec := mk_ivec (map (fun t => t + s) (ipoints v)) (iinner v) (ivalues v).

(** The same node with all boundary values later by [s]. *)
Inductive node_later (s : R) : nodetype -> nodetype -> Prop :=
| later_Innode : node_later s Innode Innode
| later_Flownode : forall sink b b', (forall t, b' (t + s) = b t) -> node_later s (Flownode sink b) (Flownode sink b')
| later_Pressurenode : forall b b', (forall t, b' (t + s) = b t) -> node_later s (Pressurenode b) (Pressurenode b')
| later_Powernode : forall k external G B b b', (forall t, b' (t + s) = b t) ->
    node_later s (Powernode k external G B b) (Powernode k external G B b').
Definition network_later (s : R) (N N' : network) : Prop :=
  Forall2 (node_later s) (nodes N) (nodes N') /\ edges N' = edges N.
