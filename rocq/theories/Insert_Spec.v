(** * Specification: a short pipe between a node and one of its edges *)
From Coq Require Import Reals List Arith.
From Verif Require Import Base Calc Net_Model Net_Spec Level_Spec.
Import ListNotations.
Local Open Scope R_scope.

(** The edge [e] with its end [d] at node [k] instead. *)
Definition moved (d : direction) (k : nat) (e : edge) : edge :=
  match d with
  | dstart => mkEdge k (e_to e) (e_type e)
  | dend => mkEdge (e_from e) k (e_type e)
  end.
(** A new inner node and a short pipe from node [j] to it are added at the end, and the end [d] of edge [i] is attached to
    the new node instead. *)
Definition insert_shortpipe (N : network) (i : nat) (d : direction) (j : nat) : network :=
  let k := length (nodes N) in
  mkNet (nodes N ++ [Innode])
    (map (fun ie => if Nat.eqb (fst ie) i then moved d k (snd ie) else snd ie) (numbered N) ++ [mkEdge j k EShortpipe]).

(** The four variables of the new short pipe, which follow all others, are the pressure at the end of the edge and what
    flows from the node into the edge, twice. *)
Definition shortpipe_values (N : network) (i : nat) (e : edge) (d : direction) (x : vec) : Prop :=
  let n := number_of_states N in
  let q := match d with dstart => flow_at N i d x | dend => - flow_at N i d x end in
  x n = pressure_at N i e d x /\ x (n + 1)%nat = q /\ x (n + 2)%nat = pressure_at N i e d x /\ x (n + 3)%nat = q.
