(** * Specification: the same network, entered differently *)
From Coq Require Import Reals List Arith Bool.
From Verif Require Import Base Calc Net_Model Net_Spec.
Import ListNotations.
Local Open Scope R_scope.

(** [f] is a permutation of the numbers below [n]. *)
Definition permutes (n : nat) (f : nat -> nat) : Prop :=
  (forall k, (k < n)%nat -> (f k < n)%nat) /\
  (forall k l, (k < n)%nat -> (l < n)%nat -> f k = f l -> k = l).

(** Edges that have no direction by themselves. *)
Definition undirected (t : edgetype) : Prop :=
  match t with EPipe _ _ _ _ | EShortpipe | ELine _ _ => True | _ => False end.

(** [N'] is [N] with node [j] moved to position [pn j], edge [i] moved to position [pe i], and the edges with
    [flip i] entered in the opposite direction. *)
Definition same_network (N N' : network) (pn pe : nat -> nat) (flip : nat -> bool) : Prop :=
  length (nodes N') = length (nodes N) /\ permutes (length (nodes N)) pn /\
  length (edges N') = length (edges N) /\ permutes (length (edges N)) pe /\
  (forall j t, nth_error (nodes N) j = Some t -> nth_error (nodes N') (pn j) = Some t) /\
  (forall i e, nth_error (edges N) i = Some e ->
     nth_error (edges N') (pe i) =
       Some (if flip i then mkEdge (pn (e_to e)) (pn (e_from e)) (e_type e)
             else mkEdge (pn (e_from e)) (pn (e_to e)) (e_type e)) /\
     (flip i = true -> undirected (e_type e))).

(** The state [y] of [N'] describes the same situation as the state [x] of [N]: in edges that were turned around the
    points are in the opposite order and the flows have the opposite sign. *)
Definition points (t : edgetype) : nat :=
  match t with EPipe _ _ _ np => np | EShortpipe => 2%nat | _ => 0%nat end.
Definition same_state (N N' : network) (pn pe : nat -> nat) (flip : nat -> bool) (x y : vec) : Prop :=
  (forall j k, is_power_node N j -> (k < 2)%nat ->
     y (fst (node_block N' (pn j)) + k)%nat = x (fst (node_block N j) + k)%nat) /\
  (forall i e, nth_error (edges N) i = Some e ->
     let s := fst (edge_block N i) in
     let s' := fst (edge_block N' (pe i)) in
     if flip i then
       forall m, (m < points (e_type e))%nat ->
         let m' := (points (e_type e) - 1 - m)%nat in
         y (s' + 2 * m)%nat = x (s + 2 * m')%nat /\ y (s' + 2 * m + 1)%nat = - x (s + 2 * m' + 1)%nat
     else
       forall k, (k < edge_states (e_type e))%nat -> y (s' + k)%nat = x (s + k)%nat).
Definition same_control (N N' : network) (pe : nat -> nat) (c c' : vec) : Prop :=
  forall i e, nth_error (edges N) i = Some e -> edge_controls (e_type e) = 1%nat ->
    c' (fst (control_block N' (pe i))) = c (fst (control_block N i)).
