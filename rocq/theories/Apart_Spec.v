(** * Specification: parts of a network that are not connected with the rest *)
From Coq Require Import Reals List Arith.
From Verif Require Import Base Calc Net_Model Net_Spec.
Import ListNotations.
Local Open Scope R_scope.

Definition one_to_one (n : nat) (f : nat -> nat) : Prop :=
  forall k l, (k < n)%nat -> (l < n)%nat -> f k = f l -> k = l.

(** [N] occurs in [N']: node [j] of [N] as node [pn j], edge [i] as edge [pe i]. *)
Definition occurs (N N' : network) (pn pe : nat -> nat) : Prop :=
  one_to_one (length (nodes N)) pn /\ one_to_one (length (edges N)) pe /\
  (forall j t, nth_error (nodes N) j = Some t -> nth_error (nodes N') (pn j) = Some t) /\
  (forall i e, nth_error (edges N) i = Some e ->
     nth_error (edges N') (pe i) = Some (mkEdge (pn (e_from e)) (pn (e_to e)) (e_type e))).
(** No other edge of [N'] is attached to a node of [N]. *)
Definition unconnected (N N' : network) (pn pe : nat -> nat) : Prop :=
  forall i' e' j, nth_error (edges N') i' = Some e' -> (j < length (nodes N))%nat -> e_from e' = pn j \/ e_to e' = pn j ->
    exists i, (i < length (edges N))%nat /\ i' = pe i.
(** [N'] consists of [N1] and [N2]. *)
Definition consists (N' N1 N2 : network) (pn1 pe1 pn2 pe2 : nat -> nat) : Prop :=
  occurs N1 N' pn1 pe1 /\ occurs N2 N' pn2 pe2 /\
  (forall j1 j2, (j1 < length (nodes N1))%nat -> (j2 < length (nodes N2))%nat -> pn1 j1 <> pn2 j2) /\
  (forall i1 i2, (i1 < length (edges N1))%nat -> (i2 < length (edges N2))%nat -> pe1 i1 <> pe2 i2) /\
  (forall j, (j < length (nodes N'))%nat ->
     (exists j1, (j1 < length (nodes N1))%nat /\ j = pn1 j1) \/ (exists j2, (j2 < length (nodes N2))%nat /\ j = pn2 j2)) /\
  (forall i, (i < length (edges N'))%nat ->
     (exists i1, (i1 < length (edges N1))%nat /\ i = pe1 i1) \/ (exists i2, (i2 < length (edges N2))%nat /\ i = pe2 i2)).

(** In the state [y] of [N'] the variables of the part [N] have the values that they have in [x]. *)
Definition state_part (N N' : network) (pn pe : nat -> nat) (x y : vec) : Prop :=
  (forall j k, is_power_node N j -> (k < 2)%nat -> y (fst (node_block N' (pn j)) + k)%nat = x (fst (node_block N j) + k)%nat) /\
  (forall i e k, nth_error (edges N) i = Some e -> (k < edge_states (e_type e))%nat ->
     y (fst (edge_block N' (pe i)) + k)%nat = x (fst (edge_block N i) + k)%nat).
Definition control_part (N N' : network) (pe : nat -> nat) (c c' : vec) : Prop :=
  forall i e, nth_error (edges N) i = Some e -> edge_controls (e_type e) = 1%nat ->
    c' (fst (control_block N' (pe i))) = c (fst (control_block N i)).
