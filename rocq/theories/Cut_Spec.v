(** * Specification: a pipe that is cut at one of its grid points *)
From Coq Require Import Reals List Arith.
From Verif Require Import Base Calc Euler_Model Net_Model Net_Spec.
Import ListNotations.
Local Open Scope R_scope.

(** The first part of a pipe, up to its grid point [l], now ends at node [k]. *)
Definition first_part (l k : nat) (e : edge) : edge :=
  match e_type e with
  | EPipe d r dx _ => mkEdge (e_from e) k (EPipe d r dx (l + 1))
  | _ => e
  end.
(** The second part of a pipe begins at node [k]. *)
Definition second_part (l k : nat) (e : edge) : edge :=
  match e_type e with
  | EPipe d r dx n => mkEdge k (e_to e) (EPipe d r dx (n - l))
  | _ => e
  end.
(** Pipe [i], which is [e], ends at a new inner node, and a new pipe leads from there to the node where it ended. *)
Definition cut_pipe (N : network) (i : nat) (e : edge) (l : nat) : network :=
  let k := length (nodes N) in
  mkNet (nodes N ++ [Innode])
    (map (fun ie => if Nat.eqb (fst ie) i then first_part l k (snd ie) else snd ie) (numbered N) ++ [second_part l k e]).
(** The edge is a pipe and [l] is one of its inner grid points. *)
Definition inner_point (e : edge) (l : nat) : Prop :=
  match e_type e with EPipe _ _ _ n => (1 <= l)%nat /\ (l + 1 < n)%nat | _ => False end.

(** The same values before and after the cut: those at the cut belong to both parts. *)
Definition cut_state (N : network) (i : nat) (e : edge) (l : nat) (x x' : vec) : Prop :=
  let N' := cut_pipe N i e l in
  (forall j c, is_power_node N j -> (c < 2)%nat -> x' (fst (node_block N' j) + c)%nat = x (fst (node_block N j) + c)%nat) /\
  (forall i0 e0 c, nth_error (edges N) i0 = Some e0 -> i0 <> i -> (c < edge_states (e_type e0))%nat ->
     x' (fst (edge_block N' i0) + c)%nat = x (fst (edge_block N i0) + c)%nat) /\
  (forall g c, (g <= l)%nat -> (c < 2)%nat ->
     x' (fst (edge_block N' i) + 2 * g + c)%nat = x (fst (edge_block N i) + 2 * g + c)%nat) /\
  (forall g c, match e_type e with EPipe _ _ _ n => (l <= g < n)%nat | _ => False end -> (c < 2)%nat ->
     x' (fst (edge_block N' (length (edges N))) + 2 * (g - l) + c)%nat = x (fst (edge_block N i) + 2 * g + c)%nat).
