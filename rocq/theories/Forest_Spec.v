(** * Specification of gas networks without pipes that determine their state *)
From Coq Require Import Reals List Arith.
From Verif Require Import Base Calc Net_Model Net_Spec Grid_Spec Level_Spec Sim_Model.
Import ListNotations.
Local Open Scope R_scope.

(** Gas nodes joined by short pipes, compressors and control valves. *)
Definition short_net (N : network) : Prop :=
  (forall j, (j < length (nodes N))%nat -> is_gas_node N j) /\ (forall e, In e (edges N) -> short e).
(** Every change of pressures and flows is seen by some equation. *)
Definition determined (N : network) : Prop := forall h z, unseen N h z -> ~ seen_somewhere N h z.

(** The network consists of trees whose roots are the nodes with given pressure: every edge [i] leads to one node
    [child i] away from a root. *)
Definition forest (N : network) : Prop :=
  exists (child depth : nat -> nat),
    (forall i e, nth_error (edges N) i = Some e ->
       (child i = e_to e /\ (depth (e_from e) < depth (e_to e))%nat \/
        child i = e_from e /\ (depth (e_to e) < depth (e_from e))%nat) /\
       balances N (child i)) /\
    (forall i i', (i < length (edges N))%nat -> (i' < length (edges N))%nat -> child i = child i' -> i = i') /\
    (forall e j, In e (edges N) -> e_from e = j \/ e_to e = j -> balances N j ->
       exists i, (i < length (edges N))%nat /\ child i = j).

(** A linear solver that solves every system with an invertible matrix. *)
Definition solves_exactly {E LU : Type} (n : nat) (net : E -> network)
    (factor : E -> R -> R -> vec -> list R -> vec -> option LU) (linsolve : LU -> vec -> vec) : Prop :=
  forall e t0 t1 last c x ts, d_evaluate_d_new_state (net e) t0 t1 last x (control_vector c) = Ok ts ->
    ~ singular n (matrix_of ts) ->
    exists lu, factor e t0 t1 last c x = Some lu /\
      forall b r, (r < n)%nat -> vsum n (fun k => matrix_of ts r k * linsolve lu b k) = b r.
