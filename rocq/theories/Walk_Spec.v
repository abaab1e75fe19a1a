(** * Pressures along short pipes, compressors and control valves *)
From Coq Require Import Reals List Arith.
From Verif Require Import Base Calc Net_Model Net_Spec Sim_Spec Level_Spec.
Import ListNotations.
Local Open Scope R_scope.

(** A step along edge [i], from its start to its end or the other way round. *)
Record step := mkStep { st_pos : nat; st_edge : edge; st_forward : bool }.
Definition leaves (s : step) : nat := if st_forward s then e_from (st_edge s) else e_to (st_edge s).
Definition arrives (s : step) : nat := if st_forward s then e_to (st_edge s) else e_from (st_edge s).
(** A walk from node [j] to node [j'] along short pipes, compressors and control valves. *)
Fixpoint walk (N : network) (j : nat) (l : list step) (j' : nat) : Prop :=
  match l with
  | [] => j = j'
  | s :: l => nth_error (edges N) (st_pos s) = Some (st_edge s) /\ short (st_edge s) /\ leaves s = j /\ walk N (arrives s) l j'
  end.

(** By how much the pressure rises on the way: compressors add their control, control valves take it away. *)
Definition gain (N : network) (c : vec) (s : step) : R :=
  (if st_forward s then 1 else -1) *
  match e_type (st_edge s) with
  | ECompressor _ => c (fst (control_block N (st_pos s)))
  | EControlvalve => - c (fst (control_block N (st_pos s)))
  | _ => 0
  end.
Definition rise (N : network) (c : vec) (l : list step) : R := rsum (gain N c) l.

(** In multiples of the tolerance: by how much pressures at a node may differ, and what adds up along a walk. *)
Definition joint (N : network) (j : nat) : R :=
  match nth_error (nodes N) j with
  | Some (Pressurenode _) => 2
  | _ => INR (gas_ends N j - 1)
  end.
Definition slack (N : network) (l : list step) : R := rsum (fun s => 1 + joint N (arrives s)) l.

(** [q] is the pressure in state [x] at an end of a gas edge at node [j]. *)
Definition pressure_there (N : network) (x : vec) (j : nat) (q : R) : Prop :=
  exists i e d, nth_error (edges N) i = Some e /\ carries_gas e = true /\ touches e d j /\ pressure_at N i e d x = q.

(** The controls around a closed walk do not cancel, or those along a walk do not fit the given pressures at its ends. *)
Definition misfit (N : network) (eps time : R) (c : vec) : Prop :=
  exists j l j', walk N j l j' /\
    (j = j' /\ slack N l * eps < Rabs (rise N c l) \/
     exists b b' v v', l <> [] /\ nth_error (nodes N) j = Some (Pressurenode b) /\ nth_error (nodes N) j' = Some (Pressurenode b') /\
       b time = Ok v /\ b' time = Ok v' /\ (slack N l + 2) * eps < Rabs (v' 0%nat - v 0%nat - rise N c l)).
