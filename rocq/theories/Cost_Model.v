(** * Model of the running cost of a network

    Networkproblem.cpp:405-463, Compressorstation.cpp:138-176, Costcomponent.cpp:19-28.

    Compressors are the only cost components of a network (the only components derived from
    Costcomponent); they follow in the order of the edges, Networkproblem.cpp:151-166.
    The weights are private members with default value 1.0 (Costcomponent.hpp:73-74).  A
    Networkproblem is always built by its only constructor, Networkproblem.cpp:129, which leaves
    the default; the model keeps the weight as a parameter and [constructed_weight] is the value
    it has.  The same holds for the weight of a compressor, which is kept in [ECompressor].
    Reading the control vector outside of its length is not modelled as undefined behaviour: the
    index is the one assigned by set_control_indices. *)
From Coq Require Import Reals List Arith.
From Verif Require Import Base Calc Euler_Model Box_Model Net_Model.
Import ListNotations.
Local Open Scope R_scope.

(** Costcomponent.hpp:73-74. *)
Definition constructed_weight : R := 1.

(** Compressorstation::evaluate_cost, Compressorstation.cpp:138-143. *)
Definition compressor_cost (weight : R) (control_index : nat) (control : vec) : R :=
  let current_control := control control_index in
  weight * current_control * current_control.

(** Compressorstation::d_evaluate_cost_d_control, Compressorstation.cpp:150-157. *)
Definition compressor_d_cost_d_control (weight : R) (control_index : nat) (control : vec) : list entry :=
  let current_control := control control_index in
  [(0%nat, control_index, 2 * weight * current_control)].

(** Compressorstation::d_evaluate_cost_d_state, lines 145-148, evaluate_penalty and its
    derivatives, lines 159-174. *)
Definition compressor_d_cost_d_state : list entry := [].
Definition compressor_penalty : R := 0.
Definition compressor_d_penalty : list entry := [].

(** The cost components: weight and control index (set_control_indices). *)
Definition cost_components (N : network) : list (R * nat) :=
  flat_map (fun ie => match e_type (snd ie) with
                      | ECompressor w => [(w, fst (control_block N (fst ie)))]
                      | _ => []
                      end) (numbered N).

(** Networkproblem::evaluate_cost, Networkproblem.cpp:405-413. *)
Definition evaluate_cost (network_weight : R) (N : network) (control : vec) : R :=
  network_weight *
  fold_left (fun cost k => cost + compressor_cost (fst k) (snd k) control) (cost_components N) 0.

(** Networkproblem::d_evaluate_cost_d_state and d_evaluate_cost_d_control, lines 415-433: the
    components add their entries; the weight of the network does not occur. *)
Definition d_evaluate_cost_d_state (N : network) (control : vec) : list entry :=
  flat_map (fun k : R * nat => compressor_d_cost_d_state) (cost_components N).
Definition d_evaluate_cost_d_control (N : network) (control : vec) : list entry :=
  flat_map (fun k => compressor_d_cost_d_control (fst k) (snd k) control) (cost_components N).

(** Networkproblem::evaluate_penalty and its derivatives, lines 435-463. *)
Definition evaluate_penalty (network_weight : R) (N : network) : R :=
  network_weight * fold_left (fun penalty (k : R * nat) => penalty + compressor_penalty) (cost_components N) 0.
Definition d_evaluate_penalty (N : network) : list entry :=
  flat_map (fun k : R * nat => compressor_d_penalty) (cost_components N).
