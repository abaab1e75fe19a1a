(** * Model of a network as the optimizer sees it

    Networkproblem implements the interface OptimizableObject
    (src/Model/Networkproblem/include/Networkproblem.hpp:37); ImplicitOptimizer calls it through that
    interface.  This file puts the functions of Net_Model.v and Cost_Model.v into the record
    [problem] of Adjoint_Model.v.

    The optimizer passes vectors whose length is the number of states (controls); [cut] makes that
    explicit: behind the end there is nothing to be read.  Functions of [problem] are total; when
    the code throws, the value here is arbitrary (the theorems show that it does not throw). *)
From Coq Require Import Reals List Arith.
From Verif Require Import Base Interp_Model Calc Net_Model Net_Spec Cost_Model Adjoint_Model.
Import ListNotations.
Local Open Scope R_scope.

Definition cut (n : nat) (x : vec) : vec := fun k => if Nat.ltb k n then x k else 0.
Definition value (o : outcome vec) : vec := match o with Ok r => r | _ => fun _ => 0 end.
Definition coefficients (o : outcome (list entry)) : mat :=
  match o with Ok ts => matrix_of ts | _ => fun _ _ => 0 end.

(** Networkproblem::evaluate_constraint, src/Model/Networkproblem/Networkproblem.cpp:469-477: every
    constraint component writes the entry of its own index (ConstraintSink.cpp:32-43).  [sinks] are the positions
    of the ConstraintSinks, the only constraint components, in the list of nodes; the index of the
    r-th is r (set_constraint_indices, Networkproblem.cpp:499-508, one constraint each). *)
Definition constraint_value (N : network) (sinks : list nat) (state : vec) : vec := fun r =>
  match nth_error sinks r with
  | Some j => match sink_constraint (attached_gas N j) state with Ok y => y | _ => 0 end
  | None => 0
  end.
(** d_evaluate_constraint_d_state, Networkproblem.cpp:479-487. *)
Definition constraint_d_state (N : network) (sinks : list nat) : outcome (list entry) :=
  oconcat (map (fun rj => sink_constraint_d_state (attached_gas N (snd rj)) (fst rj))
               (combine (seq 0 (length sinks)) sinks)).
(** d_evaluate_constraint_d_control, Networkproblem.cpp:489-497, with ConstraintSink.cpp:56-58: nothing is
    added. *)
Definition constraint_d_control (N : network) (sinks : list nat) : outcome (list entry) :=
  oconcat (map (fun _ : nat => Ok []) sinks).

Definition network_problem (N : network) (sinks : list nat) : problem :=
  let n := number_of_states N in
  let m := number_of_controls N in
  mk_problem n m (length sinks)
    (fun t0 t1 last new u => value (evaluate N t0 t1 (cut n last) (cut n new) (cut m u) (fun _ => 0)))
    (fun t0 t1 last new u => coefficients (d_evaluate_d_new_state N t0 t1 (cut n last) (cut n new) (cut m u)))
    (fun t0 t1 last new u => coefficients (d_evaluate_d_last_state N t0 t1 (cut n last) (cut n new) (cut m u)))
    (fun t0 t1 last new u => coefficients (d_evaluate_d_control N t0 t1 (cut n last) (cut n new) (cut m u)))
    (fun _ _ u => evaluate_cost constructed_weight N (cut m u))
    (fun _ _ u => matrix_of (d_evaluate_cost_d_state N (cut m u)) 0%nat)
    (fun _ _ u => matrix_of (d_evaluate_cost_d_control N (cut m u)) 0%nat)
    (fun _ _ _ => evaluate_penalty constructed_weight N)
    (fun _ _ _ => matrix_of (d_evaluate_penalty N) 0%nat)
    (fun _ _ _ => matrix_of (d_evaluate_penalty N) 0%nat)
    (fun _ x _ => constraint_value N sinks (cut n x))
    (fun _ _ _ => coefficients (constraint_d_state N sinks))
    (fun _ _ _ => coefficients (constraint_d_control N sinks)).
