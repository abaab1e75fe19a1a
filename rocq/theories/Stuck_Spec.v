(** * Specification of networks whose state is not determined, and of linear solvers that notice it *)
From Coq Require Import Reals List.
From Verif Require Import Base Calc Net_Model Net_Spec Grid_Spec Level_Spec Sim_Model.
Local Open Scope R_scope.

(** An island of power nodes without given phase, or pressures or flows that no equation sees. *)
Definition undetermined (N : network) : Prop :=
  (exists inside, island N inside /\ phase_free N inside) \/
  (exists h z, unseen N h z /\ seen_somewhere N h z).

(** A linear solver that reports success only for matrices with an inverse. *)
Definition reports_singular {E LU : Type} (n : nat) (net : E -> network)
    (factor : E -> R -> R -> vec -> list R -> vec -> option LU) : Prop :=
  forall e t0 t1 last c x lu, factor e t0 t1 last c x = Some lu ->
    exists ts, d_evaluate_d_new_state (net e) t0 t1 last x (control_vector c) = Ok ts /\ ~ singular n (matrix_of ts).
