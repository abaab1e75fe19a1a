(** * Model of the choice of constraint times (src/Grazer/commands.cpp) and of the checks of
      the optimizer's constructor (src/IpoptWrapper/ImplicitOptimizer.cpp)

    Times are [R]; [Eigen::Index] values are [nat] except the user's setting, which is [Z]. *)
From Coq Require Import List Arith Reals ZArith Bool.
From Verif Require Import Base Interp_Model.
Import ListNotations.

(** commands.cpp:163-167: a non-positive setting is replaced by one. *)
Definition effective_n (n : Z) : nat := if (n <=? 0)%Z then 1%nat else Z.to_nat n.

(** commands.cpp:169-174.  [s] is [state_timepoints.size() - 1]. *)
Definition number_of_constrainttimes (s n : nat) : nat :=
  if (s mod n =? 0)%nat then (s / n)%nat else (s / n + 1)%nat.

(** [back(v) = x] with [back] from src/Auxillary/Misc/include/Misc.hpp, which throws for an
    empty vector. *)
Definition set_back (l : list R) (x : R) : outcome (list R) :=
  match l with [] => Exc | _ => Ok (removelast l ++ [x]) end.

(** commands.cpp:168-184: the constraint times as function of the state times and of the
    setting "evaluate_constraints_every_n".  An empty list of state times is excluded
    (a negative size would be computed). *)
Definition select_constraint_times (state : list R) (setting : Z) : outcome (list R) :=
  let n := effective_n setting in
  match state with
  | [] => UB
  | _ =>
      obind (omapM (fun index => get state (1 + n * index)%nat)
               (seq 0 (number_of_constrainttimes (length state - 1) n)))
      (fun cons =>
         if negb (length state mod n =? 0)%nat then
           obind (get state (length state - 1)) (fun b => set_back cons b)
         else Ok cons)
  end.

(** ImplicitOptimizer.cpp:143-163: loop over the state times from the second on; the result is
    the list of constraint times not yet found. *)
Fixpoint scan_constraints (states cons : list R) : outcome (list R) :=
  match states with
  | [] => Ok cons
  | t :: states' =>
      match cons with
      | [] => Ok []
      | c :: cons' =>
          if Rltb t c then scan_constraints states' cons
          else if Reqb t c then scan_constraints states' cons'
          else Exc
      end
  end.

(** The checks on the time grids in the constructor, ImplicitOptimizer.cpp:110-170 (the checks
    on the numbers of values before them do not involve the grids).  [back] throws for empty
    vectors, [control_timepoints(0)] of an empty vector is undefined behaviour but cannot
    happen after [back]. *)
Definition ctor_time_checks (state control cons : list R) : outcome unit :=
  if negb (is_sorted state) then Exc else
  if negb (is_sorted control) then Exc else
  if negb (is_sorted cons) then Exc else
  match control, state with
  | c0 :: _, s0 :: states' =>
      if Rltb (last control 0 + EPSILON) (last state 0) then Exc else
      if Rltb s0 c0 then Exc else
      obind (scan_constraints states' cons) (fun rest =>
        match rest with [] => Ok tt | _ => Exc end)
  | _, _ => Exc
  end.
