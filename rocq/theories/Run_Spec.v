(** * Specification for the program as a whole *)
From Coq Require Import List Reals ZArith String.
From Verif Require Import Base Json_Model Optim_Model Run_Model.
Import ListNotations.

(** The same run, except that Ipopt ends with other statuses. *)
Definition with_statuses {B} (j : job B) (status returned : Z) : job B :=
  mk_job (all_json j) (setup j) (simulated j) (prepared j) (states_text j) (controls_text j) (writing j) (bounds j) (constructed j)
    (mk_ipopt (initialize (solver j)) (callbacks (solver j))
       (option_map (fun '(_, x, obj) => (status, x, obj)) (finalize (solver j))) returned).

(** Ipopt found an optimum. *)
Definition found_optimum {B} (I : ipopt B) : Prop :=
  initialize I = 0%Z /\ return_status I = 0%Z /\ exists x obj, finalize I = Some (0%Z, x, obj).

(** Optimization is asked for in problem_data.json. *)
Definition asked_to_optimize (j : json) : Prop :=
  exists fs, j = JObj fs /\ field fs "optimize" = Some (JBool true).
