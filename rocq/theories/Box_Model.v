(** * Model of src/Model/Scheme/include/Implicitboxscheme.hpp *)
From Coq Require Import Reals.
From Verif Require Import Base Interp_Model Calc Euler_Model.
Local Open Scope R_scope.

(** The interface Balancelaw<Dimension> (src/Model/Balancelaw/include/Balancelaw.hpp): flux,
    source and their Jacobians.  The source term of the gas equations can throw. *)
Record balancelaw := mkLaw {
  bl_flux : vec -> vec;
  bl_source : vec -> outcome vec;
  bl_dflux_dstate : vec -> mat;
  bl_dsource_dstate : vec -> outcome mat
}.

Definition id_mat : mat := fun i j => if Nat.eqb i j then 1 else 0.

(** evaluate_point, Implicitboxscheme.hpp:29-42.  The order in which the two source terms are
    evaluated is unspecified in C++ and does not matter: both can only throw the same exception
    type. *)
Definition evaluate_point (bl : balancelaw) (last_time new_time Delta_x : R)
    (last_left last_right new_left new_right : vec) : outcome vec :=
  let Delta_t := new_time - last_time in
  obind (bl_source bl new_right) (fun sr =>
  obind (bl_source bl new_left) (fun sl =>
  Ok (fun i =>
    1 / 2 * (new_left i + new_right i) - 1 / 2 * (last_left i + last_right i)
    - Delta_t / Delta_x * (bl_flux bl new_left i - bl_flux bl new_right i)
    - 1 / 2 * Delta_t * (sr i + sl i)))).

(** Lines 44-58. *)
Definition devaluate_point_d_new_left (bl : balancelaw) (last_time new_time Delta_x : R)
    (last_left last_right new_left new_right : vec) : outcome mat :=
  let Delta_t := new_time - last_time in
  obind (bl_dsource_dstate bl new_left) (fun ds =>
  Ok (fun i j =>
    1 / 2 * id_mat i j - Delta_t / Delta_x * bl_dflux_dstate bl new_left i j
    - 1 / 2 * Delta_t * ds i j)).

(** Lines 60-75. *)
Definition devaluate_point_d_new_right (bl : balancelaw) (last_time new_time Delta_x : R)
    (last_left last_right new_left new_right : vec) : outcome mat :=
  let Delta_t := new_time - last_time in
  obind (bl_dsource_dstate bl new_right) (fun ds =>
  Ok (fun i j =>
    1 / 2 * id_mat i j + Delta_t / Delta_x * bl_dflux_dstate bl new_right i j
    - 1 / 2 * Delta_t * ds i j)).

(** Lines 77-90. *)
Definition devaluate_point_d_last_left (bl : balancelaw) (last_time new_time Delta_x : R)
    (last_left last_right new_left new_right : vec) : outcome mat :=
  Ok (fun i j => - (1 / 2) * id_mat i j).

(** Lines 92-105. *)
Definition devaluate_point_d_last_right (bl : balancelaw) (last_time new_time Delta_x : R)
    (last_left last_right new_left new_right : vec) : outcome mat :=
  Ok (fun i j => - (1 / 2) * id_mat i j).

(** The isothermal Euler equations as a balance law (Isothermaleulerequation.hpp:27-70). *)
Definition isothermal_euler (diameter roughness : R) : balancelaw :=
  mkLaw (flux diameter) (source diameter roughness) (dflux_dstate diameter)
        (dsource_dstate diameter roughness).
