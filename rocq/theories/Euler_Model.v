(** * Model of src/Auxillary/Mathfunctions/Mathfunctions.cpp and
    src/Model/Balancelaw/Isothermaleulerequation.cpp

    Doubles are real numbers; a division by zero (infinite or NaN in C++) is Coq's division,
    all theorems exclude it by their hypotheses. *)
From Coq Require Import Reals List.
From Verif Require Import Base Interp_Model Calc.
Local Open Scope R_scope.

(** ** Mathfunctions.cpp *)

(** epsilon is a mutable global with initial value 1e-4 (Mathfunctions.cpp:23); the functions
    take its value as a parameter. *)
Definition default_epsilon : R := / 10 ^ 4.
(** Mathfunctions.cpp:25. *)
Definition Pi : R := 3141592653589793 / 10 ^ 15.
(** Mathfunctions.cpp:28. *)
Definition circle_area (radius : R) : R := Pi * radius * radius.
(** Mathfunctions.cpp:30-40. *)
Definition smooth_abs (epsilon x : R) : R :=
  if Rleb x (- epsilon) then - x
  else if Rleb epsilon x then x
  else let rel := x / epsilon in x * rel / 2 * (- rel * rel + 3).
(** Mathfunctions.cpp:42-52. *)
Definition dsmooth_abs_dx (epsilon x : R) : R :=
  if Rleb x (- epsilon) then - 1
  else if Rleb epsilon x then 1
  else let rel := x / epsilon in rel * (- 2 * rel * rel + 3).
(** Mathfunctions.cpp:54-59; the int result as a real number. *)
Definition dabs_dx (val : R) : outcome R :=
  if Rltb (Rabs val) (/ 10 ^ 13) then Exc
  else Ok ((if Rltb 0 val then 1 else 0) - (if Rltb val 0 then 1 else 0)).

(** ** Constants, include/Isothermaleulerequation.hpp:75-97 *)
Definition bar : R := 10 ^ 5.
Definition rho_0 : R := 785 / 1000.
Definition T_0 : R := 27315 / 100.
Definition T_crit : R := 192033 / 1000.
Definition z_0 : R := 1005 / 1000.
Definition p_0 : R := 101325 / 100000 * bar.
Definition p_crit : R := 464512 / 10000 * bar.
Definition Temp : R := 28315 / 100.
Definition alpha : R :=
  (257 / 1000) / p_crit - (533 / 1000) * T_crit / (p_crit * Temp).
Definition eta : R := / 10 ^ 5.
Definition c_vac_squared : R := p_0 * Temp / (z_0 * T_0 * rho_0).
Definition laminar_border : R := 2000.
Definition turbulent_border : R := 4000.

(** std::log10 and std::pow for positive arguments. *)
Definition log10 (x : R) : R := ln x / ln 10.

(** ** Equation of state, Isothermaleulerequation.cpp:216-232 *)
Definition p (rho : R) : R := c_vac_squared * rho / (1 - alpha * c_vac_squared * rho).
Definition dp_drho (rho : R) : R :=
  let D := 1 - alpha * c_vac_squared * rho in c_vac_squared / (D * D).
Definition rho (p : R) : R := p / (c_vac_squared * (1 + alpha * p)).

(** Lines 183-193. *)
Definition p_pascal_from_p_bar (p : R) : R := p * bar.
Definition p_bar_from_p_pascal (p : R) : R := p / bar.
Definition dp_bar_from_p_pascal_dp_pascal (_ : R) : R := 1 / bar.

(** Two-dimensional vectors and matrices. *)
Definition v2 (a b : R) : vec := fun i => match i with 0%nat => a | 1%nat => b | _ => 0 end.
Definition m2 (a b c d : R) : mat := fun i => match i with 0%nat => v2 a b | 1%nat => v2 c d | _ => v2 0 0 end.

(** Lines 137-181 and 195-214. *)
Definition p_qvol (state : vec) : vec := v2 (p (state 0%nat)) (state 1%nat).
Definition dp_qvol_dstate (state : vec) : mat := m2 (dp_drho (state 0%nat)) 0 0 1.
Definition state_of (p_qvol : vec) : vec := v2 (rho (p_qvol 0%nat)) (p_qvol 1%nat).
Definition p_qvol_from_p_qvol_bar (x : vec) : vec := v2 (p_pascal_from_p_bar (x 0%nat)) (x 1%nat).
Definition p_qvol_bar_from_p_qvol (x : vec) : vec := v2 (p_bar_from_p_pascal (x 0%nat)) (x 1%nat).
Definition dp_qvol_bar_from_p_qvold_p_qvol (x : vec) : mat :=
  m2 (dp_bar_from_p_pascal_dp_pascal (x 0%nat)) 0 0 1.

(** ** Flux, Isothermaleulerequation.cpp:53-81 *)
Definition flux (diameter : R) (state : vec) : vec :=
  let rho := state 0%nat in
  let q := state 1%nat in
  let Area := circle_area (/ 2 * diameter) in
  v2 (rho_0 / Area * q) (Area / rho_0 * p rho + (rho_0 / Area) * q * q / rho).
Definition dflux_dstate (diameter : R) (state : vec) : mat :=
  let rho := state 0%nat in
  let q := state 1%nat in
  let Area := circle_area (/ 2 * diameter) in
  m2 0 (rho_0 / Area)
     (Area / rho_0 * dp_drho rho - rho_0 / Area * q * q / (rho * rho))
     (2 * rho_0 / Area * q / rho).

(** ** Friction *)

(** Lines 268-273, 275-280, 282-294. *)
Definition Reynolds (q diameter : R) : R :=
  let Area := circle_area (/ 2 * diameter) in
  diameter / (Area * eta) * rho_0 * Rabs q.
Definition coeff_of_Reynolds (diameter : R) : R :=
  let Area := circle_area (/ 2 * diameter) in
  diameter / (Area * eta) * rho_0.
Definition dReynolds_dq (q diameter : R) : outcome R :=
  if Rltb (Reynolds q diameter) (laminar_border - EPSILON) then Exc
  else
    let Area := circle_area (/ 2 * diameter) in
    obind (dabs_dx q) (fun s => Ok (diameter / (Area * eta) * rho_0 * s)).

(** Lines 296-307. *)
Definition Swamee_Jain (Re diameter roughness : R) : outcome R :=
  if Rltb Re (turbulent_border - EPSILON) then Exc
  else
    let aux := log10 (roughness / (37 / 10 * diameter) + 574 / 100 / Rpower Re (9 / 10)) in
    Ok (1 / 4 / (aux * aux)).

(** Lines 309-322. *)
Definition dSwamee_Jain_dRe (Re diameter roughness : R) : outcome R :=
  if Rltb Re (turbulent_border - EPSILON) then Exc
  else
    let x := exp (ln Re * (9 / 10)) in
    let a := roughness / (37 / 10 * diameter) + 574 / 100 / x in
    let aux := log10 a in
    let daux_dRe := 1 / ln 10 * a * (- (574 / 100) / (x * x)) * (9 / 10) * x / Re in
    Ok (- (1 / 2) / (aux * aux * aux) * daux_dRe).

(** set_coeff_helper_matrix, Isothermaleulerequation.cpp:28-38: the rows are value and slope of the monomials
    Re^3, Re^2, Re, 1 at the two borders. *)
Definition v4 (a b c d : R) : vec := fun i =>
  match i with 0%nat => a | 1%nat => b | 2%nat => c | 3%nat => d | _ => 0 end.
Definition coeff_helper_matrix : mat := fun i =>
  let a := laminar_border in
  let b := turbulent_border in
  match i with
  | 0%nat => v4 (a * a * a) (a * a) a 1
  | 1%nat => v4 (3 * a * a) (2 * a) 1 0
  | 2%nat => v4 (b * b * b) (b * b) b 1
  | _ => v4 (3 * b * b) (2 * b) 1 0
  end.

(** [coeff_helper_matrix.lu().solve(s)]: Eigen's solver is replaced by the exact solution,
    written down in closed form (Hermite interpolation on an interval of length
    h = turbulent_border - laminar_border).  That this solves the system, and that no other
    vector does, is proved in Euler_Proofs.v (hermite_solves, hermite_unique). *)
Definition lu_solve (s : vec) : vec :=
  let a := laminar_border in
  let b := turbulent_border in
  let h := b - a in
  let y0 := s 0%nat in let d0 := s 1%nat in let y1 := s 2%nat in let d1 := s 3%nat in
  let k2 := (3 * (y1 - y0) / h - 2 * d0 - d1) / h in
  let k3 := (d0 + d1 - 2 * (y1 - y0) / h) / (h * h) in
  (* y0 + d0 (Re - a) + k2 (Re - a)^2 + k3 (Re - a)^3, expanded *)
  v4 k3 (k2 - 3 * k3 * a) (d0 - 2 * k2 * a + 3 * k3 * a * a)
     (y0 - d0 * a + k2 * a * a - k3 * a * a * a).

(** get_coefficients, Isothermaleulerequation.cpp:43-51. *)
Definition get_coefficients (diameter roughness : R) : outcome vec :=
  obind (Swamee_Jain turbulent_border diameter roughness) (fun s =>
  obind (dSwamee_Jain_dRe turbulent_border diameter roughness) (fun ds =>
  Ok (lu_solve (v4 (64 / laminar_border) (- 64 / (laminar_border * laminar_border)) s ds)))).

Definition dot4 (x y : vec) : R :=
  x 0%nat * y 0%nat + x 1%nat * y 1%nat + x 2%nat * y 2%nat + x 3%nat * y 3%nat.

(** Lines 233-248 and 250-266. *)
Definition lambda_non_laminar (Re diameter roughness : R) : outcome R :=
  if Rltb Re (laminar_border - EPSILON) then Exc
  else if Rltb turbulent_border Re then Swamee_Jain Re diameter roughness
  else obind (get_coefficients diameter roughness) (fun c =>
       Ok (dot4 c (v4 (Re * Re * Re) (Re * Re) Re 1))).
Definition dlambda_non_laminar_dRe (Re diameter roughness : R) : outcome R :=
  if Rltb Re (laminar_border - EPSILON) then Exc
  else if Rltb turbulent_border Re then dSwamee_Jain_dRe Re diameter roughness
  else obind (get_coefficients diameter roughness) (fun c =>
       Ok (dot4 c (v4 (3 * Re * Re) (2 * Re) 1 0))).

(** source, Isothermaleulerequation.cpp:83-102. *)
Definition source (diameter roughness : R) (state : vec) : outcome vec :=
  let rho := state 0%nat in
  let q := state 1%nat in
  let Re := Reynolds q diameter in
  let Area := circle_area (/ 2 * diameter) in
  if Rltb Re laminar_border then
    Ok (v2 0 (- rho_0 / (2 * Area * diameter) * 64 / coeff_of_Reynolds diameter * q / rho))
  else
    obind (lambda_non_laminar Re diameter roughness) (fun l =>
    Ok (v2 0 (- rho_0 / (2 * Area * diameter) * l * Rabs q * q / rho))).

(** dsource_dstate, Isothermaleulerequation.cpp:104-135. *)
Definition dsource_dstate (diameter roughness : R) (state : vec) : outcome mat :=
  let rho := state 0%nat in
  let q := state 1%nat in
  let Re := Reynolds q diameter in
  let Area := circle_area (/ 2 * diameter) in
  if Rltb Re laminar_border then
    Ok (m2 0 0
         (rho_0 / (2 * Area * diameter) * 64 / coeff_of_Reynolds diameter * q / (rho * rho))
         (- rho_0 / (2 * Area * diameter) * 64 / coeff_of_Reynolds diameter / rho))
  else
    obind (lambda_non_laminar Re diameter roughness) (fun l =>
    obind (dlambda_non_laminar_dRe Re diameter roughness) (fun dl =>
    obind (dReynolds_dq q diameter) (fun dRe =>
    obind (dabs_dx q) (fun s =>
    Ok (m2 0 0
         (rho_0 / (2 * Area * diameter) * l * Rabs q * q / (rho * rho))
         (- rho_0 / (2 * Area * diameter) / rho
          * (dl * dRe * Rabs q * q + l * s * q + l * Rabs q))))))).
