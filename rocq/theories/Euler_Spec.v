(** * Specification of the gas dynamics functions *)
From Coq Require Import Reals.
From Coquelicot Require Import Coquelicot.
From Verif Require Import Base Interp_Model Calc Euler_Model.
Local Open Scope R_scope.

(** Densities for which the equation of state has no pole in between, and pressures that
    occur; both contain all physical values up to 445 bar. *)
Definition density_ok (r : R) : Prop := 0 < 1 - alpha * c_vac_squared * r.
Definition pressure_ok (x : R) : Prop := 0 < 1 + alpha * x.

(** Pipe geometries: a diameter above 10^-11 m and a roughness of at most three diameters. *)
Definition geometry (d k : R) : Prop := / 10 ^ 11 <= d /\ 0 <= k <= 3 * d.

(** Swamee and Jain's explicit friction law. *)
Definition swamee_jain_law (Re d k : R) : R :=
  / 4 / (ln (k / (37 / 10 * d) + 574 / 100 / Rpower Re (9 / 10)) / ln 10) ^ 2.

(** [l] is the friction factor of the program at Reynolds number [Re]. *)
Definition friction_factor (d k Re l : R) : Prop :=
  Re < 2000 /\ l = 64 / Re \/ 2000 <= Re /\ lambda_non_laminar Re d k = Ok l.

(** The source term is the Darcy-Weisbach friction with factor [l]. *)
Definition darcy_weisbach (d rho q l : R) : R :=
  - rho_0 / (2 * circle_area (d / 2) * d) * l * Rabs q * q / rho.

(** The Jacobian of a function that may throw. *)
Definition is_jacobian (m n : nat) (f : vec -> outcome vec) (u : vec) (J : mat) : Prop :=
  exists g, jacobian m n g u J /\
    exists d, 0 < d /\ forall x, (forall k, Rabs (x k - u k) < d) -> f x = Ok (g x).
