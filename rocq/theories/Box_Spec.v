(** * Specification of the box scheme *)
From Coq Require Import Reals List.
From Verif Require Import Base Calc Euler_Spec Box_Model.
Local Open Scope R_scope.

(** The Jacobians of the law are right at [u] (dimension [n]). *)
Definition law_differentiable_at (n : nat) (bl : balancelaw) (u : vec) : Prop :=
  jacobian n n (bl_flux bl) u (bl_dflux_dstate bl u) /\
  exists J, bl_dsource_dstate bl u = Ok J /\ is_jacobian n n (bl_source bl) u J.

(** Content of quantity [i] in [N] cells of width [dx] by the trapezoidal rule; [u j] is the
    state at grid point [j]. *)
Definition content (N : nat) (dx : R) (u : nat -> vec) (i : nat) : R :=
  vsum N (fun j => dx * ((u j i + u (S j) i) / 2)).
