(** * The Colebrook-White equation for the turbulent friction factor

    1 / sqrt l = - 2 log10 (2.51 / (Re sqrt l) + k / (3.71 D)). *)
From Coq Require Import Reals.
Local Open Scope R_scope.

(** Difference of the two sides. *)
Definition colebrook_residual (Re diameter roughness l : R) : R :=
  / sqrt l + 2 * (ln (251 / 100 / (Re * sqrt l) + roughness / (371 / 100 * diameter)) / ln 10).

Definition colebrook (Re diameter roughness l : R) : Prop :=
  0 < l /\ colebrook_residual Re diameter roughness l = 0.

(** Turbulent flow (up to the tolerance 1e-10 of the code) in a pipe whose roughness is at most
    twice its diameter. *)
Definition turbulent_pipe (Re diameter roughness : R) : Prop :=
  4000 - / 10 ^ 10 <= Re /\ 0 < diameter /\ 0 <= roughness <= 2 * diameter.
