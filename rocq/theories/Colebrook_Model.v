(** * Model of Isothermaleulerequation::exact_turbulent_lambda
    (src/Model/Balancelaw/Isothermaleulerequation.cpp:324-346)

    Doubles are real numbers.  std::sqrt and std::log10 of negative numbers are NaN in C++, here
    they are Coq's total functions; the theorems show that the arguments are positive. *)
From Coq Require Import Reals List.
From Verif Require Import Base Interp_Model Euler_Model.
Local Open Scope R_scope.

(** Lines 335-338: inner, f and df for the current mu. *)
Definition cb_inner (Re diameter roughness mu : R) : R :=
  251 / 100 / Re * mu + roughness / (371 / 100 * diameter).
Definition cb_f (Re diameter roughness mu : R) : R :=
  mu + 2 * log10 (cb_inner Re diameter roughness mu).
Definition cb_df (Re diameter roughness mu : R) : R :=
  1 + 2 / ln 10 * (251 / 100 / Re) / cb_inner Re diameter roughness mu.

(** The loop, lines 334-343; [todo] is 10 - counter.  The test uses the f computed before the
    update of mu, and the sign of f counts. *)
Fixpoint cb_loop (todo : nat) (Re diameter roughness mu : R) : R :=
  match todo with
  | O => mu
  | S todo' =>
      let f := cb_f Re diameter roughness mu in
      let mu' := mu - f / cb_df Re diameter roughness mu in
      if Rltb f (/ 10 ^ 12) then mu' else cb_loop todo' Re diameter roughness mu'
  end.

(** Lines 324-346. *)
Definition exact_turbulent_lambda (Re diameter roughness : R) : outcome R :=
  if Rltb Re (turbulent_border - EPSILON) then Exc
  else
    obind (Swamee_Jain Re diameter roughness) (fun lambda =>
    let mu := cb_loop 10 Re diameter roughness (1 / sqrt lambda) in
    Ok (1 / (mu * mu))).
