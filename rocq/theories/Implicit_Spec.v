(** * Specification: states that depend continuously on the controls

    As in Adjoint_Spec.v and Whole_Spec.v, but the states are only assumed to be continuous at the parameter 0. *)
From Coq Require Import List Arith Reals.
From Coquelicot Require Import Coquelicot.
From Verif Require Import Base Interp_Model Interp_Spec Adjoint_Model Adjoint_Spec.
From Verif Require Net_Model Net_Spec Whole_Spec.
Import ListNotations.
Open Scope R_scope.

Record continuous_family (p : problem) (st ct : list R) (W : R -> list R) (W' : nat -> nat -> R)
    (X : R -> list R) : Prop := {
  cf_W_table : forall s, table_of ct (nu p) (W s);
  cf_X_table : forall s, table_of st (nx p) (X s);
  cf_W_derive : forall j k, (j < length ct)%nat -> (k < nu p)%nat ->
    is_derive (fun s => entry (W s) (nu p) j k) 0 (W' j k);
  cf_X_continuous : forall i k, (i < length st)%nat -> (k < nx p)%nat ->
    continuous (fun s => entry (X s) (nx p) i k) 0;
  cf_start : forall s k, (k < nx p)%nat -> entry (X s) (nx p) 0 k = entry (X 0) (nx p) 0 k;
  cf_solves : locally 0 (fun s => forall i t0 t1 xl xn u,
    nth_error st i = Some t0 -> nth_error st (S i) = Some t1 ->
    interp_at (mk_ivec st (nx p) (X s)) t0 = Ok xl ->
    interp_at (mk_ivec st (nx p) (X s)) t1 = Ok xn ->
    interp_at (mk_ivec ct (nu p) (W s)) t1 = Ok u ->
    forall e, (e < nx p)%nat -> residual p t0 t1 (vec_of xl) (vec_of xn) (vec_of u) e = 0)
}.

Record continuous_network_family (N : Net_Model.network) (st ct : list R) (W : R -> list R) (W' : nat -> nat -> R)
    (X : R -> list R) : Prop := {
  cn_W_table : forall s, table_of ct (Net_Model.number_of_controls N) (W s);
  cn_X_table : forall s, table_of st (Net_Model.number_of_states N) (X s);
  cn_W_derive : forall j k, (j < length ct)%nat -> (k < Net_Model.number_of_controls N)%nat ->
    is_derive (fun s => entry (W s) (Net_Model.number_of_controls N) j k) 0 (W' j k);
  cn_X_continuous : forall i k, (i < length st)%nat -> (k < Net_Model.number_of_states N)%nat ->
    continuous (fun s => entry (X s) (Net_Model.number_of_states N) i k) 0;
  cn_start : forall s k, (k < Net_Model.number_of_states N)%nat ->
    entry (X s) (Net_Model.number_of_states N) 0 k = entry (X 0) (Net_Model.number_of_states N) 0 k;
  cn_solves : locally 0 (fun s => forall i t0 t1 u,
    nth_error st i = Some t0 -> nth_error st (S i) = Some t1 ->
    Whole_Spec.control_at ct (Net_Model.number_of_controls N) (W s) t1 u ->
    Net_Spec.network_equations N t0 t1 (Whole_Spec.row (X s) (Net_Model.number_of_states N) i)
      (Whole_Spec.row (X s) (Net_Model.number_of_states N) (S i)) u)
}.
