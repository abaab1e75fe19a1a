(** * Specification: families of controls and states, right derivatives

    "The derivative" is stated along every differentiable curve of control tables. *)
From Coq Require Import List Arith Reals.
From Coquelicot Require Import Coquelicot.
From Verif Require Import Base Interp_Model Interp_Spec Adjoint_Model.
Import ListNotations.
Open Scope R_scope.

(** Inner product of vectors of length [n]. *)
Definition inner (n : nat) (a b : nat -> R) : R := Rsum n (fun k => a k * b k).

(** [c] passes at parameter 0 through [base] with velocity [dir] (first [n] components). *)
Definition curve_through (n : nat) (c : R -> vec) (base dir : vec) : Prop :=
  c 0 = base /\ forall k, (k < n)%nat -> is_derive (fun s => c s k) 0 (dir k).

(** [F] of two vectors has the derivatives [fx] and [fu] at [(x, u)]. *)
Definition has_gradient (n m : nat) (F : vec -> vec -> R) (x u fx fu : vec) : Prop :=
  forall a b a' b', curve_through n a x a' -> curve_through m b u b' ->
    is_derive (fun s => F (a s) (b s)) 0 (inner n fx a' + inner m fu b').

(** The residual of a time step has the reported Jacobians at this point. *)
Definition residual_jacobians (p : problem) (t0 t1 : R) (xl xn u : vec) : Prop :=
  forall a b c a' b' c',
    curve_through (nx p) a xl a' -> curve_through (nx p) b xn b' -> curve_through (nu p) c u c' ->
    forall e, (e < nx p)%nat ->
      is_derive (fun s => residual p t0 t1 (a s) (b s) (c s) e) 0
        (inner (nx p) (d_last p t0 t1 xl xn u e) a' + inner (nx p) (d_new p t0 t1 xl xn u e) b'
         + inner (nu p) (d_control p t0 t1 xl xn u e) c').

(** All derivatives reported by the problem along the trajectory [(states, controls)] are right. *)
Definition right_derivatives (p : problem) (st : list R) (controls states : ivec) : Prop :=
  forall i t0 t1 xl xn u,
    nth_error st i = Some t0 -> nth_error st (S i) = Some t1 ->
    interp_at states t0 = Ok xl -> interp_at states t1 = Ok xn -> interp_at controls t1 = Ok u ->
    residual_jacobians p t0 t1 (vec_of xl) (vec_of xn) (vec_of u) /\
    has_gradient (nx p) (nu p) (cost p t1) (vec_of xn) (vec_of u)
      (cost_dx p t1 (vec_of xn) (vec_of u)) (cost_du p t1 (vec_of xn) (vec_of u)) /\
    has_gradient (nx p) (nu p) (penalty p t1) (vec_of xn) (vec_of u)
      (penalty_dx p t1 (vec_of xn) (vec_of u)) (penalty_du p t1 (vec_of xn) (vec_of u)) /\
    forall r, (r < ng p)%nat ->
      has_gradient (nx p) (nu p) (fun x u => constr p t1 x u r) (vec_of xn) (vec_of u)
        (constr_dx p t1 (vec_of xn) (vec_of u) r) (constr_du p t1 (vec_of xn) (vec_of u) r).

(** The solver returns solutions. *)
Definition solver_correct (n : nat) (solve : mat -> vec -> option vec) : Prop :=
  forall A b x, solve A b = Some x ->
    forall k, (k < n)%nat -> inner n (A k) x = b k.

(** A differentiable family of control tables [W s] with the states [X s] computed from them:
    every row of [X s] solves the time step equations for the controls [W s] (for [s] near 0),
    the initial state is fixed, and the states depend differentiably on [s]. *)
Record smooth_family (p : problem) (st ct : list R) (W : R -> list R) (W' : nat -> nat -> R)
    (X : R -> list R) : Prop := {
  sf_W_table : forall s, table_of ct (nu p) (W s);
  sf_X_table : forall s, table_of st (nx p) (X s);
  sf_W_derive : forall j k, (j < length ct)%nat -> (k < nu p)%nat ->
    is_derive (fun s => entry (W s) (nu p) j k) 0 (W' j k);
  sf_X_derive : forall i k, (i < length st)%nat -> (k < nx p)%nat ->
    ex_derive (fun s => entry (X s) (nx p) i k) 0;
  sf_start : forall s k, (k < nx p)%nat -> entry (X s) (nx p) 0 k = entry (X 0) (nx p) 0 k;
  sf_solves : locally 0 (fun s => forall i t0 t1 xl xn u,
    nth_error st i = Some t0 -> nth_error st (S i) = Some t1 ->
    interp_at (mk_ivec st (nx p) (X s)) t0 = Ok xl ->
    interp_at (mk_ivec st (nx p) (X s)) t1 = Ok xn ->
    interp_at (mk_ivec ct (nu p) (W s)) t1 = Ok u ->
    forall e, (e < nx p)%nat -> residual p t0 t1 (vec_of xl) (vec_of xn) (vec_of u) e = 0)
}.

(** The solver accepts (factorises and solves with) the transposed Jacobians of all time steps
    along the trajectory. *)
Definition solver_accepts (p : problem) (solve : mat -> vec -> option vec) (st : list R)
    (controls states : ivec) : Prop :=
  forall i t0 t1 xl xn u b,
    nth_error st i = Some t0 -> nth_error st (S i) = Some t1 ->
    interp_at states t0 = Ok xl -> interp_at states t1 = Ok xn -> interp_at controls t1 = Ok u ->
    solve (fun k e => d_new p t0 t1 (vec_of xl) (vec_of xn) (vec_of u) e k) b <> None.
