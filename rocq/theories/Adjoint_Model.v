(** * Model of the objective, constraint and derivative evaluation of
      src/IpoptWrapper/ImplicitOptimizer.cpp

    Vectors and matrices are functions of indices; only indices below the dimensions stored in
    the problem are meaningful.  Tables of values over time are flat lists as in
    InterpolatingVector.  Sparse storage, the symbolic analysis and the initial allocation of
    the matrices (lines 661-727) are not modelled: the matrices are their entries.  The handlers
    used by the [update_*] functions set the matrix to zero and add up what the problem reports
    (property C36), so a matrix is the function of indices the problem reports. *)
From Coq Require Import List Arith Reals Bool.
From Verif Require Import Base Interp_Model Interp_Spec Jac_Model.
Import ListNotations.
Open Scope R_scope.

Definition vec : Type := nat -> R.
Definition mat : Type := nat -> nat -> R.

(** The interface Model::OptimizableObject as seen by the optimizer
    (src/Model/Networkproblem/Componentclasses/include/OptimizableObject.hpp): numbers of states, controls and constraints per
    time point, the residual of one time step, running cost, penalty, constraints and their
    reported derivatives. *)
Record problem : Type := mk_problem {
  nx : nat;
  nu : nat;
  ng : nat;
  residual : R -> R -> vec -> vec -> vec -> vec;     (* evaluate: last_time new_time last new control *)
  d_new : R -> R -> vec -> vec -> vec -> mat;        (* d_evaluate_d_new_state *)
  d_last : R -> R -> vec -> vec -> vec -> mat;       (* d_evaluate_d_last_state *)
  d_control : R -> R -> vec -> vec -> vec -> mat;    (* d_evaluate_d_control *)
  cost : R -> vec -> vec -> R;
  cost_dx : R -> vec -> vec -> vec;
  cost_du : R -> vec -> vec -> vec;
  penalty : R -> vec -> vec -> R;
  penalty_dx : R -> vec -> vec -> vec;
  penalty_du : R -> vec -> vec -> vec;
  constr : R -> vec -> vec -> vec;
  constr_dx : R -> vec -> vec -> mat;
  constr_du : R -> vec -> vec -> mat
}.

Definition vec_of (row : list R) : vec := fun k => nth k row 0.

(** [states(time)], [controls(time)]. *)
Definition row_at (v : ivec) (t : R) : outcome vec := omap vec_of (interp_at v t).

(** The loops of evaluate_cost (ImplicitOptimizer.cpp:250-255) and evaluate_penalty (ImplicitOptimizer.cpp:289-294): [idx] are
    the time indices still to be visited. *)
Fixpoint integral_loop (f : R -> vec -> vec -> R) (st : list R) (controls states : ivec)
    (idx : list nat) (acc : R) : outcome R :=
  match idx with
  | [] => Ok acc
  | i :: idx' =>
      obind (get st i) (fun time =>
      obind (row_at states time) (fun x =>
      obind (row_at controls time) (fun u =>
      obind (get (quadrature_weights st) i) (fun w =>
      integral_loop f st controls states idx' (acc + w * f time x u)))))
  end.

(** evaluate_cost / evaluate_penalty once the states are available, ImplicitOptimizer.cpp:245-256, 284-295. *)
Definition evaluate_integral (f : R -> vec -> vec -> R) (st : list R) (controls states : ivec)
  : outcome R :=
  integral_loop f st controls states (seq 1 (length (ipoints states) - 1)) 0.

(** evaluate_objective, ImplicitOptimizer.cpp:207-219 (with states up to date). *)
Definition evaluate_objective (p : problem) (st : list R) (controls states : ivec) : outcome R :=
  obind (evaluate_integral (cost p) st controls states) (fun c =>
  obind (evaluate_integral (penalty p) st controls states) (fun pen => Ok (c + pen))).

(** One row of evaluate_constraints, ImplicitOptimizer.cpp:336-343: the constraint values at constraint time
    number [i]. *)
Definition evaluate_constraint_row (p : problem) (cons : list R) (controls states : ivec) (i : nat)
  : outcome vec :=
  obind (get cons i) (fun time =>
  obind (row_at states time) (fun x =>
  obind (row_at controls time) (fun u => Ok (constr p time x u)))).

(** What the three [update_*] functions store for one state index, ImplicitOptimizer.cpp:733-812.  The
    derivative of the objective is the sum of what cost and penalty report to the same handler
    (lines 802-811).  The constraint derivatives are evaluated by the code only at constraint
    times; evaluating them has no effect otherwise. *)
Record step_data : Type := mk_step_data {
  sA : mat;      (* dE_dnew, not transposed *)
  sB : mat;      (* dE_dlast, not transposed *)
  sC : mat;      (* dE_dcontrol *)
  sfx : vec;     (* df_dnew *)
  sfu : vec;     (* df_dcontrol *)
  sgx : mat;     (* dg_dnew, not transposed *)
  sgu : mat      (* dg_dcontrol *)
}.

Definition update_matrices (p : problem) (st : list R) (controls states : ivec) (i : nat)
  : outcome step_data :=
  obind (get st (i - 1)) (fun last_time =>
  obind (get st i) (fun new_time =>
  obind (row_at states last_time) (fun xl =>
  obind (row_at states new_time) (fun xn =>
  obind (row_at controls new_time) (fun u =>
  Ok (mk_step_data
        (d_new p last_time new_time xl xn u)
        (d_last p last_time new_time xl xn u)
        (d_control p last_time new_time xl xn u)
        (fun k => cost_dx p new_time xn u k + penalty_dx p new_time xn u k)
        (fun k => cost_du p new_time xn u k + penalty_du p new_time xn u k)
        (constr_dx p new_time xn u)
        (constr_du p new_time xn u))))))).

Definition transpose (M : mat) : mat := fun i j => M j i.
Definition dot (n : nat) (a b : vec) : R := Rsum n (fun k => a k * b k).
(** [M^T * v] and [v^T * M]: entry [k] is the sum over the [n] rows of [M]. *)
Definition tmulv (n : nat) (M : mat) (v : vec) : vec := fun k => Rsum n (fun e => M e k * v e).

(** [objective_gradient.mut_timestep(row) += factor * v] (mut_timestep,
    InterpolatingVector.cpp:302-315, throws outside the range).  [row] is [None] for the index
    -1. *)
Definition add_row (npoints : nat) (G : nat -> vec) (row : option nat) (factor : R) (v : vec)
  : outcome (nat -> vec) :=
  match row with
  | None => Exc
  | Some j =>
      if (j <? npoints)%nat
      then Ok (fun j' k => if (j' =? j)%nat then G j' k + factor * v k else G j' k)
      else Exc
  end.

Definition pred_index (u : nat) : option nat := match u with O => None | S u' => Some u' end.

(** Distribution of a derivative w.r.t. the current control to the control points,
    ImplicitOptimizer.cpp:552-563. *)
Definition distribute_gradient (npoints : nat) (G : nat -> vec) (u : nat) (la : R) (v : vec)
  : outcome (nat -> vec) :=
  if Reqb la 1 then add_row npoints G (Some u) 1 v
  else obind (add_row npoints G (Some u) la v) (fun G' =>
       add_row npoints G' (pred_index u) (1 - la) v).

(** [lower_rows(constraint_jacobian.get_column_block(column), ...) += factor * M] where the
    block of rows has height [q] (ImplicitOptimizer.cpp:633-647, 890-899).  [M] has [q] rows.  A block larger
    than the column block or a column outside the matrix violates a precondition. *)
Definition add_lower_rows (l : layout) (values : nat -> R) (column : option nat) (q : nat)
    (factor : R) (M : mat) : outcome (nat -> R) :=
  match column with
  | None => UB
  | Some j =>
      if ((j <? outer_width l)%nat && (q <=? inner_col_height l j)%nat)%bool then
        let start := column_block_position l j (inner_col_height l j - q) 0 in
        let bw := block_width l in
        Ok (fun pos =>
              if ((start <=? pos)%nat && (pos <? start + q * bw)%nat)%bool
              then values pos + factor * M ((pos - start) / bw)%nat ((pos - start) mod bw)%nat
              else values pos)
      else UB
  end.

Definition distribute_jacobian (l : layout) (values : nat -> R) (u : nat) (la : R) (q : nat) (M : mat)
  : outcome (nat -> R) :=
  if Reqb la 1 then add_lower_rows l values (Some u) q 1 M
  else obind (add_lower_rows l values (Some u) q la M) (fun values' =>
       add_lower_rows l values' (pred_index u) q (1 - la) M).

(** The linear solver: factorisation of the matrix and solution for one right-hand side;
    [None] stands for a reported failure of either ([solver.info() != Eigen::Success]). *)
Definition solver_type : Type := mat -> vec -> option vec.

(** Solving for the columns [cols] of a matrix right-hand side, ImplicitOptimizer.cpp:598. *)
Fixpoint solve_columns (solve : solver_type) (M : mat) (rhs : nat -> vec) (cols : list nat)
  : option (nat -> vec) :=
  match cols with
  | [] => Some rhs
  | c :: cols' =>
      match solve M (rhs c), solve_columns solve M rhs cols' with
      | Some x, Some X => Some (fun c' => if (c' =? c)%nat then x else X c')
      | _, _ => None
      end
  end.

(** The local variables of compute_derivatives that live across iterations of the loop. *)
Record sweep : Type := mk_sweep {
  w_rhs_f : vec;
  w_gradient : nat -> vec;      (* objective_gradient, row = control point *)
  w_index : nat;                (* constraint_index *)
  w_active : bool;              (* constraints_are_active_at_current_time *)
  w_rhs_g : nat -> vec;         (* full_rhs_g by columns *)
  w_jacobian : nat -> R         (* value array of constraint_jacobian *)
}.

(** The constraint part of one iteration, ImplicitOptimizer.cpp:565-649.  The read of
    [constraint_timepoints[constraint_index - 1]] with index -1 is undefined behaviour.  The
    result [Ok None] means that the solver failed (the function returns false). *)
Definition constraint_part (p : problem) (solve : solver_type) (l : layout) (cons : list R)
    (new_time : R) (d : step_data) (u : nat) (la : R) (s : sweep) : outcome (option sweep) :=
  if (ng p =? 0)%nat then Ok (Some s) else
  match pred_index (w_index s) with
  | None => UB
  | Some before =>
      obind (get cons before) (fun ctime =>
      let is_new := Reqb ctime new_time in
      let index := if is_new then before else w_index s in
      let active := (is_new || w_active s)%bool in
      if negb active then Ok (Some (mk_sweep (w_rhs_f s) (w_gradient s) index active (w_rhs_g s) (w_jacobian s)))
      else
        let first := (index * ng p)%nat in
        let total := (length cons * ng p)%nat in
        let in_new_block c := (is_new && (first <=? c)%nat && (c <? first + ng p)%nat)%bool in
        let rhs1 := fun c k => if in_new_block c then w_rhs_g s c k - sgx d (c - first)%nat k
                               else w_rhs_g s c k in
        match solve_columns solve (transpose (sA d)) rhs1 (seq first (total - first)) with
        | None => Ok None
        | Some Xi =>
            let rhs2 := fun c k =>
              if ((first <=? c)%nat && (c <? total)%nat)%bool
              then - tmulv (nx p) (sB d) (Xi c) k else rhs1 c k in
            let dg := fun c k => tmulv (nx p) (sC d) (Xi c) k
                                 + (if in_new_block c then sgu d (c - first)%nat k else 0) in
            obind (distribute_jacobian l (w_jacobian s) u la (total - first)
                     (fun r k => dg (first + r)%nat k)) (fun J =>
            Ok (Some (mk_sweep (w_rhs_f s) (w_gradient s) index active rhs2 J)))
        end)
  end.

(** One iteration of the loop, ImplicitOptimizer.cpp:529-650. *)
Definition sweep_step (p : problem) (solve : solver_type) (l : layout) (st ct cons : list R)
    (pairs : list (nat * R)) (controls states : ivec) (i : nat) (s : sweep)
  : outcome (option sweep) :=
  obind (update_matrices p st controls states i) (fun d =>
  obind (get st i) (fun new_time =>
  obind (get (quadrature_weights st) i) (fun w =>
  obind (get pairs i) (fun '(u, la) =>
  let rhs := fun k => w_rhs_f s k - w * sfx d k in
  match solve (transpose (sA d)) rhs with
  | None => Ok None
  | Some xi =>
      let rhs' := fun k => - tmulv (nx p) (sB d) xi k in
      let df_dui := fun k => tmulv (nx p) (sC d) xi k + w * sfu d k in
      obind (distribute_gradient (length ct) (w_gradient s) u la df_dui) (fun G =>
      constraint_part p solve l cons new_time d u la
        (mk_sweep rhs' G (w_index s) (w_active s) (w_rhs_g s) (w_jacobian s)))
  end)))).

(** The loop [while (state_index > 0)], ImplicitOptimizer.cpp:528-651. *)
Fixpoint sweep_loop (p : problem) (solve : solver_type) (l : layout) (st ct cons : list R)
    (pairs : list (nat * R)) (controls states : ivec) (state_index : nat) (s : sweep)
  : outcome (option sweep) :=
  match state_index with
  | O => Ok (Some s)
  | S i =>
      obind (sweep_step p solve l st ct cons pairs controls states (S i) s) (fun r =>
      match r with
      | None => Ok None
      | Some s' => sweep_loop p solve l st ct cons pairs controls states i s'
      end)
  end.

(** compute_derivatives, ImplicitOptimizer.cpp:487-656: [Ok None] is the return value false, [Ok (Some (G, J))]
    is true with the stored objective gradient and value array of the constraint Jacobian. *)
Definition compute_derivatives (p : problem) (solve : solver_type) (l : layout) (st ct cons : list R)
    (controls states : ivec) : outcome (option ((nat -> vec) * (nat -> R))) :=
  obind (compute_index_lambda_vector ct st) (fun pairs =>
  obind (sweep_loop p solve l st ct cons pairs controls states (length st - 1)
           (mk_sweep (fun _ => 0) (fun _ _ => 0) (length cons) false (fun _ _ => 0) (fun _ => 0)))
  (fun r => Ok (match r with
                | None => None
                | Some s => Some (w_gradient s, w_jacobian s)
                end))).
