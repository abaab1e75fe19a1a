(** * Model of src/Auxillary/InterpolatingVector and of the time grid helpers

    [double] is modelled by [R]; no rounding.  *)
From Coq Require Import List Arith Reals Lra Lia ZArith Bool.
From Verif Require Import Base.
Import ListNotations.
Open Scope R_scope.

(** Boolean comparisons of doubles (no NaN). *)
Definition Rltb (x y : R) : bool := if Rlt_dec x y then true else false.
Definition Rleb (x y : R) : bool := if Rle_dec x y then true else false.
Definition Reqb (x y : R) : bool := if Req_EM_T x y then true else false.

(** Aux::EPSILON = 1e-10, src/Auxillary/Mathfunctions/include/Mathfunctions.hpp
    (constant used by InterpolatingVector.cpp:255,269 and Optimization_helpers.cpp:34). *)
Definition EPSILON : R := / 10 ^ 10.

(** The object state of InterpolatingVector (InterpolatingVector.hpp: members
    [interpolation_points], [inner_length], [values]); [values] is the flat array of all
    values, [values] of time index [i] start at [i * inner_length]. *)
Record ivec : Type := mk_ivec {
  ipoints : list R;
  iinner  : nat;
  ivalues : list R
}.

(** Eigen [segment(start, len)]: outside the vector it violates an Eigen precondition. *)
Definition segment (l : list R) (start len : nat) : outcome (list R) :=
  if (start + len <=? length l)%nat then Ok (firstn len (skipn start l)) else UB.

(** [std::lower_bound(begin, end, t)] as an index: first position whose element is not
    less than [t].  Simplification: the standard library's binary search is replaced by
    its contract on ranges partitioned by [elem < t]; every sorted range is. *)
Fixpoint lower_bound (l : list R) (t : R) : nat :=
  match l with
  | [] => 0
  | p :: ps => if Rltb p t then S (lower_bound ps t) else 0
  end.

(** [(1 - lambda) * value_prev + lambda * value_next], InterpolatingVector.cpp:294. *)
Fixpoint combine_rows (lambda : R) (prev next : list R) : list R :=
  match prev, next with
  | a :: prev', b :: next' =>
      ((1 - lambda) * a + lambda * b) :: combine_rows lambda prev' next'
  | _, _ => []
  end.

(** InterpolatingVector_Base::operator()(double t), InterpolatingVector.cpp:253-295.
    [back()]/[front()] of an empty vector and [std::prev(begin)] are undefined behaviour. *)
Definition interp_at (v : ivec) (t : R) : outcome (list R) :=
  match ipoints v with
  | [] => UB
  | p0 :: _ =>
      let pback := last (ipoints v) 0 in
      let n := length (ipoints v) in
      if Rleb pback t then
        if Rltb (pback + EPSILON) t then Exc
        else segment (ivalues v) ((n - 1) * iinner v) (iinner v)
      else if Rleb t p0 then
        if Rltb t (p0 - EPSILON) then Exc
        else segment (ivalues v) 0 (iinner v)
      else
        let it := lower_bound (ipoints v) t in
        if (it =? 0)%nat then UB else
        obind (get (ipoints v) it) (fun t_next =>
        obind (get (ipoints v) (it - 1)) (fun t_prev =>
        let next_index := (it * iinner v)%nat in
        let prev_index := (next_index - iinner v)%nat in
        obind (segment (ivalues v) next_index (iinner v)) (fun value_next =>
        obind (segment (ivalues v) prev_index (iinner v)) (fun value_prev =>
        let lambda := (t - t_prev) / (t_next - t_prev) in
        Ok (combine_rows lambda value_prev value_next)))))
  end.

(** [std::is_sorted] with [operator<]. *)
Fixpoint is_sorted (l : list R) : bool :=
  match l with
  | a :: ((b :: _) as l') => (negb (Rltb b a) && is_sorted l')%bool
  | _ => true
  end.

(** [std::vector(std::vector&&)]: the new vector takes the elements, the source is left
    empty (result: new vector, source afterwards). *)
Definition vector_move_construct {A} (source : list A) : list A * list A := (source, []).

(** InterpolatingVector_Base(std::vector<double>, Eigen::Index), InterpolatingVector.cpp:168-176
    called from InterpolatingVector(std::vector<double>, Eigen::Index), lines 390-395.
    The member is initialised by moving from the parameter; the sortedness check then looks
    at the parameter.  The values are uninitialised; modelled by an arbitrary list [garbage]
    of the right length. *)
Definition ctor_from_vector (points : list R) (inner : nat) (garbage : list R) : outcome ivec :=
  let '(member, parameter) := vector_move_construct points in
  if negb (is_sorted parameter) then Exc
  else Ok (mk_ivec member inner garbage).

(** InterpolatingVector_Base::mut_timestep(i) = row, InterpolatingVector.cpp:302-315:
    overwrite one row; exception if the row does not exist.  Assigning a row of another
    length than [inner_length] violates an Eigen precondition. *)
Definition set_row (v : ivec) (i : nat) (row : list R) : outcome ivec :=
  let start_index := (iinner v * i)%nat in
  let after_index := (start_index + iinner v)%nat in
  if (length (ivalues v) <? after_index)%nat then Exc
  else if negb (length row =? iinner v)%nat then UB
  else Ok (mk_ivec (ipoints v) (iinner v)
            (firstn start_index (ivalues v) ++ row ++ skipn after_index (ivalues v))).

(** InterpolatingVector_Base::vector_at_index, InterpolatingVector.cpp:323-337. *)
Definition vector_at_index (v : ivec) (i : nat) : outcome (list R) :=
  let start_index := (iinner v * i)%nat in
  let after_index := (start_index + iinner v)%nat in
  if (length (ivalues v) <? after_index)%nat then Exc
  else segment (ivalues v) start_index (iinner v).

(** The loop of InterpolatingVector_Base::interpolate_from, InterpolatingVector.cpp:234-236:
    [todo] points are still to be visited, starting with index [index]. *)
Fixpoint interpolate_loop (todo : list R) (index : nat) (dst src : ivec) : outcome ivec :=
  match todo with
  | [] => Ok dst
  | t :: todo' =>
      obind (interp_at src t) (fun row =>
      obind (set_row dst index row) (fun dst' =>
      interpolate_loop todo' (S index) dst' src))
  end.

(** InterpolatingVector_Base::interpolate_from, InterpolatingVector.cpp:223-237.
    Violated asserts are undefined behaviour of the release build (here: the asserts on
    the span and the inner length). *)
Definition interpolate_from (dst src : ivec) : outcome ivec :=
  if negb (iinner dst =? iinner src)%nat then UB else
  obind (get (ipoints src) 0) (fun s0 =>
  obind (get (ipoints dst) 0) (fun d0 =>
  if Rltb d0 s0 then UB else
  if Rltb (last (ipoints src) 0) (last (ipoints dst) 0) then UB else
  interpolate_loop (ipoints dst) 0 dst src)).

(** ** Time grids *)

(** Aux::Interpolation_data, InterpolatingVector.hpp. *)
Record interpolation_data : Type := mk_idata {
  first_point : R;
  delta : R;
  number_of_entries : nat
}.

(** [std::ceil] as an integer. *)
Definition Rceil (x : R) : Z := (- Int_part (- x))%Z.

(** make_from_start_number_end, InterpolatingVector.cpp:33-58.  For one entry the code
    divides by zero (the result is inf, rejected only by an assert): modelled as [UB]. *)
Definition make_from_start_number_end (first last : R) (n : Z) : outcome interpolation_data :=
  if (n <=? 0)%Z then Exc
  else if Rleb last first then Exc
  else if (n =? 1)%Z then UB
  else Ok (mk_idata first ((last - first) / IZR (n - 1)) (Z.to_nat n)).

(** make_from_start_delta_number, InterpolatingVector.cpp:60-75. *)
Definition make_from_start_delta_number (first dlt : R) (n : Z) : outcome interpolation_data :=
  if (n <=? 0)%Z then Exc
  else if Rleb dlt 0 then Exc
  else Ok (mk_idata first dlt (Z.to_nat n)).

(** make_from_start_delta_end, InterpolatingVector.cpp:76-110. *)
Definition make_from_start_delta_end (first desired last : R) : outcome interpolation_data :=
  if Rleb last first then Exc
  else if Rleb desired 0 then Exc
  else
    let n := Z.to_nat (Rceil ((last - first) / desired) + 1) in
    Ok (mk_idata first ((last - first) / INR (n - 1)) n).

(** set_equidistant_interpolation_points, InterpolatingVector.cpp:112-132: repeated
    addition of [delta]. *)
Fixpoint accumulate_points (current dlt : R) (n : nat) : list R :=
  match n with
  | O => []
  | S n' => current :: accumulate_points (current + dlt) dlt n'
  end.
Definition equidistant_points (d : interpolation_data) : list R :=
  accumulate_points (first_point d) (delta d) (number_of_entries d).

(** A double that may be infinite or NaN; only needed for the step size computed by
    Timedata, which divides by an unchecked number. *)
Inductive xdouble : Type := Fin (r : R) | PInf | NInf | NaN.

(** Model::Timedata::init_Number_of_timesteps, src/Auxillary/Timedata/Timedata.cpp:29-33.
    No argument is checked.  Dividing by zero and converting the result to int is undefined. *)
Definition timedata_number (tstart tend desired : R) : outcome Z :=
  if Reqb desired 0 then UB
  else Ok (Rceil ((tend - tstart) / desired) + 1)%Z.

(** Model::Timedata::init_delta_t, Timedata.cpp:43-45: IEEE division, also by zero. *)
Definition timedata_delta (tstart tend : R) (number : Z) : xdouble :=
  let span := tend - tstart in
  if (number =? 1)%Z then
    if Rltb 0 span then PInf else if Rltb span 0 then NInf else NaN
  else Fin (span / IZR (number - 1)).

(** make_from_start_delta_end with an IEEE step size as handed over by run
    (src/Grazer/commands.cpp:93-95): an infinite step gives ceil(0)+1 = 1 entries. *)
Definition make_from_start_xdelta_end (first : R) (desired : xdouble) (last : R)
  : outcome (R * nat * xdouble) :=
  match desired with
  | Fin d =>
      omap (fun i => (first_point i, number_of_entries i, Fin (delta i)))
           (make_from_start_delta_end first d last)
  | PInf => if Rleb last first then Exc else Ok (first, 1%nat, PInf)
  | NInf => Exc
  | NaN => if Rleb last first then Exc else UB
  end.

(** The state time grid built by grazer::run from the user's settings
    "start_time", "end_time", "desired_delta_t": Timedata (Timedata.cpp:22-27), then
    make_from_start_delta_end and the InterpolatingVector constructor
    (src/Grazer/commands.cpp:77, 93-97). *)
Definition state_grid (tstart tend desired : R) : outcome (list R) :=
  obind (timedata_number tstart tend desired) (fun number =>
  obind (make_from_start_xdelta_end tstart (timedata_delta tstart tend number) tend)
    (fun '(first, n, d) =>
       match d with
       | Fin dlt => Ok (accumulate_points first dlt n)
       | _ => if (n =? 1)%nat then Ok [first] else UB
       end)).

(** ** Index/weight pairs for the derivative computation *)

(** Optimization::compute_index_lambda, src/Optimization_helpers/Optimization_helpers.cpp:26-57.
    Violated asserts and dereferencing the end iterator are undefined behaviour. *)
Definition compute_index_lambda (points : list R) (t : R) : outcome (nat * R) :=
  match points with
  | [] => UB
  | p0 :: _ =>
      let pback := last points 0 in
      if Rltb t p0 then UB
      else if Rltb (pback + EPSILON) t then UB
      else if (Rltb pback t && Rltb t (pback + EPSILON))%bool then Ok ((length points - 1)%nat, 1)
      else
        let i_upper := lower_bound points t in
        obind (get points i_upper) (fun time_upper =>
        if (i_upper =? 0)%nat then Ok (i_upper, 1)
        else
          obind (get points (i_upper - 1)) (fun time_lower =>
          Ok (i_upper, (t - time_lower) / (time_upper - time_lower))))
  end.

(** compute_index_lambda_vector, Optimization_helpers.cpp:59-70. *)
Definition compute_index_lambda_vector (coarse fine : list R) : outcome (list (nat * R)) :=
  omapM (compute_index_lambda coarse) fine.

(** ** Quadrature weights *)

(** make_objective_function_coefficients, src/IpoptWrapper/ImplicitOptimizer.cpp:33-51:
    weight of index [i] for the list of time points. *)
Definition quadrature_weight (points : list R) (i : nat) : R :=
  let n := length points in
  if (n =? 1)%nat then 1
  else if (i =? 0)%nat then / 2 * (nth 1 points 0 - nth 0 points 0)
  else if (i =? n - 1)%nat then / 2 * (nth i points 0 - nth (i - 1) points 0)
  else / 2 * (nth (i + 1) points 0 - nth (i - 1) points 0).
Definition quadrature_weights (points : list R) : list R :=
  map (quadrature_weight points) (seq 0 (length points)).
