(** The time grids and the interpolation of InterpolatingVector.cpp and Timedata.cpp in IEEE
    double arithmetic (binary64, rounding to nearest even), with the binary64 numbers of the
    Flocq library.  The areas Interp and Grids model the same functions with real numbers;
    here nothing is idealised except that all NaNs are one value.

    Every function that contains an [assert] has a first argument [debug]: [true] is a build
    with asserts, in which a failing assert is [UB] (abort); [false] is a build with NDEBUG
    (README.md:72 builds with CMAKE_BUILD_TYPE=Release). *)
From Coq Require Import ZArith List Bool.
From Flocq Require Import IEEE754.BinarySingleNaN.
From Verif Require Import Base.
Import ListNotations.
Local Open Scope Z_scope.
Local Open Scope list_scope.

(** ** The number format *)

Definition prec64 : Z := 53.
Definition emax64 : Z := 1024.
Definition double : Set := binary_float prec64 emax64.

Definition dplus : double -> double -> double := @Bplus prec64 emax64 eq_refl eq_refl mode_NE.
Definition dminus : double -> double -> double := @Bminus prec64 emax64 eq_refl eq_refl mode_NE.
Definition dmult : double -> double -> double := @Bmult prec64 emax64 eq_refl eq_refl mode_NE.
Definition ddiv : double -> double -> double := @Bdiv prec64 emax64 eq_refl eq_refl mode_NE.
(** [std::ceil]. *)
Definition dceil : double -> double := @Bnearbyint prec64 emax64 eq_refl mode_UP.
Definition dabs : double -> double := @Babs prec64 emax64.
(** [<] and [<=]; both false if one side is NaN. *)
Definition dlt (x y : double) : bool := Bltb x y.
Definition dle (x y : double) : bool := Bleb x y.
(** Conversion of an integer to double (rounds to nearest). *)
Definition of_Z (z : Z) : double :=
  @binary_normalize prec64 emax64 eq_refl eq_refl mode_NE z 0 false.
(** Literals m * 2^e. *)
Definition lit (m e : Z) : double :=
  @binary_normalize prec64 emax64 eq_refl eq_refl mode_NE m e false.

(** Conversion of a double to an integer type with the values lo ... hi: truncation; undefined
    outside of the range and for NaN and infinities. *)
Definition to_integer (lo hi : Z) (x : double) : outcome Z :=
  if is_finite x then
    let z := Btrunc x in
    if (lo <=? z) && (z <=? hi) then Ok z else UB
  else UB.
(** static_cast<size_t>, static_cast<int>. *)
Definition to_size_t : double -> outcome Z := to_integer 0 (2 ^ 64 - 1).
Definition to_int : double -> outcome Z := to_integer (- 2 ^ 31) (2 ^ 31 - 1).

(** Aux::EPSILON = 1e-10, src/Auxillary/Mathfunctions/Mathfunctions.cpp:26: the double nearest
    to 1e-10 is 7737125245533627 * 2^-86. *)
Definition EPSILON64 : double := lit 7737125245533627 (-86).

(** ** Grid data, src/Auxillary/InterpolatingVector/InterpolatingVector.cpp *)

(** Aux::Interpolation_data, include/InterpolatingVector.hpp. *)
Record interpolation_data64 : Set := mk_idata64 {
  first64 : double;
  delta64 : double;
  number64 : Z
}.

(** The two asserts of make_from_start_number_end (InterpolatingVector.cpp:51-56) and of
    make_from_start_delta_end (:100-107); [m] is the number of entries minus 1 as a double. *)
Definition end_asserts (first delta last m : double) : bool :=
  let reached := dplus first (dmult m delta) in
  dlt (dminus reached EPSILON64) last && dlt last (dplus reached EPSILON64).

(** make_from_start_number_end, InterpolatingVector.cpp:33-58; [n] is an int. *)
Definition make_from_start_number_end64 (debug : bool) (first last : double) (n : Z)
  : outcome interpolation_data64 :=
  if n <=? 0 then Exc
  else if dle last first then Exc
  else
    let delta := ddiv (dminus last first) (of_Z (n - 1)) in
    if debug && negb (end_asserts first delta last (of_Z (n - 1))) then UB
    else Ok (mk_idata64 first delta n).

(** make_from_start_delta_number, InterpolatingVector.cpp:60-75. *)
Definition make_from_start_delta_number64 (first delta : double) (n : Z)
  : outcome interpolation_data64 :=
  if n <=? 0 then Exc
  else if dle delta (of_Z 0) then Exc
  else Ok (mk_idata64 first delta n).

(** make_from_start_delta_end, InterpolatingVector.cpp:76-110.  The number of entries is a
    size_t, so "number_of_entries - 1" wraps around for 0 entries. *)
Definition make_from_start_delta_end64 (debug : bool) (first desired last : double)
  : outcome interpolation_data64 :=
  if dle last first then Exc
  else if dle desired (of_Z 0) then Exc
  else
    obind (to_size_t (dplus (dceil (ddiv (dminus last first) desired)) (of_Z 1))) (fun n =>
    let m := of_Z ((n - 1) mod 2 ^ 64) in
    let delta := ddiv (dminus last first) m in
    if debug && negb (end_asserts first delta last m) then UB
    else Ok (mk_idata64 first delta n)).

(** The loop of set_equidistant_interpolation_points, InterpolatingVector.cpp:119-122. *)
Fixpoint accumulate64 (current delta : double) (n : nat) : list double :=
  match n with
  | O => []
  | S n' => current :: accumulate64 (dplus current delta) delta n'
  end.

(** std::is_sorted with operator<. *)
Fixpoint is_sorted64 (l : list double) : bool :=
  match l with
  | x :: ((y :: _) as l') => negb (dlt y x) && is_sorted64 l'
  | _ => true
  end.

(** [==] of doubles. *)
Definition deq (x y : double) : bool := dle x y && dle y x.

(** set_equidistant_interpolation_points, InterpolatingVector.cpp:112-132, and the assert of
    the constructor InterpolatingVector_Base(Interpolation_data, ...), :138-150.  Reading the
    first entry of an empty vector is undefined, but only done by the asserts. *)
Definition grid64 (debug : bool) (d : interpolation_data64) : outcome (list double) :=
  let points := accumulate64 (first64 d) (delta64 d) (Z.to_nat (number64 d)) in
  if debug then
    obind (get points 0) (fun front =>
    obind (get points (length points - 1)) (fun back =>
    let reached :=
      dplus (first64 d) (dmult (of_Z ((number64 d - 1) mod 2 ^ 64)) (delta64 d)) in
    if deq front (first64 d)
       && dlt (dabs (dminus back reached)) EPSILON64
       && is_sorted64 points
    then Ok points else UB))
  else Ok points.

(** ** Timedata, src/Auxillary/Timedata/Timedata.cpp:22-45 *)

(** init_Number_of_timesteps, :29-33.  Adding 1 to the largest int overflows. *)
Definition timedata_number64 (tstart tend desired : double) : outcome Z :=
  obind (to_int (dceil (ddiv (dminus tend tstart) desired))) (fun k =>
  if k =? 2 ^ 31 - 1 then UB else Ok (k + 1)).

(** init_delta_t, :43-45.  [number - 1] is an int; it cannot overflow because [number] is a
    sum of an int and 1. *)
Definition timedata_delta64 (tstart tend : double) (number : Z) : double :=
  ddiv (dminus tend tstart) (of_Z (number - 1)).

(** The state times of grazer::run, src/Grazer/commands.cpp:77, 93-97. *)
Definition state_data64 (debug : bool) (tstart tend desired : double)
  : outcome interpolation_data64 :=
  obind (timedata_number64 tstart tend desired) (fun number =>
  make_from_start_delta_end64 debug tstart (timedata_delta64 tstart tend number) tend).
Definition state_grid64 (debug : bool) (tstart tend desired : double) : outcome (list double) :=
  obind (state_data64 debug tstart tend desired) (grid64 debug).

(** The choice of the control times in setup_controls, src/Grazer/helpers.cpp:24-71: what the
    object "control_settings" contains. *)
Inductive control_settings : Set :=
| no_settings                                    (* "control_settings" is absent *)
| settings (desired : option double) (number : option Z).

Definition control_data64 (debug : bool) (tstart tend desired : double) (s : control_settings)
  : outcome interpolation_data64 :=
  match s with
  | settings (Some _) (Some _) => Exc
  | settings (Some d) None => make_from_start_delta_end64 debug tstart d tend
  | settings None (Some n) => make_from_start_number_end64 debug tstart tend n
  | settings None None => Exc
  | no_settings => state_data64 debug tstart tend desired
  end.
Definition control_grid64 (debug : bool) (tstart tend desired : double) (s : control_settings)
  : outcome (list double) :=
  obind (control_data64 debug tstart tend desired s) (grid64 debug).

(** ** Interpolation *)

(** std::lower_bound on a sorted range: the first index with not (point < t). *)
Fixpoint lower_bound64 (points : list double) (t : double) : nat :=
  match points with
  | [] => O
  | p :: ps => if dlt p t then S (lower_bound64 ps t) else O
  end.

(** (1 - lambda) * value_prev + lambda * value_next for one entry. *)
Definition blend64 (lambda vprev vnext : double) : double :=
  dplus (dmult (dminus (of_Z 1) lambda) vprev) (dmult lambda vnext).

(** InterpolatingVector_Base::operator()(double), InterpolatingVector.cpp:253-296.  The values
    are given as one list of entries per point (the segments of [allvalues]); reading a value
    that is not there is undefined. *)
Definition eval64 (points : list double) (values : list (list double)) (t : double)
  : outcome (list double) :=
  obind (get points 0) (fun front =>
  obind (get points (length points - 1)) (fun back =>
  if dle back t then
    if dlt (dplus back EPSILON64) t then Exc
    else get values (length points - 1)
  else if dle t front then
    if dlt t (dminus front EPSILON64) then Exc
    else get values 0
  else
    let i := lower_bound64 points t in
    obind (get points i) (fun t_next =>
    if (i =? 0)%nat then UB else
    obind (get points (i - 1)) (fun t_prev =>
    obind (get values i) (fun value_next =>
    obind (get values (i - 1)) (fun value_prev =>
    let lambda := ddiv (dminus t t_prev) (dminus t_next t_prev) in
    Ok (map (fun '(a, b) => blend64 lambda a b) (combine value_prev value_next)))))))).
