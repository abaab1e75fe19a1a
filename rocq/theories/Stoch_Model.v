(** * Model of the random number helpers and the Ornstein-Uhlenbeck process

    Normaldistribution.cpp:55-99, Stochastic.cpp:23-51, Stochastic.hpp:22-71.

    The random number generator is a stream: [draw k mean sd] is the value the k-th call of the
    normal distribution returns; nothing is assumed about it.  Doubles are exact reals. *)
From Coq Require Import Reals ZArith List Bool Arith.
From Verif Require Import Base Interp_Model.
Import ListNotations.
Local Open Scope R_scope.

(** [draw k mean standard_deviation]: Normaldistribution::get_sample(mean, standard_deviation),
    Normaldistribution.cpp:55-59. *)
Definition stream := nat -> R -> R -> R.

(** The loop of Truncatednormaldist::get_sample, Normaldistribution.cpp:73-80; [k] counts the
    draws, [sample] is the current sample.  The result carries the number of draws. *)
Fixpoint trials (fuel : nat) (draw : stream) (mean sd lower upper : R) (k : nat) (sample : R)
  : outcome (R * nat) :=
  match fuel with
  | O => Exc
  | S f =>
      if (Rleb lower sample && Rleb sample upper)%bool then Ok (sample, k)
      else trials f draw mean sd lower upper (S k) (draw k mean sd)
  end.

(** Truncatednormaldist::get_sample with four arguments, lines 70-99. *)
Definition maximum_number_of_trials : Z := 100000.
Definition truncated_sample (draw : stream) (k : nat) (mean sd lower upper : R) : outcome (R * nat) :=
  trials (Z.to_nat maximum_number_of_trials) draw mean sd lower upper (S k) (draw k mean sd).
(** The other overloads, lines 101-119: the bounds are two standard deviations around the mean. *)
Definition truncated_sample_mean_sd (draw : stream) (k : nat) (mean sd : R) : outcome (R * nat) :=
  truncated_sample draw k mean sd (mean - 2 * sd) (mean + 2 * sd).
Definition truncated_sample_bounds (draw : stream) (k : nat) (sd lower upper : R) : outcome (R * nat) :=
  truncated_sample draw k 0 sd lower upper.
Definition truncated_sample_sd (draw : stream) (k : nat) (sd : R) : outcome (R * nat) :=
  let mean := 0 in
  let lower_bound := mean - 2 * sd in
  let upper_bound := mean + 2 * sd in
  truncated_sample draw k mean sd lower_bound upper_bound.

(** The value range of int. *)
Definition int_max : Z := (2 ^ 31 - 1)%Z.

(** compute_stable_number_of_oup_steps, Stochastic.cpp:23-51.  For zero steps the step size is
    an infinity or not a number; the comparison in line 45 then holds exactly if both theta and
    delta_t are positive.  The conversion to int and the addition of 1 are undefined outside of
    the range of int. *)
Definition compute_stable_number_of_oup_steps (stability theta delta_t : R) (steps : Z) : outcome Z :=
  if (Rleb stability 0 || Rleb 2 stability)%bool then Exc
  else if Rltb theta 0 then Exc
  else if (steps <? 0)%Z then Exc
  else if (if (steps =? 0)%Z then (Rltb 0 theta && Rltb 0 delta_t)%bool
           else Rleb stability (theta * (delta_t / IZR steps)))
  then let n := (Rceil (theta * delta_t / stability) + 1)%Z in
       if (n <=? int_max)%Z then Ok n else UB
  else Ok steps.

(** sgn, Stochastic.hpp:22. *)
Definition sgn (x : R) : R := (if Rltb 0 x then 1 else 0) - (if Rltb x 0 then 1 else 0).

(** One iteration of the loop in euler_maruyama_oup, Stochastic.hpp:56-68, with the random number
    [xi] for the standard deviation sqrt(stepsize). *)
Definition oup_step (cut_off theta mu sigma stepsize xi current : R) : R :=
  let v := current + theta * (mu - current) * stepsize + sigma * xi in
  if Rltb (sgn mu * v) ((1 - cut_off) * sgn mu * mu) then (1 - cut_off) * mu
  else if Rltb ((1 + cut_off) * sgn mu * mu) (sgn mu * v) then (1 + cut_off) * mu
  else v.
Fixpoint oup_loop (n : nat) (draw : stream) (k : nat) (cut_off theta mu sigma stepsize current : R) : R :=
  match n with
  | O => current
  | S n' => oup_loop n' draw (S k) cut_off theta mu sigma stepsize
              (oup_step cut_off theta mu sigma stepsize (draw k 0 (sqrt stepsize)) current)
  end.

(** euler_maruyama_oup, Stochastic.hpp:45-71, with a Normaldistribution, whose get_sample with
    one argument has mean 0, Normaldistribution.cpp:61-63. *)
Definition euler_maruyama_oup (stability cut_off last theta mu delta_t sigma : R) (draw : stream) (k : nat)
    (steps : Z) : outcome R :=
  omap (fun n => oup_loop (Z.to_nat n) draw k cut_off theta mu sigma (delta_t / IZR n) last)
       (compute_stable_number_of_oup_steps stability theta delta_t steps).
