(** * Model of the damped Newton solver (src/Newtonsolver/Newtonsolver.cpp)

    Vectors, the residual function, the Jacobian factorisation and the linear solver are
    parameters: nothing is assumed about them, in particular norms may be infinite or NaN.
    The step factor [lambda] is always an exact power of two, or zero after the halving has
    underflowed, and is kept as a real number. *)
From Coq Require Import Reals ZArith List Bool.
From Verif Require Import Base Interp_Model.
Import ListNotations.
Local Open Scope R_scope.

(** ** Comparisons of doubles (IEEE 754): every comparison with NaN is false. *)
Definition xltb (a b : xdouble) : bool :=
  match a, b with
  | NaN, _ | _, NaN => false
  | Fin x, Fin y => Rltb x y
  | NInf, NInf => false
  | NInf, _ => true
  | _, NInf => false
  | PInf, _ => false
  | Fin _, PInf => true
  end.
Definition xleb (a b : xdouble) : bool :=
  match a, b with
  | NaN, _ | _, NaN => false
  | Fin x, Fin y => Rleb x y
  | NInf, _ => true
  | _, PInf => true
  | _, NInf => false
  | PInf, Fin _ => false
  end.
Definition xgtb (a b : xdouble) : bool := xltb b a.

(** Product of a double with a positive finite factor. *)
Definition xscale (c : R) (a : xdouble) : xdouble :=
  match a with Fin x => Fin (c * x) | _ => a end.

(** ** The non-linear system handed to the solver for one time step:
    [ns_eval x]        Controlcomponent::evaluate at the new state [x];
    [ns_norm]          Eigen's norm();
    [ns_move x l s]    x + l * s;
    [ns_neg]           unary minus;
    [ns_factor x]      evaluate the Jacobian at [x] and factorize; [None] if
                       lusolver.info() != Success;
    [ns_linsolve]      lusolver.solve (its info() is not looked at by the code). *)
Record nsystem := {
  ns_vec : Type;
  ns_lu : Type;
  ns_eval : ns_vec -> ns_vec;
  ns_norm : ns_vec -> xdouble;
  ns_move : ns_vec -> R -> ns_vec -> ns_vec;
  ns_neg : ns_vec -> ns_vec;
  ns_factor : ns_vec -> option ns_lu;
  ns_linsolve : ns_lu -> ns_vec -> ns_vec }.

(** Newtonsolver's members, Newtonsolver.hpp and Newtonsolver.cpp:26-27. *)
Record nsettings := { tolerance : R; maximal_iterations : Z }.
(** include/Newtonsolver.hpp:133: [minimal_stepsize]. *)
Definition minimal_stepsize : R := / 10 ^ 12.

(** Solver::Solutionstruct, include/Newtonsolver.hpp:36-43, with its default values. *)
Record solution := { success : bool; residual : xdouble; used_iterations : Z }.
Definition default_solution : solution :=
  {| success := false; residual := Fin 1000000; used_iterations := 0 |}.

(** [lambda *= 0.5], Newtonsolver.cpp:143, for [lambda] zero or a power of two: exact down to the
    smallest positive double 2^-1074, whose half is rounded to zero. *)
Definition halve (lambda : R) : R :=
  if Rleb lambda (/ 2 ^ 1074) then 0 else lambda * / 2.

(** A computation that need not terminate: [None] means that the fuel did not suffice. *)
Definition nresult (A : Type) : Type := option (outcome A).

Section Solve.
Variable N : nsystem.
Notation V := (ns_vec N).

(** The damping loop, Newtonsolver.cpp:136-149.  [lambda], [candidate_vector],
    [candidate_values], [current_norm] are the loop's variables.  Returned is the triple
    (lambda, candidate_vector, candidate_values) at loop exit. *)
Fixpoint damp (fuel : nat) (lu : ns_lu N) (x step : V) (testnorm : xdouble)
    (lambda : R) (candidate values : V) (current_norm : xdouble) : nresult (R * V * V) :=
  if xgtb current_norm (xscale (1 - / 2 * lambda) testnorm) then
    match fuel with
    | O => None
    | S fuel' =>
        if xltb current_norm (Fin minimal_stepsize) then Some Exc
        else
          let lambda' := halve lambda in
          let candidate' := ns_move N x lambda' step in
          let values' := ns_eval N candidate' in
          damp fuel' lu x step testnorm lambda' candidate' values'
            (ns_norm N (ns_neg N (ns_linsolve N lu values')))
    end
  else Some (Ok (lambda, candidate, values)).

(** One pass through the loop body, Newtonsolver.cpp:105-153: the new state and the new
    value of [rootvalues]. *)
Definition newton_step (fuel : nat) (full : bool) (lu0 : option (ns_lu N))
    (x rootvalues : V) : nresult (V * V) :=
  match (if full then ns_factor N x else lu0) with
  | None => Some Exc
  | Some lu =>
      let step := ns_neg N (ns_linsolve N lu rootvalues) in
      let candidate := ns_move N x 1 step in
      let values := ns_eval N candidate in
      match damp fuel lu x step (ns_norm N step) 1 candidate values
              (ns_norm N (ns_neg N (ns_linsolve N lu values))) with
      | None => None
      | Some (Ok (_, candidate', values')) => Some (Ok (candidate', values'))
      | Some Exc => Some Exc
      | Some UB => Some UB
      end
  end.

(** The iteration, Newtonsolver.cpp:103-154.  [left] is
    maximal_iterations - used_iterations (zero if that is negative), so the loop's second
    condition is [left <> 0]. *)
Fixpoint newton_loop (fuel : nat) (tol : R) (full : bool) (lu0 : option (ns_lu N))
    (left : nat) (x rootvalues : V) (sol : solution) : nresult (V * solution) :=
  match left with
  | O => Some (Ok (x, sol))
  | S left' =>
      if xgtb (ns_norm N rootvalues) (Fin tol) then
        match newton_step fuel full lu0 x rootvalues with
        | None => None
        | Some (Ok (x', values')) =>
            newton_loop fuel tol full lu0 left' x' values'
              {| success := success sol; residual := ns_norm N values';
                 used_iterations := (used_iterations sol + 1)%Z |}
        | Some Exc => Some Exc
        | Some UB => Some UB
        end
      else Some (Ok (x, sol))
  end.

(** Newtonsolver::solve, Newtonsolver.cpp:63-163.  The argument [newjac] only decides how
    the Jacobian's sparsity pattern is obtained and is left out.  Result: the final value of
    the reference argument [new_state] and the returned struct. *)
Definition solve (fuel : nat) (cfg : nsettings) (full : bool) (x : V)
  : nresult (V * solution) :=
  let rootvalues := ns_eval N x in
  if xleb (ns_norm N rootvalues) (Fin (tolerance cfg)) then
    Some (Ok (x, {| success := true; residual := ns_norm N rootvalues;
                    used_iterations := 0 |}))
  else
    let lu0 := ns_factor N x in
    match full, lu0 with
    | false, None => Some Exc
    | _, _ =>
        match newton_loop fuel (tolerance cfg) full lu0
                (Z.to_nat (maximal_iterations cfg)) x rootvalues default_solution with
        | Some (Ok (x', sol)) =>
            let failed := ((used_iterations sol =? maximal_iterations cfg)%Z
                           && xgtb (residual sol) (Fin (tolerance cfg)))%bool in
            Some (Ok (x', {| success := negb failed; residual := residual sol;
                             used_iterations := used_iterations sol |}))
        | r => r
        end
    end.

End Solve.
