(** * Properties of the Newton solver: C17, C18 *)
From Coq Require Import Reals ZArith List Bool Arith Lia Lra.
From Verif Require Import Base Interp_Model Newton_Model Newton_Spec Newton_Proofs.
Import ListNotations.
Local Open Scope R_scope.

(** ** C17 *)

(** A residual that becomes NaN during the iteration is reported as a success, although the
    start value has a finite residual, the tolerance is positive and iterations are allowed. *)
Theorem C17_success_means_small_residual_refuted :
  exists N fuel cfg full x r y sol,
    0 < tolerance cfg /\ (0 < maximal_iterations cfg)%Z /\
    ns_norm N (ns_eval N x) = Fin r /\
    solve N fuel cfg full x = Some (Ok (y, sol)) /\
    success sol = true /\ residual sol = NaN /\ ~ at_most (residual sol) (tolerance cfg).
Proof.
  exists (line half_line), 0%nat, {| tolerance := / 2; maximal_iterations := 10 |}, true, (Fin 1), 2.
  eexists; eexists. split; [simpl; lra|]. split; [simpl; lia|].
  split. { cbn. unfold half_line.
    replace (Rltb 0 1) with true by (symmetry; apply Interp_Proofs.Rltb_true; lra).
    simpl. rewrite Rabs_pos_eq by lra. reflexivity. }
  split; [exact nan_success|]. cbn. tauto.
Qed.
Print Assumptions C17_success_means_small_residual_refuted.

(** The same happens for every system and start value if the iteration limit is negative. *)
Theorem C17_negative_limit_refuted :
  forall N fuel cfg full x lu,
    (maximal_iterations cfg < 0)%Z ->
    ns_factor N x = Some lu ->
    ~ at_most (ns_norm N (ns_eval N x)) (tolerance cfg) ->
    exists y sol, solve N fuel cfg full x = Some (Ok (y, sol)) /\
      success sol = true /\ y = x /\ residual sol = Fin 1000000.
Proof.
  intros. do 2 eexists. split; [eapply negative_limit; eauto|]. cbn. auto.
Qed.
Print Assumptions C17_negative_limit_refuted.

(** Missing for the full claim: residuals that are NaN, negative iteration limits, and
    tolerances of 10^6 or more. *)
Theorem C17_success_means_small_residual_partial :
  forall N fuel cfg full x y sol,
    residual_never_nan N -> (0 <= maximal_iterations cfg)%Z -> tolerance cfg < 1000000 ->
    solve N fuel cfg full x = Some (Ok (y, sol)) -> success sol = true ->
    at_most (residual sol) (tolerance cfg) /\ residual sol = ns_norm N (ns_eval N y).
Proof. exact solve_success_partial. Qed.
Print Assumptions C17_success_means_small_residual_partial.

(** The hypotheses are met by a system that needs a damped step (see also C18_damped_run). *)
Example C17_partial_case :
  residual_never_nan (real_line overshoot) /\
  exists y sol, solve (real_line overshoot) 5 {| tolerance := 2; maximal_iterations := 10 |} false 4
    = Some (Ok (y, sol)) /\ success sol = true /\ used_iterations sol = 1%Z.
Proof.
  split; [apply real_line_not_nan|]. do 2 eexists. split; [exact overshoot_run|]. auto.
Qed.

(** ** C18 *)
Theorem C18_converged_start_unchanged :
  forall N fuel cfg full x,
    at_most (ns_norm N (ns_eval N x)) (tolerance cfg) ->
    solve N fuel cfg full x
    = Some (Ok (x, {| success := true; residual := ns_norm N (ns_eval N x);
                      used_iterations := 0 |})).
Proof. exact solve_converged. Qed.
Print Assumptions C18_converged_start_unchanged.

Theorem C18_iteration :
  forall N fuel cfg full x y sol,
    (0 <= maximal_iterations cfg)%Z ->
    solve N fuel cfg full x = Some (Ok (y, sol)) ->
    exists states,
      newton_iteration N full (tolerance cfg) states /\
      nth_error states 0 = Some x /\
      nth_error states (length states - 1) = Some y /\
      used_iterations sol = Z.of_nat (length states - 1) /\
      (used_iterations sol <= maximal_iterations cfg)%Z /\
      ((0 < used_iterations sol)%Z \/ at_most (ns_norm N (ns_eval N x)) (tolerance cfg) ->
       residual sol = ns_norm N (ns_eval N y)) /\
      (success sol = false ->
       used_iterations sol = maximal_iterations cfg /\
       above (residual sol) (Fin (tolerance cfg))).
Proof.
  intros N fuel cfg full x y sol Hm H.
  destruct (solve_spec _ _ _ _ _ _ _ H) as [st [A [B [C [D [E [F [_ G]]]]]]]].
  exists st. repeat (split; [first [assumption | lia]|]). exact G.
Qed.
Print Assumptions C18_iteration.

(** The solver always returns or throws: at the latest the step of size zero, reached by halving
    the smallest positive double, is accepted.  (Moving by a zero multiple of the correction
    gives the state itself, or not a number if the correction is infinite.) *)
Theorem C18_terminates :
  forall N cfg full x,
    (forall lu z, ns_move N z 0 (correction N lu z) = z \/
                  correction_norm N lu (ns_move N z 0 (correction N lu z)) = NaN) ->
    solve N 1075 cfg full x <> None /\ solve N 1075 cfg full x <> Some UB.
Proof. exact solve_terminates_always. Qed.
Print Assumptions C18_terminates.

(** If one of the first [K] halvings is always acceptable, the damping loop needs no more. *)
Theorem C18_halvings :
  forall N K cfg full x,
    (forall lu z, exists m, (m <= K)%nat /\ ~ too_long N lu z m) ->
    solve N K cfg full x <> None /\ solve N K cfg full x <> Some UB.
Proof. exact solve_terminates. Qed.
Print Assumptions C18_halvings.

(** A system in which every step of positive size is too long, but the solver ends. *)
Example C18_terminates_case :
  let N := real_line (fun z => if Req_EM_T z 0 then 1 else 5) in
  (forall lu z, ns_move N z 0 (correction N lu z) = z \/
                correction_norm N lu (ns_move N z 0 (correction N lu z)) = NaN) /\
  (forall k, (k <= 1074)%nat -> too_long N tt 0 k) /\ ~ too_long N tt 0 1075.
Proof.
  cbv zeta. split; [|split].
  - intros lu z. left. cbn. ring.
  - intros k H. unfold too_long, trial, correction_norm, correction. cbn [real_line ns_move ns_neg ns_linsolve ns_eval ns_norm].
    destruct (Req_EM_T 0 0) as [_|N]; [|lra].
    assert (S : 0 < stepsize k <= 1).
    { unfold stepsize. rewrite (proj2 (Nat.leb_le k 1074) H). rewrite pow_inv.
      assert (1 <= 2 ^ k) by (apply pow_R1_Rle; lra).
      split; [apply Rinv_0_lt_compat; lra|]. rewrite <- Rinv_1. apply Rinv_le_contravar; lra. }
    destruct (Req_EM_T _ 0) as [E|_]; [exfalso; lra|]. cbn [xscale above].
    rewrite (Rabs_left (-(5))), (Rabs_left (-(1))) by lra. nra.
  - unfold too_long, trial. replace (stepsize 1075) with 0 by reflexivity.
    unfold correction_norm, correction. cbn [real_line ns_move ns_neg ns_linsolve ns_eval ns_norm].
    replace (0 + 0 * - (if Req_EM_T 0 0 then 1 else 5)) with 0 by ring.
    destruct (Req_EM_T 0 0) as [_|N]; [|lra]. cbn [xscale above]. lra.
Qed.

(** A run in which the first trial point is rejected and the halved step accepted. *)
Example C18_damped_run :
  solve (real_line overshoot) 5 {| tolerance := 2; maximal_iterations := 10 |} false 4
  = Some (Ok (4 + 1 * / 2 * - (4),
       {| success := true; residual := Fin (4 + 1 * / 2 * - (4)); used_iterations := 1 |})).
Proof. exact overshoot_run. Qed.
