(** * Properties of the time evolution: C19, C20, C48 *)
From Coq Require Import Reals ZArith List Bool Lia Lra.
From Verif Require Import Base Interp_Model Newton_Model Newton_Spec Newton_Proofs
  Evolve_Model Evolve_Spec Evolve_Proofs Evolve_Proofs2.
Import ListNotations.
Local Open Scope R_scope.

(** ** C19 *)
Theorem C19_retries :
  forall (V E : Type) (prepare : E -> outcome E) solver fuel cfg (x : V) e r e' log,
    make_one_step prepare solver fuel cfg x e = (r, e', log) ->
    well_behaved prepare solver (use_simplified_newton cfg) (retries cfg) x e log /\
    (forall y sol, r = Some (Ok (y, sol)) -> success sol = true /\
      exists a, nth_error log (length log - 1) = Some a /\ at_env a = e' /\ at_result a = r) /\
    (r = Some Exc ->
      (exists a, nth_error log (length log - 1) = Some a /\ at_result a = Some Exc) \/
      (exists e1, prepare e1 = Exc) \/
      (Z.of_nat (length log) = attempt_bound (use_simplified_newton cfg) (retries cfg) /\
       forall i a, nth_error log i = Some a -> failed (at_result a))).
Proof. exact @make_one_step_spec. Qed.
Print Assumptions C19_retries.

Theorem C19_terminates :
  forall (V E : Type) (prepare : E -> outcome E) solver fuel cfg (x : V) e,
    (forall e full y, solver e full y <> None) ->
    (attempt_bound (use_simplified_newton cfg) (retries cfg) <= Z.of_nat fuel)%Z ->
    fst (fst (make_one_step prepare solver fuel cfg x e)) <> None.
Proof. exact @make_one_step_terminates. Qed.
Print Assumptions C19_terminates.

(** Simplified Newton, one retry: two attempts with the old Jacobian, then two with full
    Jacobians, the last of which succeeds here. *)
Example C19_case :
  let fail := Some (Ok (7%nat, {| success := false; residual := NaN; used_iterations := 3 |})) in
  let good := Some (Ok (8%nat, {| success := true; residual := Fin 0; used_iterations := 3 |})) in
  let solver := fun (e : nat) (full : bool) (x : nat) => if (e =? 4)%nat then good else fail in
  let cfg := {| newton := {| tolerance := 1; maximal_iterations := 3 |}; retries := 1;
                use_simplified_newton := true |} in
  let '(r, e, log) := make_one_step (fun e => Ok (S e)) solver 10 cfg 5%nat 0%nat in
  r = good /\ e = 4%nat /\ map at_full log = [false; false; true; true] /\
  map at_start log = [5; 5; 5; 5]%nat.
Proof. cbn. repeat split. Qed.

(** ** C20 *)
Theorem C20_simulation :
  forall P fuel sfuel cfg controls points x e rows e',
    simulate P fuel sfuel cfg controls points x e = (Some (Ok rows), e') ->
    length rows = length points /\ (2 <= length points)%nat /\
    nth_error rows 0 = Some x /\
    forall i t0 t1 u v, consecutive P points rows i t0 t1 u v ->
      exists e1, accepted P (newton cfg) fuel controls t0 t1 u v e1 /\
        (S (S i) = length points -> e1 = e').
Proof. exact simulate_ok. Qed.
Print Assumptions C20_simulation.

(** Together with C17: the equations of every time step hold within the tolerance, if no
    residual is NaN. *)
Theorem C20_equations :
  forall P fuel sfuel cfg controls points x e rows e',
    never_nan P -> (0 <= maximal_iterations (newton cfg))%Z -> tolerance (newton cfg) < 1000000 ->
    simulate P fuel sfuel cfg controls points x e = (Some (Ok rows), e') ->
    forall i t0 t1 u v, consecutive P points rows i t0 t1 u v ->
      exists e1, equations_hold P (tolerance (newton cfg)) controls t0 t1 u v e1.
Proof.
  intros P fuel sfuel cfg controls points x e rows e' NN Hm Ht H i t0 t1 u v Hc.
  destruct (simulate_ok _ _ _ _ _ _ _ _ _ _ H) as [_ [_ [_ K]]].
  destruct (K i t0 t1 u v Hc) as [e1 [A _]]. exists e1.
  eapply accepted_equations; eauto.
Qed.
Print Assumptions C20_equations.

Theorem C20_first_failure_aborts :
  forall P fuel sfuel cfg controls points x e e',
    simulate P fuel sfuel cfg controls points x e = (Some Exc, e') ->
    exists k tk t1,
      nth_error points k = Some tk /\ nth_error points (S k) = Some t1 /\
      (current_controls controls t1 = Exc \/
       exists rows xk ek c log,
         (k = 0%nat /\ rows = [x] /\ ek = e \/
          (0 < k)%nat /\
          simulate P fuel sfuel cfg controls (firstn (S k) points) x e = (Some (Ok rows), ek)) /\
         nth_error rows k = Some xk /\
         current_controls controls t1 = Ok c /\
         time_step P fuel sfuel cfg tk t1 xk xk c ek = (Some Exc, e', log)).
Proof. exact simulate_exc. Qed.
Print Assumptions C20_first_failure_aborts.

(** Every simulation ends: at most 1075 halvings per Newton step and the bounded number of attempts
    per time step. *)
Theorem C20_terminates :
  forall P sfuel cfg controls points x e,
    zero_step_ends P ->
    (attempt_bound (use_simplified_newton cfg) (retries cfg) <= Z.of_nat sfuel)%Z ->
    fst (simulate P 1075 sfuel cfg controls points x e) <> None.
Proof. exact simulate_terminates. Qed.
Print Assumptions C20_terminates.

Example C20_terminates_case :
  zero_step_ends (stochastic_problem walk) /\
  (attempt_bound (use_simplified_newton walk_settings) (retries walk_settings) <= Z.of_nat 5)%Z.
Proof. exact walk_zero_step. Qed.

Example C20_case :
  exists a b, simulate (stochastic_problem walk) 3 5 walk_settings no_controls [0; 1; 2] (Fin 0) walk_start
  = (Some (Ok [Fin 0; Fin a; Fin b]), {| current_P := Fin (a + 1); generator := tt |})
  /\ a = 1 /\ b = 2.
Proof. exact walk_simulation. Qed.

(** ** C48 *)

(** A finished simulation in which the power saved for time 1 differs by 1 from the power of
    the state saved for time 1, although the tolerance is 1/2; whatever value was used for that
    step, it was not the saved one. *)
Theorem C48_saved_power_refuted :
  exists N fuel sfuel cfg controls points x e rows e' saved t0 t1 u v p q,
    let P := stochastic_problem N in
    simulate P fuel sfuel cfg controls points x e = (Some (Ok rows), e') /\
    save_all P (fun s t x => stochastic_save s t x) points
      (simulate P fuel sfuel cfg controls points x e) = Some (Ok saved) /\
    consecutive P points rows 0 t0 t1 u v /\
    nth_error saved 1 = Some (t1, Fin p) /\
    sn_power N v = Fin q /\ tolerance (newton cfg) < Rabs (p - q) /\
    forall e1, accepted P (newton cfg) fuel controls t0 t1 u v e1 -> current_P e1 <> Fin p.
Proof.
  destruct walk_simulation as [a [b [H [-> ->]]]].
  exists walk, 3%nat, 5%nat, walk_settings, no_controls, [0; 1; 2], (Fin 0), walk_start,
    [Fin 0; Fin 1; Fin 2], {| current_P := Fin (1 + 1); generator := tt |}.
  eexists. exists 0, 1, (Fin 0), (Fin 1), (1 + 1), 1.
  split; [exact H|]. split; [rewrite H; reflexivity|].
  split; [repeat split|]. split; [reflexivity|]. split; [reflexivity|].
  split. { cbn. rewrite Rabs_pos_eq; lra. }
  intros e1 [c [e0 [full [sol [_ [Hp _]]]]]].
  cbn in Hp. unfold stochastic_prepare in Hp. cbn in Hp.
  assert (E : current_P e1 = Fin (0 + 1)) by (injection Hp as <-; reflexivity).
  rewrite E. intro F. injection F as F. lra.
Qed.
Print Assumptions C48_saved_power_refuted.

(** What is saved instead: the value of the last time step, for every time point.  So the claim
    holds for the last time point only; all others are missing. *)
Theorem C48_saved_power_partial :
  forall (N : stochastic_network) fuel sfuel cfg controls points x e rows e' saved,
    let P := stochastic_problem N in
    simulate P fuel sfuel cfg controls points x e = (Some (Ok rows), e') ->
    save_all P (fun s t x => stochastic_save s t x) points
      (simulate P fuel sfuel cfg controls points x e) = Some (Ok saved) ->
    length saved = length points /\
    (forall i t p, nth_error saved i = Some (t, p) ->
       nth_error points i = Some t /\ p = current_P e') /\
    (forall i t0 t1 u v, consecutive P points rows i t0 t1 u v -> S (S i) = length points ->
       accepted P (newton cfg) fuel controls t0 t1 u v e').
Proof. exact saved_are_last. Qed.
Print Assumptions C48_saved_power_partial.
