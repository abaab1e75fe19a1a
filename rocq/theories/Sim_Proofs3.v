(** Two runs: a pipe in a steady state, and a short pipe with a changing pressure. *)
From Coq Require Import Reals ZArith Lra Lia List Arith Bool FunctionalExtensionality.
From Verif Require Import Base Interp_Model Interp_Proofs Calc Euler_Model Euler_Spec Euler_Proofs Newton_Model Evolve_Model
  Box_Model Net_Model Net_Spec Net_Proofs9 Sim_Model Sim_Spec Sim_Proofs2.
Import ListNotations.
Local Open Scope R_scope.

Lemma sum_squares_zero n r : (forall i, (i < n)%nat -> r i = 0) -> sum_squares n r = 0.
Proof. induction n as [|n IH]; intro H; cbn; [reflexivity|]. rewrite IH, H by auto. ring. Qed.

(** ** A state that solves the equations of all steps *)
Section Steady.
Variables (LU : Type) (n : nat) (N : network).
Variable factor : unit -> R -> R -> vec -> list R -> vec -> option LU.
Variable linsolve : LU -> vec -> vec.
Let PB := network_problem unit LU n (fun _ => N) (fun e _ _ _ _ => Ok e) factor linsolve.

Lemma steady_loop fuel sfuel cfg controls x times t0 :
  iinner controls = 0%nat -> 0 <= tolerance (newton cfg) -> number_of_states N = n ->
  well_formed N -> pipes_ok N ->
  (forall t, In t times -> boundary_defined N t) ->
  (forall t t', In t' times -> network_equations N t t' x x (control_vector [])) ->
  simulate_loop PB fuel (S sfuel) cfg controls times t0 x x tt = (Some (Ok (map (fun _ => x) times)), tt).
Proof.
  intros Hc Ht Hn W HP HB. revert t0. induction times as [|t1 times IH]; intros t0 HE; [reflexivity|].
  cbn [simulate_loop map]. unfold current_controls. rewrite Hc. cbn [Nat.ltb Nat.leb].
  assert (S : forall full, solve (system_of PB tt t0 t1 x []) fuel (newton cfg) full x =
    Some (Ok (x, {| success := true; residual := Fin 0; used_iterations := 0 |}))).
  { intro full. unfold solve.
    destruct (evaluate_zero N t0 t1 x x (control_vector []) (fun _ => 0) W HP (HB t1 (or_introl eq_refl))) as [r [Er [Z _]]].
    assert (Nr : ns_norm (system_of PB tt t0 t1 x []) (ns_eval (system_of PB tt t0 t1 x []) x) = Fin 0).
    { cbn. rewrite Er. unfold euclidean_norm. rewrite sum_squares_zero, sqrt_0; [reflexivity|].
      intros i Hi. apply (proj2 Z); [apply HE; left; reflexivity|]. lia. }
    rewrite Nr. cbn [xleb]. rewrite (proj2 (Rleb_true 0 (tolerance (newton cfg))) Ht). reflexivity. }
  unfold time_step, make_one_step. cbn [attempts]. cbn [pr_prepare PB network_problem].
  rewrite S. cbn [success]. rewrite IH; [reflexivity|intros; apply HB; right; auto|intros; apply HE; right; auto].
Qed.
End Steady.

(** A pipe with two grid points and laminar flow from a node with given pressure to a sink; the
    length is chosen such that friction and pressure drop are in balance. *)
Definition slow : R := 1 / 100.
Definition one_point (r : R) : vec := v2 r slow.
Definition drag (r : R) : R := rho_0 / (2 * circle_area (/ 2 * 1) * 1) * 64 / coeff_of_Reynolds 1 * slow / r.
Definition steady_length : R := 2 * (flux 1 (one_point 2) 1%nat - flux 1 (one_point 1) 1%nat) / (drag 2 + drag 1).
Definition steady_net : network :=
  mkNet [Pressurenode (fun _ => Ok (v2 (p 2 / bar) 0)); Flownode true (fun _ => Ok (v2 slow 0))]
        [mkEdge 0 1 (EPipe 1 (1 / 100) steady_length 2)].
Definition steady_state : vec := fun k => nth k [2; slow; 1; slow] 0.

Lemma drag_pos r : 0 < r -> 0 < drag r.
Proof.
  intro H. unfold drag, coeff_of_Reynolds, slow, rho_0, circle_area, Pi, eta.
  repeat first [apply Rdiv_lt_0_compat|apply Rmult_lt_0_compat|apply pow_lt|apply Rinv_0_lt_compat]; lra.
Qed.
Lemma c_vac_bounds : 130000 < c_vac_squared < 140000.
Proof.
  unfold c_vac_squared, p_0, Temp, z_0, T_0, rho_0. unfold bar. split;
  apply (Rmult_lt_reg_r (1005 / 1000 * (27315 / 100) * (785 / 1000))); try lra; field_simplify; lra.
Qed.
Lemma alpha_bounds : - / 10 ^ 7 < alpha < 0.
Proof.
  unfold alpha, p_crit, T_crit, Temp. unfold bar. split;
  apply (Rmult_lt_reg_r (464512 / 10000 * 100000 * (28315 / 100))); try lra; field_simplify; lra.
Qed.
Lemma pressure_drop : 1 < p 2 - p 1.
Proof.
  pose proof c_vac_bounds as [C1 C2]. pose proof alpha_bounds as [A1 A2].
  unfold p. set (b := - (alpha * c_vac_squared)).
  assert (B : 0 < b < 14 / 1000) by (unfold b; split; nra).
  replace (1 - alpha * c_vac_squared * 2) with (1 + 2 * b) by (unfold b; ring).
  replace (1 - alpha * c_vac_squared * 1) with (1 + b) by (unfold b; ring).
  replace (c_vac_squared * 2 / (1 + 2 * b) - c_vac_squared * 1 / (1 + b))
    with (c_vac_squared / ((1 + 2 * b) * (1 + b))) by (field; lra).
  apply (Rmult_lt_reg_r ((1 + 2 * b) * (1 + b))); [nra|]. unfold Rdiv. rewrite Rmult_assoc, Rinv_l by nra. nra.
Qed.
Lemma steady_length_pos : 0 < steady_length.
Proof.
  pose proof (drag_pos 2 ltac:(lra)). pose proof (drag_pos 1 ltac:(lra)). pose proof pressure_drop as D.
  unfold steady_length. apply Rdiv_lt_0_compat; [|lra].
  unfold flux, one_point. cbn [v2].
  assert (A : 1 / 2 < circle_area (/ 2 * 1) < 785 / 1000 + / 1000) by (unfold circle_area, Pi; split; lra).
  set (a := circle_area (/ 2 * 1)) in *.
  assert (K : rho_0 / a <= 2 * rho_0).
  { apply (Rmult_le_reg_r a); [lra|]. unfold Rdiv. rewrite Rmult_assoc, Rinv_l by lra. unfold rho_0. lra. }
  assert (L : 1 / 2 < a / rho_0).
  { apply (Rmult_lt_reg_r rho_0); [unfold rho_0; lra|]. unfold Rdiv at 2. rewrite Rmult_assoc, Rinv_l by (unfold rho_0; lra).
    unfold rho_0. lra. }
  set (g := rho_0 / a) in *. set (h := a / rho_0) in *.
  assert (G0 : 0 <= g) by (unfold g; apply Rlt_le, Rdiv_lt_0_compat; [unfold rho_0|]; lra).
  unfold slow, rho_0 in *. nra.
Qed.

Lemma slow_source r : source 1 (1 / 100) (one_point r) = Ok (v2 0 (- drag r)).
Proof.
  unfold source, one_point. cbn [v2].
  assert (E : Rltb (Reynolds slow 1) laminar_border = true).
  { apply Rltb_true. unfold Reynolds, laminar_border, slow, circle_area, Pi, eta, rho_0.
    rewrite Rabs_pos_eq by lra. field_simplify. lra. }
  rewrite E. f_equal. f_equal. unfold drag. unfold Rdiv. ring.
Qed.
Lemma steady_well_formed : well_formed steady_net.
Proof. unfold well_formed. cbn [steady_net edges]. repeat constructor; cbn; auto; discriminate. Qed.
Lemma steady_pipes : pipes_ok steady_net.
Proof.
  unfold pipes_ok. cbn [steady_net edges]. repeat constructor; cbn; try lra. apply steady_length_pos.
Qed.
Lemma steady_boundary t : boundary_defined steady_net t.
Proof. intro j. destruct j as [|[|j]]; cbn; eauto. destruct j; exact I. Qed.
Lemma steady_solution t0 t1 c : network_equations steady_net t0 t1 steady_state steady_state c.
Proof.
  split.
  - intros j t H. destruct j as [|[|j]]; cbn in H; [injection H as <-|injection H as <-|destruct j; discriminate].
    + intros _. eexists. split; [reflexivity|]. intros i e d Hi _ Ht.
      destruct i as [|i]; cbn in Hi; [injection Hi as <-|destruct i; discriminate].
      destruct d; cbn in Ht; [reflexivity|discriminate].
    + intros _. eexists. split; [reflexivity|]. split.
      * exists (p 1 / bar). intros i e d Hi _ Ht.
        destruct i as [|i]; cbn in Hi; [injection Hi as <-|destruct i; discriminate].
        destruct d; cbn in Ht; [discriminate|reflexivity].
      * cbn. ring.
  - intros i e H. destruct i as [|i]; cbn in H; [injection H as <-|destruct i; discriminate].
    unfold edge_equation. cbn [e_type]. intros m Hm. assert (m = 0)%nat by lia. subst m.
    exists (v2 0 (- drag 2)), (v2 0 (- drag 1)).
    assert (E2 : seg steady_state (fst (edge_block steady_net 0) + 2 * 0) = fun k => steady_state k) by reflexivity.
    assert (S : forall u v, u 0%nat = v 0%nat -> u 1%nat = v 1%nat -> source 1 (1 / 100) u = source 1 (1 / 100) v).
    { intros u v H0 H1. unfold source. rewrite H0, H1. reflexivity. }
    split; [rewrite <- slow_source; apply S; reflexivity|].
    split; [rewrite <- slow_source; apply S; reflexivity|].
    intros c' Hc.
    assert (F : forall u v, u 0%nat = v 0%nat -> u 1%nat = v 1%nat -> flux 1 u = flux 1 v).
    { intros u v H0 H1. unfold flux. rewrite H0, H1. reflexivity. }
    rewrite (F _ (one_point 2)) by reflexivity. rewrite (F (seg _ (_ + 2 * (0 + 1))) (one_point 1)) by reflexivity.
    pose proof (drag_pos 2 ltac:(lra)). pose proof (drag_pos 1 ltac:(lra)).
    destruct c' as [|[|c']]; [|clear E2 S F|lia].
    + unfold flux, one_point. cbn [v2]. rewrite !Rminus_diag_eq by reflexivity. unfold Rdiv. ring.
    + cbn [v2]. rewrite (Rminus_diag_eq (steady_length * _)) by reflexivity. unfold steady_length. field. lra.
Qed.

Definition sim_settings : tsettings :=
  {| newton := {| tolerance := / 10 ^ 8; maximal_iterations := 10 |}; retries := 2; use_simplified_newton := false |}.
Definition none : ivec := mk_ivec [0; 2] 0 [].
Theorem steady_run :
  simulate (network_problem unit unit 4 (fun _ => steady_net) (fun e _ _ _ _ => Ok e) (fun _ _ _ _ _ _ => None) (fun _ b => b))
    1 1 sim_settings none [0; 1; 2] steady_state tt = (Some (Ok [steady_state; steady_state; steady_state]), tt).
Proof.
  unfold simulate. change (current_controls none 1) with (Ok (@nil R)). cbv iota.
  rewrite steady_loop; [reflexivity|reflexivity| |reflexivity|apply steady_well_formed|apply steady_pipes| |].
  - cbn. lra.
  - intros. apply steady_boundary.
  - intros. apply steady_solution.
Qed.

(** ** A short pipe between a node with pressure 50 + t and a sink of 10 *)
Definition rising_net : network :=
  mkNet [Pressurenode (fun t => Ok (v2 (50 + t) 0)); Flownode true (fun _ => Ok (v2 10 0))] [mkEdge 0 1 EShortpipe].
Definition rising_state (t : R) : vec := fun k => nth k [50 + t; 10; 50 + t; 10] 0.
(** The equations are linear; this is the solution of the linear system of a Newton step. *)
Definition rising_solve (_ : unit) (b : vec) : vec :=
  fun k => nth k [b 0%nat; b 2%nat - b 3%nat; b 0%nat - b 1%nat; - b 3%nat] 0.
Definition rising_problem : problem :=
  network_problem unit unit 4 (fun _ => rising_net) (fun e _ _ _ _ => Ok e) (fun _ _ _ _ _ _ => Some tt) rising_solve.
Definition single (a : R) : vec := fun k => nth k [a; 0; 0; 0] 0.
Definition double (a : R) : vec := fun k => nth k [a; 0; a; 0] 0.
Lemma rising_eval t0 t1 last t :
  evaluate rising_net t0 t1 last (rising_state t) (control_vector []) (fun _ => 0) = Ok (single (t - t1)).
Proof.
  match goal with |- ?l = _ => let r := eval cbn in l in change l with r end.
  f_equal. apply functional_extensionality. intro k. unfold vset.
  do 4 (destruct k as [|k]; [cbn; unfold seg; cbn; ring|]). destruct k; reflexivity.
Qed.
Lemma rising_correction a : rising_solve tt (single a) = double a.
Proof.
  apply functional_extensionality. intro k. do 4 (destruct k as [|k]; [cbn; ring|]). destruct k; reflexivity.
Qed.
Lemma rising_move t a : (fun k => rising_state t k + 1 * - double a k) = rising_state (t - a).
Proof.
  apply functional_extensionality. intro k. do 4 (destruct k as [|k]; [cbn; ring|]). destruct k; cbn; ring.
Qed.
Lemma norm_double a : euclidean_norm 4 (fun k => - double a k) = sqrt (2 * a ^ 2).
Proof. unfold euclidean_norm. f_equal. cbn. ring. Qed.
Lemma norm_single a : euclidean_norm 4 (single a) = sqrt (a ^ 2).
Proof. unfold euclidean_norm. f_equal. cbn. ring. Qed.
Lemma rising_step t :
  solve (system_of rising_problem tt t (t + 1) (rising_state t) []) 1 (newton sim_settings) true (rising_state t)
  = Some (Ok (rising_state (t + 1), {| success := true; residual := Fin 0; used_iterations := 1 |})).
Proof.
  assert (S1 : sqrt 1 = 1) by apply sqrt_1.
  assert (Ev : forall t', pr_eval rising_problem tt t (t + 1) (rising_state t) [] (rising_state t') = single (t' - (t + 1))).
  { intro t'. cbn [pr_eval rising_problem network_problem]. rewrite rising_eval. reflexivity. }
  unfold solve. cbn [system_of ns_eval ns_norm ns_factor].
  rewrite Ev. cbn [pr_norm pr_factor rising_problem network_problem]. rewrite norm_single.
  replace ((t - (t + 1)) ^ 2) with 1 by ring. rewrite S1. cbn [xleb].
  assert (L : Rleb 1 (tolerance (newton sim_settings)) = false).
  { apply not_true_is_false. rewrite Rleb_true. cbn. lra. }
  rewrite L. change (Z.to_nat (maximal_iterations (newton sim_settings))) with 10%nat.
  cbn [newton_loop ns_norm system_of rising_problem network_problem pr_norm]. rewrite norm_single.
  replace ((t - (t + 1)) ^ 2) with 1 by ring. rewrite S1. unfold xgtb at 1. cbn [xltb].
  assert (L2 : Rltb (tolerance (newton sim_settings)) 1 = true) by (apply Rltb_true; cbn; lra).
  rewrite L2. unfold newton_step. cbn [ns_factor ns_neg ns_linsolve ns_move ns_eval ns_norm system_of].
  cbn [pr_factor pr_neg pr_linsolve pr_move pr_norm rising_problem network_problem].
  rewrite rising_correction, rising_move.
  replace (t - (t - (t + 1))) with (t + 1) by ring.
  cbn [pr_eval rising_problem network_problem]. rewrite rising_eval, rising_correction, !norm_double.
  replace (2 * (t + 1 - (t + 1)) ^ 2) with 0 by ring. replace (2 * (t - (t + 1)) ^ 2) with 2 by ring. rewrite sqrt_0.
  cbn [damp]. unfold xgtb at 1. cbn [xscale xltb].
  assert (L3 : Rltb ((1 - / 2 * 1) * sqrt 2) 0 = false).
  { apply Rltb_false. pose proof (sqrt_pos 2). lra. }
  rewrite L3. cbn [newton_loop].
  cbn [ns_norm system_of pr_norm]. rewrite norm_single. replace ((t + 1 - (t + 1)) ^ 2) with 0 by ring. rewrite sqrt_0.
  unfold xgtb at 1. cbn [xltb].
  assert (L4 : Rltb (tolerance (newton sim_settings)) 0 = false) by (apply Rltb_false; cbn; lra).
  rewrite L4. cbn. reflexivity.
Qed.
Theorem rising_run :
  simulate rising_problem 1 1 sim_settings none [0; 1; 2] (rising_state 0) tt
  = (Some (Ok [rising_state 0; rising_state 1; rising_state 2]), tt).
Proof.
  assert (Step : forall t times, simulate_loop rising_problem 1 1 sim_settings none (t + 1 :: times) t (rising_state t) (rising_state t) tt
    = match simulate_loop rising_problem 1 1 sim_settings none times (t + 1) (rising_state (t + 1)) (rising_state (t + 1)) tt with
      | (Some (Ok rows), e'') => (Some (Ok (rising_state (t + 1) :: rows)), e'')
      | r => r
      end).
  { intros t times. cbn [simulate_loop]. change (current_controls none (t + 1)) with (Ok (@nil R)). cbv iota.
    unfold time_step, make_one_step. cbn [attempts]. cbn [pr_prepare rising_problem network_problem].
    cbn [use_simplified_newton sim_settings negb]. rewrite (rising_step t). cbn [success]. reflexivity. }
  unfold simulate. change (current_controls none 1) with (Ok (@nil R)). cbv iota.
  assert (L : [1; 2] = [0 + 1; 0 + 1 + 1]) by (f_equal; [ring|f_equal; ring]). rewrite L.
  rewrite Step, Step. cbn [simulate_loop]. replace (0 + 1 + 1) with 2 by ring. replace (0 + 1) with 1 by ring. reflexivity.
Qed.
Lemma rising_well_formed : well_formed rising_net.
Proof. unfold well_formed. cbn [rising_net edges]. repeat constructor; cbn; auto; discriminate. Qed.
Lemma rising_pipes : pipes_ok rising_net.
Proof. unfold pipes_ok. cbn [rising_net edges]. repeat constructor. Qed.
Lemma rising_boundary t : boundary_defined rising_net t.
Proof. intro j. destruct j as [|[|j]]; cbn; eauto. destruct j; exact I. Qed.
