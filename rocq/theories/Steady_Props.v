(** * Property C104: steady states (and C24: the friction factor is positive) *)
From Coq Require Import Reals ZArith Lra Lia List Arith Bool Psatz.
From Coquelicot Require Import Coquelicot.
From Verif Require Import Base Interp_Model Interp_Proofs Calc Euler_Model Euler_Spec Euler_Proofs Euler_Proofs2 Newton_Model Evolve_Model
  Box_Model Net_Model Net_Spec Net_Proofs5 Net_Props Sim_Model Sim_Spec Sim_Proofs2 Sim_Proofs3 Steady_Spec Steady_Proofs.
Import ListNotations.
Local Open Scope R_scope.

(** The friction factor is positive in all regimes. *)
Theorem C24_positive : forall d k Re l, geometry d k -> 0 < Re -> friction_factor d k Re l -> 0 < l.
Proof.
  intros d k Re l G H [(L & ->)|(L & E)].
  - apply Rdiv_lt_0_compat; lra.
  - rewrite (lambda_ok d k G Re L) in E. injection E as <-. apply lam_positive; assumption.
Qed.
Print Assumptions C24_positive.

(** A step from a state to itself solves the equations exactly if the state is steady. *)
Theorem C104_step : forall N t0 t1 x c, t0 < t1 -> (network_equations N t0 t1 x x c <-> steady_equations N t1 x c).
Proof. intros. apply steady_iff. assumption. Qed.
Print Assumptions C104_step.

(** The residual of such a step is zero exactly if the state is steady. *)
Theorem C104_residual : forall N t0 t1 x c v, t0 < t1 -> well_formed N -> pipes_ok N -> boundary_defined N t1 ->
  exists r, evaluate N t0 t1 x x c v = Ok r /\
    ((forall i, (i < number_of_states N)%nat -> r i = 0) <-> steady_equations N t1 x c).
Proof.
  intros N t0 t1 x c v Ht W HP HB. destruct (C54_solution N t0 t1 x x c v W HP HB) as (r & E & H).
  exists r. split; [exact E|]. rewrite H. apply steady_iff. exact Ht.
Qed.
Print Assumptions C104_residual.

(** If the initial state is steady for the boundary values and controls at all later times, then the
    simulation stores it unchanged for all times, with any linear solver (none is called). *)
Theorem C104_stays : forall LU N factor linsolve fuel sfuel cfg controls points x,
  well_formed N -> pipes_ok N -> 0 <= tolerance (newton cfg) -> (2 <= length points)%nat ->
  (forall t, In t (tl points) -> boundary_defined N t /\
     exists c, (iinner controls = 0%nat /\ c = [] \/ (0 < iinner controls)%nat /\ interp_at controls t = Ok c) /\
       steady_equations N t x (control_vector c)) ->
  simulate (network_problem unit LU (number_of_states N) (fun _ => N) (fun e _ _ _ _ => Ok e) factor linsolve)
    fuel (S sfuel) cfg controls points x tt = (Some (Ok (map (fun _ => x) points)), tt).
Proof.
  intros LU N factor linsolve fuel sfuel cfg controls points x W HP Ht HL H.
  destruct points as [|t0 [|t1 rest]]; [cbn in HL; lia|cbn in HL; lia|]. cbn [tl] in H.
  assert (K : forall t, In t (t1 :: rest) -> exists c, current_controls controls t = Ok c /\ steady_equations N t x (control_vector c)).
  { intros t Hin. destruct (H t Hin) as (_ & c & Hc & S). exists c. split; [|exact S]. unfold current_controls.
    destruct Hc as [(-> & ->)|(L & E)]; [reflexivity|]. apply Nat.ltb_lt in L. rewrite L. exact E. }
  unfold simulate. destruct (K t1 (or_introl eq_refl)) as (c1 & E1 & _). rewrite E1.
  rewrite stays_loop; [reflexivity|exact Ht|reflexivity|exact W|exact HP| |].
  - intros t Hin. exact (proj1 (H t Hin)).
  - intros t t' Hin. destruct (K t' Hin) as (c & Ec & S). exists c. split; [exact Ec|]. apply steady_any_times. exact S.
Qed.
Print Assumptions C104_stays.

(** In a steady state the flow is the same along a pipe, and if the gas is slower than sound, the
    pressure falls strictly in the direction of the flow; without flow it is constant. *)
Theorem C104_pressure_drop : forall N t x c i e d k dx np,
  pipes_ok N -> steady_equations N t x c ->
  nth_error (edges N) i = Some e -> e_type e = EPipe d k dx np ->
  let s := fst (edge_block N i) in
  let pressure m := p (x (s + 2 * m)%nat) in
  let flow m := x (s + 2 * m + 1)%nat in
  (forall m, (m < np)%nat -> subsonic d (seg x (s + 2 * m))) ->
  forall m m', (m < m' < np)%nat ->
    flow m' = flow m /\
    (0 < flow m -> pressure m' < pressure m) /\
    (flow m = 0 -> pressure m' = pressure m) /\
    (flow m < 0 -> pressure m < pressure m').
Proof.
  intros N t x c i e d k dx np HP (_ & S) He Ty s pressure flow Sub m m' Hm.
  pose proof (proj1 (List.Forall_forall _ _) HP e (nth_error_In _ _ He)) as K. cbv beta in K. rewrite Ty in K. destruct K as (G & Hdx).
  exact (pipe_profile N i e d k dx np x c He Ty G Hdx (S i e He) Sub m m' Hm).
Qed.
Print Assumptions C104_pressure_drop.

(** Gas at rest is a steady state. *)
Theorem C104_rest : forall N P t x c, well_formed N -> pipes_ok N -> at_rest N P t x c -> steady_equations N t x c.
Proof. exact rest_is_steady. Qed.
Print Assumptions C104_rest.

(** Cases: the steady flow through a pipe from Sim_Proofs3.v ... *)
Lemma slow_subsonic r : 1 <= r <= 2 -> subsonic 1 (one_point r).
Proof.
  intro H. assert (D : density_ok r) by (apply nonneg_density_ok; lra).
  split; [cbn; lra|]. exists (dp_drho r). split; [apply p_derive; exact D|].
  pose proof c_vac_bounds as [C1 C2]. pose proof alpha_bounds as [A1 A2]. unfold density_ok in D.
  assert (V : 0 <= velocity 1 (one_point r) <= 1 / 50).
  { unfold velocity, one_point. cbn [v2].
    assert (A : 1 / 2 < circle_area (1 / 2)) by (unfold circle_area, Pi; lra).
    assert (Q : 1 / 2 < circle_area (1 / 2) * r) by nra. unfold rho_0, slow. split.
    - apply Rlt_le, Rdiv_lt_0_compat; lra.
    - apply (Rmult_le_reg_r (circle_area (1 / 2) * r)); [lra|]. unfold Rdiv at 1. rewrite Rmult_assoc, Rinv_l by lra. lra. }
  assert (X : 1 < dp_drho r).
  { unfold dp_drho. cbv zeta. set (w := 1 - alpha * c_vac_squared * r) in *.
    assert (Hw : 0 < w <= 2) by (unfold w in *; split; [lra|]; assert (- alpha * c_vac_squared <= 14 / 1000) by nra; nra).
    apply (Rmult_lt_reg_r (w * w)); [nra|]. unfold Rdiv. rewrite Rmult_assoc, Rinv_l by nra. nra. }
  nra.
Qed.
Example C104_case : well_formed steady_net /\ pipes_ok steady_net /\
  (forall t, boundary_defined steady_net t /\ steady_equations steady_net t steady_state (control_vector [])) /\
  subsonic 1 (seg steady_state (fst (edge_block steady_net 0) + 2 * 0)) /\
  subsonic 1 (seg steady_state (fst (edge_block steady_net 0) + 2 * 1)) /\
  0 < steady_state (fst (edge_block steady_net 0) + 2 * 0 + 1)%nat.
Proof.
  split; [apply steady_well_formed|]. split; [apply steady_pipes|]. split.
  - intro t. split; [apply steady_boundary|]. apply (steady_iff steady_net (t - 1) t); [lra|apply steady_solution].
  - split; [exact (slow_subsonic 2 ltac:(lra))|]. split; [exact (slow_subsonic 1 ltac:(lra))|]. cbn. unfold slow. lra.
Qed.
(** ... and gas at rest: a node with given pressure, a pipe, a compressor and a closed sink. *)
Definition rest_net : network :=
  mkNet [Pressurenode (fun _ => Ok (v2 50 0)); Innode; Flownode true (fun _ => Ok (v2 0 0))]
        [mkEdge 0 1 (EPipe 1 (1 / 100) 1000 3); mkEdge 1 2 (ECompressor 0)].
Definition rest_state : vec := fun k => nth k [rho (50 * bar); 0; rho (50 * bar); 0; rho (50 * bar); 0; 50; 0; 50; 0] 0.
Example C104_rest_case : well_formed rest_net /\ pipes_ok rest_net /\ at_rest rest_net 50 7 rest_state (fun _ => 0).
Proof.
  assert (R : p (rho (50 * bar)) = 50 * bar).
  { apply rho_defined. unfold pressure_ok. pose proof alpha_bounds as [A1 A2]. rewrite bar_val in *. lra. }
  split; [unfold well_formed; cbn [rest_net edges]; repeat constructor; cbn; auto; discriminate|].
  split; [unfold pipes_ok; cbn [rest_net edges]; repeat constructor; cbn; lra|].
  split.
  - intros j t H. destruct j as [|[|[|j]]]; cbn in H; [injection H as <-..|destruct j; discriminate];
      cbn [node_at_rest]; eauto.
  - intros i e H. destruct i as [|[|i]]; cbn in H; [injection H as <-..|destruct i; discriminate]; unfold edge_at_rest; cbn [e_type].
    + intros m Hm. destruct m as [|[|[|m]]]; [| | |lia]; split; [exact R|reflexivity|exact R|reflexivity|exact R|reflexivity].
    + repeat split; reflexivity.
Qed.
