(** * Property C125: only values at the ends of the steps matter, and only those of the past *)
From Coq Require Import Reals ZArith Lra Lia List Arith.
From Verif Require Import Base Interp_Model Interp_Spec Calc Euler_Model Euler_Spec Box_Model Net_Model Net_Spec Newton_Model Evolve_Model Sim_Model Shift_Props Steady_Spec Steady_Proofs Steady_Props.
From Verif Require Import Past_Spec Past_Proofs.
Import ListNotations.
Local Open Scope R_scope.

(** A step needs the boundary values at its end only. *)
Theorem C125_step : forall N N' t0 t1 last x c v, same_at t1 N N' ->
  number_of_states N' = number_of_states N /\
  evaluate N' t0 t1 last x c v = evaluate N t0 t1 last x c v /\
  d_evaluate_d_new_state N' t0 t1 last x c = d_evaluate_d_new_state N t0 t1 last x c /\
  d_evaluate_d_last_state N' t0 t1 last x c = d_evaluate_d_last_state N t0 t1 last x c /\
  d_evaluate_d_control N' t0 t1 last x c = d_evaluate_d_control N t0 t1 last x c.
Proof.
  intros N N' t0 t1 last x c v H. split; [apply (alike_number_of_states t1 N N' H)|].
  split; [apply (evaluate_alike t1 N N' H)|]. split; [apply (d_new_alike t1 N N' H)|]. split; [apply (d_last_alike t1 N N' H)|apply (d_control_alike t1 N N' H)].
Qed.
Print Assumptions C125_step.

(** A simulation needs boundary values and controls at its time points only, without the first one. *)
Lemma plain_agree {LU} (lu : list entry -> option LU) N N' cs cs' t : same_at t N N' -> current_controls cs' t = current_controls cs t ->
  agree unit LU (fun _ => N) (fun _ => N') (fun e _ _ _ _ => Ok e) (fun e _ _ _ _ => Ok e) (factor_jacobian lu N) (factor_jacobian lu N') cs cs' t.
Proof.
  intros H C. split; [intros _; exact H|]. split; [reflexivity|]. split; [|exact C].
  intros e t0 last c x. unfold factor_jacobian. rewrite (d_new_alike t N N' H). reflexivity.
Qed.
Theorem C125_simulation : forall LU (lu : list entry -> option LU) linsolve fuel sfuel cfg N N' controls controls' points (initial : vec),
  (forall t, In t (tl points) -> same_at t N N' /\ current_controls controls' t = current_controls controls t) ->
  simulate (plain_problem lu linsolve N') fuel sfuel cfg controls' points initial tt
  = simulate (plain_problem lu linsolve N) fuel sfuel cfg controls points initial tt.
Proof.
  intros LU lu linsolve fuel sfuel cfg N N' cs cs' points initial H.
  destruct points as [|t0 [|t1 rest]]; [reflexivity|reflexivity|].
  unfold plain_problem. rewrite (alike_number_of_states t1 N N' (proj1 (H t1 (or_introl eq_refl)))).
  apply simulate_agree. intros t I. destruct (H t I). apply plain_agree; assumption.
Qed.
Print Assumptions C125_simulation.

(** With random draws, too. *)
Theorem C125_random : forall E LU n net net' prepare prepare' factor factor' (linsolve : LU -> vec -> vec) fuel sfuel cfg controls controls' points (initial : vec) (e : E),
  (forall t, In t (tl points) ->
     (forall e, same_at t (net e) (net' e)) /\ (forall e t0 last c, prepare' e t0 t last c = prepare e t0 t last c) /\
     (forall e t0 last c x, factor' e t0 t last c x = factor e t0 t last c x) /\
     current_controls controls' t = current_controls controls t) ->
  simulate (network_problem E LU n net' prepare' factor' linsolve) fuel sfuel cfg controls' points initial e
  = simulate (network_problem E LU n net prepare factor linsolve) fuel sfuel cfg controls points initial e.
Proof. intros. apply simulate_agree. assumption. Qed.
Print Assumptions C125_random.

(** A simulation that is stopped earlier gives the same states up to there; this holds for all problems. *)
Theorem C125_stopped : forall P fuel sfuel cfg controls points initial e rows e' k, (2 <= k)%nat ->
  simulate P fuel sfuel cfg controls points initial e = (Some (Ok rows), e') ->
  exists e'', simulate P fuel sfuel cfg controls (firstn k points) initial e = (Some (Ok (firstn k rows)), e'').
Proof. intros. eapply simulate_prefix; eassumption. Qed.
Print Assumptions C125_stopped.

(** A simulation can be continued from the state in which an earlier one ended. *)
Theorem C125_restart : forall P fuel sfuel cfg controls points initial e rows e' k, (2 <= k < length points)%nat ->
  simulate P fuel sfuel cfg controls points initial e = (Some (Ok rows), e') ->
  exists e1, simulate P fuel sfuel cfg controls (firstn k points) initial e = (Some (Ok (firstn k rows)), e1) /\
    simulate P fuel sfuel cfg controls (skipn (k - 1) points) (nth (k - 1) rows initial) e1 = (Some (Ok (skipn (k - 1) rows)), e').
Proof. intros. eapply simulate_restart; eassumption. Qed.
Print Assumptions C125_restart.

Theorem C125_joined : forall P fuel sfuel cfg controls points initial e rows1 e1 rows2 e' k, (2 <= k < length points)%nat ->
  simulate P fuel sfuel cfg controls (firstn k points) initial e = (Some (Ok rows1), e1) ->
  simulate P fuel sfuel cfg controls (skipn (k - 1) points) (nth (k - 1) rows1 initial) e1 = (Some (Ok rows2), e') ->
  simulate P fuel sfuel cfg controls points initial e = (Some (Ok (rows1 ++ tl rows2)), e').
Proof. intros. eapply simulate_join; eassumption. Qed.
Print Assumptions C125_joined.

(** The states do not depend on later boundary values, controls and time points. *)
Theorem C125_past : forall LU (lu : list entry -> option LU) linsolve fuel sfuel cfg N N' controls controls' points points' (initial : vec) rows rows' e e' k,
  (2 <= k)%nat -> firstn k points' = firstn k points ->
  (forall t, In t (tl (firstn k points)) -> same_at t N N' /\ current_controls controls' t = current_controls controls t) ->
  simulate (plain_problem lu linsolve N) fuel sfuel cfg controls points initial tt = (Some (Ok rows), e) ->
  simulate (plain_problem lu linsolve N') fuel sfuel cfg controls' points' initial tt = (Some (Ok rows'), e') ->
  firstn k rows' = firstn k rows.
Proof.
  intros LU lu linsolve fuel sfuel cfg N N' cs cs' points points' initial rows rows' e e' k Hk Hp H S S'.
  destruct (C125_stopped _ _ _ _ _ _ _ _ _ _ k Hk S) as (e1 & A). destruct (C125_stopped _ _ _ _ _ _ _ _ _ _ k Hk S') as (e2 & B).
  rewrite Hp in B. pose proof (C125_simulation LU lu linsolve fuel sfuel cfg N N' cs cs' (firstn k points) initial H) as Q.
  pose proof (eq_trans (eq_sym B) (eq_trans Q A)) as Z. injection Z as Z. exact Z.
Qed.
Print Assumptions C125_past.

(** Of a table of controls only the values before a time and the next ones count. *)
Theorem C125_later_controls : forall LU (lu : list entry -> option LU) linsolve fuel sfuel cfg N m control_points w w' points (initial : vec) rows rows' e e' k t,
  (2 <= k)%nat -> increasing control_points -> length w' = length w ->
  (forall s, In s (tl (firstn k points)) -> s <= t) ->
  (forall i j, (i < length control_points)%nat -> counts control_points t i -> (j < m)%nat -> nth (i * m + j) w' 0 = nth (i * m + j) w 0) ->
  simulate (plain_problem lu linsolve N) fuel sfuel cfg (mk_ivec control_points m w) points initial tt = (Some (Ok rows), e) ->
  simulate (plain_problem lu linsolve N) fuel sfuel cfg (mk_ivec control_points m w') points initial tt = (Some (Ok rows'), e') ->
  firstn k rows' = firstn k rows.
Proof.
  intros LU lu linsolve fuel sfuel cfg N m cp w w' points initial rows rows' e e' k t Hk I L T H S S'.
  refine (C125_past LU lu linsolve fuel sfuel cfg N N _ _ points points initial rows rows' e e' k Hk eq_refl _ S S').
  intros s Hs. split; [apply same_at_refl|apply (controls_past cp m w' w t s I L (T s Hs) H)].
Qed.
Print Assumptions C125_later_controls.
Example C125_later_controls_case : increasing [0; 10; 20; 30] /\
  forall i j, (i < 4)%nat -> counts [0; 10; 20; 30] 7 i -> (j < 1)%nat -> nth (i * 1 + j) [1; 2; 5; 5] 0 = nth (i * 1 + j) [1; 2; 8; 9] 0.
Proof.
  split; [repeat constructor; lra|]. intros i j Hi C Hj. assert (j = 0%nat) as -> by lia.
  destruct i as [|[|[|[|i]]]]; [reflexivity|reflexivity|exfalso..|lia]; destruct C as [C|(s & E & Q)]; try discriminate; cbn in E; injection E as <-; lra.
Qed.

(** The network at rest of Steady_Props.v: between two time points the pressure jumps to 99 bar, and after the last one there are no values. *)
Definition jumping_net : network :=
  mkNet [Pressurenode (fun t => if Rlt_dec 7 t then Exc else if Rlt_dec 6 t then if Rlt_dec t 7 then Ok (v2 99 0) else Ok (v2 50 0) else Ok (v2 50 0));
         Innode; Flownode true (fun _ => Ok (v2 0 0))]
        [mkEdge 0 1 (EPipe 1 (1 / 100) 1000 3); mkEdge 1 2 (ECompressor 0)].
Example C125_case : forall LU (lu : list entry -> option LU) linsolve fuel sfuel cfg,
  0 <= tolerance (newton cfg) ->
  let none := mk_ivec [0; 10] 1 [0; 0] in
  (forall t, In t (tl [5; 6; 7]) -> same_at t rest_net jumping_net) /\
  simulate (plain_problem lu linsolve jumping_net) fuel (S sfuel) cfg none [5; 6; 7] rest_state tt = (Some (Ok [rest_state; rest_state; rest_state]), tt).
Proof.
  intros LU lu linsolve fuel sfuel cfg Ht none.
  assert (A : forall t, In t (tl [5; 6; 7]) -> same_at t rest_net jumping_net).
  { intros t [<-|[<-|[]]]; (split; [|reflexivity]); repeat constructor;
      destruct (Rlt_dec 7 _); try (exfalso; lra); destruct (Rlt_dec 6 _); try (exfalso; lra); try destruct (Rlt_dec _ 7); try (exfalso; lra); reflexivity. }
  split; [exact A|]. rewrite (C125_simulation LU lu linsolve fuel (S sfuel) cfg rest_net jumping_net none none) by (intros t I; split; [apply A; exact I|reflexivity]).
  destruct C104_rest_case as (W & HP & HR). unfold plain_problem.
  refine (C104_stays LU rest_net (factor_jacobian lu rest_net) linsolve fuel sfuel cfg none [5; 6; 7] rest_state W HP Ht _ _); [cbn; lia|].
  assert (HB : forall t, boundary_defined rest_net t) by (intros t [|[|[|j]]]; cbn; eauto; destruct j; exact Logic.I).
  assert (C : forall t, In t (tl [5; 6; 7]) -> exists c, interp_at none t = Ok c /\ forall k, control_vector c k = 0).
  { intros t I. assert (T : 0 < t < 10) by (destruct I as [<-|[<-|[]]]; lra).
    unfold interp_at, none. cbn [ipoints iinner ivalues last length]. unfold Rleb. destruct (Rle_dec 10 t); [exfalso; lra|]. destruct (Rle_dec t 0); [exfalso; lra|].
    cbn [lower_bound]. unfold Rltb. destruct (Rlt_dec 0 t); [|exfalso; lra]. destruct (Rlt_dec 10 t); [exfalso; lra|]. cbn.
    eexists. split; [reflexivity|]. intros [|[|k]]; unfold control_vector; cbn; try reflexivity; ring. }
  intros t I. split; [apply HB|]. destruct (C t I) as (c & Ec & Zc). exists c. split; [right; split; [cbn; lia|exact Ec]|].
  apply (C104_rest rest_net 50 t rest_state (control_vector c) W HP). destruct HR as (R1 & R2). split.
  - intros j nt Hj. specialize (R1 j nt Hj). destruct j as [|[|[|j]]]; cbn in Hj; [injection Hj as <-..|destruct j; discriminate]; exact R1.
  - intros i e He. specialize (R2 i e He). destruct i as [|[|i]]; cbn in He; [injection He as <-..|destruct i; discriminate]; unfold edge_at_rest in *; cbn [e_type] in *; cbv zeta in *; [exact R2|].
    rewrite Zc. tauto.
Qed.
