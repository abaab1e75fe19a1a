(** * Property C123: the residual is affine in the last state and in the controls *)
From Coq Require Import Reals ZArith Lra Lia List Arith.
From Verif Require Import Base Calc Euler_Model Euler_Spec Box_Model Net_Model Net_Spec Net_Props Steady_Spec Steady_Proofs Steady_Props.
From Verif Require Import Affine_Spec Affine_Proofs Affine_Proofs2.
Import ListNotations.
Local Open Scope R_scope.

(** The derivative with respect to the last state is the same at all times, states and controls, and the residual changes exactly by it. *)
Theorem C123_last_state : forall N t1, well_formed N -> pipes_ok N -> boundary_defined N t1 ->
  exists ts, (forall t0 t last new c, d_evaluate_d_last_state N t0 t last new c = Ok ts) /\
    forall t0 last last' new c v, exists r r', evaluate N t0 t1 last new c v = Ok r /\ evaluate N t0 t1 last' new c v = Ok r' /\
      changes_by (number_of_states N) (number_of_states N) (matrix_of ts) last last' r r'.
Proof.
  intros N t1 W HP HB. destruct (C53_last_state N 0 t1 (fun _ => 0) (fun _ => 0) (fun _ => 0) (fun _ => 0) W HP HB) as (ts & E & _). exists ts.
  assert (All : forall t0 t last new c, d_evaluate_d_last_state N t0 t last new c = Ok ts) by (intros; rewrite <- E; apply last_matrix). split; [exact All|].
  intros t0 last last' new c v. destruct (C54_solution N t0 t1 last new c v W HP HB) as (r & Er & _). destruct (C54_solution N t0 t1 last' new c v W HP HB) as (r' & Er' & _).
  exists r, r'. split; [exact Er|]. split; [exact Er'|].
  apply (affine_of_jacobian _ _ (fun l => evaluate N t0 t1 l new c v)); [| |exact Er|exact Er'].
  - intro u. destruct (C53_last_state N t0 t1 u new c v W HP HB) as (ts' & E' & J). rewrite All in E'. injection E' as <-. exact J.
  - intros u u' H. apply evaluate_last_ext; assumption.
Qed.
Print Assumptions C123_last_state.

Theorem C123_controls : forall N t1, well_formed N -> pipes_ok N -> boundary_defined N t1 ->
  exists ts, (forall t0 t last new c, d_evaluate_d_control N t0 t last new c = Ok ts) /\
    forall t0 last new c c' v, exists r r', evaluate N t0 t1 last new c v = Ok r /\ evaluate N t0 t1 last new c' v = Ok r' /\
      changes_by (number_of_states N) (number_of_controls N) (matrix_of ts) c c' r r'.
Proof.
  intros N t1 W HP HB. destruct (C53_control N 0 t1 (fun _ => 0) (fun _ => 0) (fun _ => 0) (fun _ => 0) W HP HB) as (ts & E & _). exists ts.
  assert (All : forall t0 t last new c, d_evaluate_d_control N t0 t last new c = Ok ts) by (intros; rewrite <- E; apply control_matrix). split; [exact All|].
  intros t0 last new c c' v. destruct (C54_solution N t0 t1 last new c v W HP HB) as (r & Er & _). destruct (C54_solution N t0 t1 last new c' v W HP HB) as (r' & Er' & _).
  exists r, r'. split; [exact Er|]. split; [exact Er'|].
  apply (affine_of_jacobian _ _ (fun u => evaluate N t0 t1 last new u v)); [| |exact Er|exact Er'].
  - intro u. destruct (C53_control N t0 t1 last new u v W HP HB) as (ts' & E' & J). rewrite All in E'. injection E' as <-. exact J.
  - intros u u' H. apply evaluate_control_ext; assumption.
Qed.
Print Assumptions C123_controls.

(** If the same state solves a step from two last states with two controls, then it does so for all mixtures of them. *)
Theorem C123_mixtures : forall N t0 t1 last last' x c c' s, well_formed N -> pipes_ok N -> boundary_defined N t1 ->
  network_equations N t0 t1 last x c -> network_equations N t0 t1 last' x c' ->
  network_equations N t0 t1 (mix s last last') x (mix s c c').
Proof.
  intros N t0 t1 last last' x c c' s W HP HB H H'. set (v := fun _ : nat => 0). 
  destruct (C123_last_state N t1 W HP HB) as (tl & _ & L). destruct (C123_controls N t1 W HP HB) as (tc & _ & K).
  destruct (C54_solution N t0 t1 last x c v W HP HB) as (r1 & E1 & Z1). destruct (C54_solution N t0 t1 last' x c' v W HP HB) as (r2 & E2 & Z2).
  destruct (C54_solution N t0 t1 (mix s last last') x (mix s c c') v W HP HB) as (r & E & Z).
  pose proof (proj2 Z1 H) as G. pose proof (proj2 Z2 H') as G'. clear H H'. rename G into H, G' into H'. apply (proj1 Z). intros i Hi. specialize (H i Hi). specialize (H' i Hi).
  destruct (L t0 last last' x c v) as (q1 & q2 & Q1 & Q2 & D1). destruct (K t0 last' x c c' v) as (q3 & q4 & Q3 & Q4 & D2).
  destruct (L t0 last (mix s last last') x c v) as (q5 & q6 & Q5 & Q6 & D3). destruct (K t0 (mix s last last') x c (mix s c c') v) as (q7 & q8 & Q7 & Q8 & D4).
  specialize (D1 i Hi). specialize (D2 i Hi). specialize (D3 i Hi). specialize (D4 i Hi).
  rewrite E1 in Q1, Q5. rewrite Q2 in Q3. rewrite E2 in Q4. rewrite Q6 in Q7. rewrite E in Q8.
  injection Q1 as <-. injection Q5 as <-. injection Q3 as <-. injection Q4 as <-. injection Q7 as <-. injection Q8 as <-.
  assert (M : forall (A : mat) m (u u' : vec), vsum m (fun k => A i k * (mix s u u' k - u k)) = s * vsum m (fun k => A i k * (u' k - u k))).
  { intros A m u u'. rewrite <- vsum_scal. apply vsum_ext. intros k _. unfold mix. ring. }
  rewrite M in D3, D4. rewrite <- D1 in D3. rewrite <- D2 in D4. rewrite H, H' in *. lra.
Qed.
Print Assumptions C123_mixtures.

(** Two last states have a solution in common exactly if they differ in the pipes by an alternating value; then they have all of them
    in common. *)
Theorem C123_memory : forall N t0 t1 last last' x c, pipes_ok N -> network_equations N t0 t1 last x c ->
  (network_equations N t0 t1 last' x c <-> exists a b, alternating N a b last last').
Proof.
  intros N t0 t1 last last' x c HP H. split.
  - intro H'. eexists _, _. eapply same_solution; eassumption.
  - intros (a & b & A). eapply alternating_equations; eassumption.
Qed.
Print Assumptions C123_memory.

(** The pipe with three grid points from Steady_Props.v: densities that are alternately one more and one less. *)
Definition rest_alternating : vec := fun k =>
  nth k [rho (50 * bar) + 1; 0; rho (50 * bar) - 1; 0; rho (50 * bar) + 1; 0; 7; 8; 9; 10] 0.
Example C123_case :
  well_formed rest_net /\ pipes_ok rest_net /\ boundary_defined rest_net 7 /\ number_of_controls rest_net = 1%nat /\
  network_equations rest_net 6 7 rest_state rest_state (fun _ => 0) /\
  alternating rest_net (fun _ => 1) (fun _ => 0) rest_state rest_alternating /\
  network_equations rest_net 6 7 rest_alternating rest_state (fun _ => 0) /\
  network_equations rest_net 6 7 (mix 3 rest_state rest_alternating) rest_state (mix 3 (fun _ => 0) (fun _ => 0)).
Proof.
  destruct C104_rest_case as (W & HP & HR).
  assert (HB : boundary_defined rest_net 7).
  { intro j. destruct j as [|[|[|j]]]; cbn; eauto. destruct j; exact Logic.I. }
  assert (HE : network_equations rest_net 6 7 rest_state rest_state (fun _ => 0)).
  { apply C104_step; [lra|]. eapply C104_rest; eauto. }
  assert (HA : alternating rest_net (fun _ => 1) (fun _ => 0) rest_state rest_alternating).
  { intros i e d k dx np He T. destruct i as [|[|i]]; cbn in He; [injection He as <-..|destruct i; discriminate]; cbn in T; [injection T as <- <- <- <-|discriminate].
    intros m Hm. assert (S0 : fst (edge_block rest_net 0) = 0%nat) by reflexivity. rewrite S0. cbv zeta.
    destruct m as [|[|[|m]]]; [| | |lia]; cbn; lra. }
  assert (HE' : network_equations rest_net 6 7 rest_alternating rest_state (fun _ => 0)).
  { apply (C123_memory rest_net 6 7 rest_state); [exact HP|exact HE|]. eauto. }
  repeat (split; [first [assumption|reflexivity]|]). apply C123_mixtures; assumption.
Qed.
