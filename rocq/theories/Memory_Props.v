(** * Property C115: without pipes a network has no memory *)
From Coq Require Import Reals ZArith Lra Lia List Arith.
From Verif Require Import Base Interp_Model Calc Euler_Model Newton_Model Newton_Spec Evolve_Model Evolve_Spec Evolve_Proofs
  Box_Model Net_Model Net_Spec Sim_Model Sim_Spec Sim_Proofs3 Sim_Props.
From Verif Require Import Memory_Spec Memory_Proofs.
Import ListNotations.
Local Open Scope R_scope.

(** The equations of a time step depend on its two times and on the state before it only through the boundary values at
    the new time: the residual and its derivatives are the same for all other steps, and the derivative with respect to
    the state before the step has no entries. *)
Theorem C115_equations : forall N t0 t1 t0' t1' last last' x c v,
  no_pipe N -> same_values N t1 t1' ->
  evaluate N t0 t1 last x c v = evaluate N t0' t1' last' x c v /\
  d_evaluate_d_new_state N t0 t1 last x c = d_evaluate_d_new_state N t0' t1' last' x c /\
  d_evaluate_d_last_state N t0 t1 last x c = Ok [].
Proof.
  intros N t0 t1 t0' t1' last last' x c v NP SV. split; [apply evaluate_no_memory; assumption|]. split; [apply d_new_no_memory; assumption|].
  apply d_last_nil; assumption.
Qed.
Print Assumptions C115_equations.

(** Every state a simulation finds satisfies the equations of its own time within the tolerance, as if every other state
    had come before it. *)
Theorem C115_simulation :
  forall E LU n net prepare factor linsolve fuel sfuel cfg controls points x e rows e',
    (forall e, well_formed (net e) /\ no_pipe (net e) /\ number_of_states (net e) = n) ->
    (forall e t, In t points -> boundary_defined (net e) t) ->
    (0 <= maximal_iterations (newton cfg))%Z -> tolerance (newton cfg) < 1000000 ->
    simulate (network_problem E LU n net prepare factor linsolve) fuel sfuel cfg controls points x e
      = (Some (Ok rows), e') ->
    forall i t v, nth_error points (S i) = Some t -> nth_error rows (S i) = Some v ->
      exists c e1,
        (iinner controls = 0%nat /\ c = [] \/ (0 < iinner controls)%nat /\ interp_at controls t = Ok c) /\
        forall t' u, network_equations_within (net e1) (tolerance (newton cfg)) t' t u v (control_vector c).
Proof.
  intros E LU n net prepare factor linsolve fuel sfuel cfg controls points x e rows e' HN HB Hm Ht H i t v P1 R1.
  assert (HN' : forall e, well_formed (net e) /\ pipes_ok (net e) /\ number_of_states (net e) = n).
  { intro e0. destruct (HN e0) as (W & NP & Hn). split; [exact W|]. split; [|exact Hn]. unfold pipes_ok, no_pipe in *.
    eapply Forall_impl; [|exact NP]. intros a K. cbn beta in K. destruct (e_type a); easy. }
  destruct (C90_simulation E LU n net prepare factor linsolve fuel sfuel cfg controls points x e rows e' HN' HB Hm Ht H) as (L & _ & K).
  destruct (nth_error points i) as [t0|] eqn:P0.
  2:{ apply nth_error_None in P0. assert (S i < length points)%nat by (apply nth_error_Some; congruence). lia. }
  destruct (nth_error rows i) as [u0|] eqn:R0.
  2:{ apply nth_error_None in R0. assert (S i < length rows)%nat by (apply nth_error_Some; congruence). lia. }
  destruct (K i t0 t u0 v P0 P1 R0 R1) as (c & e0 & e1 & Hc & _ & Q). exists c, e1. split; [exact Hc|].
  intros t' u. destruct (HN e1) as (_ & NP & _). exact (within_no_memory (net e1) NP _ t0 t' t u0 u v _ Q).
Qed.
Print Assumptions C115_simulation.

(** If the boundary values and controls do not change from one time to the next, then neither does the state, not even
    within the tolerance. *)
Theorem C115_unchanged :
  forall E LU n N factor linsolve fuel sfuel cfg controls points x e (rows : list vec) e',
    no_pipe N ->
    (0 <= maximal_iterations (newton cfg))%Z -> tolerance (newton cfg) < 1000000 ->
    simulate (network_problem E LU n (fun _ => N) (fun e _ _ _ _ => Ok e) factor linsolve) fuel sfuel cfg controls points x e
      = (Some (Ok rows), e') ->
    forall i j, (0 < i <= j)%nat -> (j < length points)%nat ->
      (forall k t t', (i <= k < j)%nat -> nth_error points k = Some t -> nth_error points (S k) = Some t' ->
        same_values N t t' /\ interp_at controls t = interp_at controls t') ->
      nth_error rows j = nth_error rows i.
Proof.
  intros E LU n N factor linsolve fuel sfuel cfg controls points x e rows e' NP Hm Ht H i j (Hi & Hij) Hj.
  destruct (simulate_ok _ _ _ _ _ _ _ _ _ _ H) as (L & _ & _ & K). cbn [pr_vec network_problem] in L.
  induction j as [|j IH]; [lia|]. intro HS.
  destruct (Nat.eq_dec i (S j)) as [->|Ne]; [reflexivity|].
  rewrite <- IH by (try lia; intros; eapply HS; eauto; lia).
  destruct j as [|j]; [lia|].
  assert (Get : forall k, (k < length points)%nat -> exists t, nth_error points k = Some t).
  { intros k Hk. destruct (nth_error points k) eqn:Ek; [eauto|]. apply nth_error_None in Ek. lia. }
  assert (Get' : forall k, (k < length points)%nat -> exists u, nth_error rows k = Some u).
  { intros k Hk. destruct (nth_error rows k) eqn:Ek; [eauto|]. apply nth_error_None in Ek. lia. }
  destruct (Get j ltac:(lia)) as (t0 & P0). destruct (Get (S j) ltac:(lia)) as (t1 & P1). destruct (Get (S (S j)) ltac:(lia)) as (t2 & P2).
  destruct (Get' j ltac:(lia)) as (u & R0). destruct (Get' (S j) ltac:(lia)) as (v & R1). destruct (Get' (S (S j)) ltac:(lia)) as (w & R2).
  destruct (K j t0 t1 u v ltac:(repeat split; assumption)) as (e1 & A1 & _).
  destruct (K (S j) t1 t2 v w ltac:(repeat split; assumption)) as (e2 & A2 & _).
  destruct (HS (S j) t1 t2 ltac:(lia) P1 P2) as (SV & Ct).
  rewrite R1, R2. f_equal. exact (accepted_stays E LU n N factor linsolve NP cfg fuel controls t0 t1 t2 u v w e1 e2 Hm Ht SV Ct A1 A2).
Qed.
Print Assumptions C115_unchanged.

(** A short pipe whose pressure is 1 bar higher than in the initial state, see C90: one step of Newton's method, and then
    nothing changes. *)
Example C115_case :
  no_pipe settled_net /\ well_formed settled_net /\ (forall t t', same_values settled_net t t') /\
  (forall t, boundary_defined settled_net t) /\ number_of_states settled_net = 4%nat /\
  (0 <= maximal_iterations (newton sim_settings))%Z /\ tolerance (newton sim_settings) < 1000000 /\
  simulate settled_problem 1 1 sim_settings none [0; 1; 2] (rising_state 0) tt
    = (Some (Ok [rising_state 0; rising_state 1; rising_state 1]), tt).
Proof.
  split; [repeat constructor|]. split; [unfold well_formed; cbn [settled_net edges]; repeat constructor; cbn; auto; discriminate|].
  split; [intros; repeat constructor|]. split; [intros t j; destruct j as [|[|j]]; cbn; eauto; destruct j; exact I|].
  split; [reflexivity|]. split; [cbn; lia|]. split; [cbn; lra|]. exact settled_run.
Qed.

(** Pipes have a memory: the state below solves the equations if it was the state before, but not if there was less gas. *)
Example C115_pipe :
  (forall t t', same_values steady_net t t') /\
  network_equations steady_net 0 1 steady_state steady_state (fun _ => 0) /\
  ~ network_equations steady_net 0 1 (fun _ => 0) steady_state (fun _ => 0).
Proof.
  split; [intros; repeat constructor|]. split; [apply steady_solution|]. intros (_ & H).
  destruct (steady_solution 0 1 (fun _ => 0)) as (_ & H').
  specialize (H 0%nat _ eq_refl 0%nat ltac:(cbn; lia)). specialize (H' 0%nat _ eq_refl 0%nat ltac:(cbn; lia)).
  destruct H as (sl & sr & A & B & Q). destruct H' as (sl' & sr' & A' & B' & Q').
  rewrite A' in A. rewrite B' in B. injection A as <-. injection B as <-.
  specialize (Q 0%nat ltac:(lia)). specialize (Q' 0%nat ltac:(lia)). rewrite <- Q in Q'. clear Q.
  pose proof steady_length_pos. unfold seg in Q'. cbn in Q'. nra.
Qed.
