(** The balance of gas over a whole simulation. *)
From Coq Require Import Reals ZArith Lra Lia List Arith Bool Sorted.
From Verif Require Import Base Interp_Model Calc Euler_Model Newton_Model Newton_Spec Evolve_Model Evolve_Spec Evolve_Proofs
  Box_Model Net_Model Net_Spec Sim_Model Sim_Spec Sim_Proofs Sim_Proofs2 Mass_Spec Mass_Proofs.
Import ListNotations.
Local Open Scope R_scope.

Lemma mass_telescope N eps : forall points rows,
  length rows = length points -> points <> [] ->
  (forall i t0 t1 u v, nth_error points i = Some t0 -> nth_error points (S i) = Some t1 ->
     nth_error rows i = Some u -> nth_error rows (S i) = Some v ->
     Rabs (linepack N v - linepack N u - entered N t0 t1 v) <= mass_error N eps t0 t1) ->
  forall d d',
  Rabs (linepack N (last rows d) - linepack N (hd d rows) - entered_all N points rows)
  <= eps * (INR (length points - 1) * volume N
            + (last points d' - hd d' points) * (rho_0 * INR (flow_equations N + short_edges N))).
Proof.
  induction points as [|t0 points IH]; intros rows L NE H d d'; [congruence|].
  destruct rows as [|u rows]; [discriminate|]. cbn [length] in L. injection L as L.
  destruct points as [|t1 points], rows as [|v rows]; try discriminate.
  - cbn [last hd length Nat.sub INR entered_all]. match goal with |- Rabs ?a <= _ => replace a with 0 by ring end.
    rewrite Rabs_R0. apply Req_le. ring.
  - specialize (IH (v :: rows) L ltac:(discriminate)).
    assert (H' : forall i t2 t3 u0 v0, nth_error (t1 :: points) i = Some t2 -> nth_error (t1 :: points) (S i) = Some t3 ->
      nth_error (v :: rows) i = Some u0 -> nth_error (v :: rows) (S i) = Some v0 ->
      Rabs (linepack N v0 - linepack N u0 - entered N t2 t3 v0) <= mass_error N eps t2 t3)
      by (intros i; intros; apply (H (S i)); auto).
    specialize (IH H' d d'). specialize (H 0%nat t0 t1 u v eq_refl eq_refl eq_refl eq_refl).
    change (last (u :: v :: rows) d) with (last (v :: rows) d).
    change (last (t0 :: t1 :: points) d') with (last (t1 :: points) d').
    change (entered_all N (t0 :: t1 :: points) (u :: v :: rows))
      with (entered N t0 t1 v + entered_all N (t1 :: points) (v :: rows)).
    cbn [hd] in *. set (lr := last (v :: rows) d) in *. set (lp := last (t1 :: points) d') in *.
    replace (length (t0 :: t1 :: points) - 1)%nat with (S (length (t1 :: points) - 1)) by (cbn [length]; lia).
    rewrite S_INR. unfold mass_error in H.
    replace (linepack N lr - linepack N u - (entered N t0 t1 v + entered_all N (t1 :: points) (v :: rows)))
      with ((linepack N lr - linepack N v - entered_all N (t1 :: points) (v :: rows))
            + (linepack N v - linepack N u - entered N t0 t1 v)) by ring.
    eapply Rle_trans; [apply Rabs_triang|]. eapply Rle_trans; [apply Rplus_le_compat; [exact IH|exact H]|].
    apply Req_le. ring.
Qed.

Theorem simulation_mass (LU : Type) n N factor linsolve fuel sfuel cfg controls points x rows e' :
  well_formed N -> pipes_ok N -> number_of_states N = n ->
  (forall t, In t points -> boundary_defined N t) -> Sorted Rle points ->
  (0 <= maximal_iterations (newton cfg))%Z -> tolerance (newton cfg) < 1000000 ->
  simulate (network_problem unit LU n (fun _ => N) (fun e _ _ _ _ => Ok e) factor linsolve)
    fuel sfuel cfg controls points x tt = (Some (Ok rows), e') ->
  Rabs (linepack N (last rows x) - linepack N x - entered_all N points rows)
  <= tolerance (newton cfg) * (INR (length points - 1) * volume N
       + (last points 0 - hd 0 points) * (rho_0 * INR (flow_equations N + short_edges N))).
Proof.
  intros W HP Hn HB HS Hm Ht H. pose proof (simulate_ok _ _ _ _ _ _ _ _ _ _ H) as [L [L2 [Hx K]]].
  assert (Hh : hd x rows = x) by (destruct rows as [|r rows]; cbn in Hx; [reflexivity|injection Hx as ->; reflexivity]).
  rewrite <- Hh at 2. apply mass_telescope; auto.
  { intros ->. cbn in L2. lia. }
  intros i t0 t1 u v P0 P1 R0 R1.
  destruct (K i t0 t1 u v ltac:(repeat split; assumption)) as [e1 [A _]].
  assert (Hb : boundary_defined N t1) by (apply HB; eapply nth_error_In; eauto).
  destruct (network_step_within unit LU n (fun _ => N) (fun e _ _ _ _ => Ok e) factor linsolve cfg controls fuel t0 t1 u v e1
    W HP Hn Hb Hm Ht A) as [Te [c [e0 [_ [_ Q]]]]].
  apply (mass_balance N _ t0 t1 u v (control_vector c)); auto.
  clear - HS P0 P1. revert i P0 P1. induction HS as [|a l HS IH HR]; intros i P0 P1; [destruct i; discriminate|].
  destruct i as [|i]; [|apply (IH i); auto].
  cbn in P0, P1. destruct l as [|b l]; [discriminate|]. cbn in P1. injection P0 as <-. injection P1 as <-. inversion HR; subst. assumption.
Qed.
