(** * Pressures along walks of short components (C112) *)
From Coq Require Import Reals ZArith Lra Lia List Arith Bool.
From Coquelicot Require Import Rcomplements.
From Verif Require Import Base Interp_Model Calc Euler_Model Euler_Spec Box_Model
  Net_Model Net_Spec Newton_Model Evolve_Model Sim_Model Sim_Spec Sim_Props Level_Spec Level_Props Part_Proofs2 Walk_Spec Walk_Proofs.
Import ListNotations.
Local Open Scope R_scope.

(** Along a walk the pressure rises by the sum of the controls, up to the tolerance times the number of equations met. *)
Theorem C112_walk : forall N eps t0 t1 last x c l j j' q q',
  well_formed N -> 0 <= eps -> network_equations_within N eps t0 t1 last x c ->
  is_gas_node N j -> walk N j l j' -> pressure_there N x j q -> pressure_there N x j' q' ->
  Rabs (q' - q - rise N c l) <= (joint N j + slack N l) * eps.
Proof. intros N eps t0 t1 last x c l j j' q q' W He H. exact (along N eps t0 t1 last x c W H l j j' q q'). Qed.
Print Assumptions C112_walk.

(** Around a closed walk the controls cancel, and between nodes with given pressures they fit these. *)
Theorem C112_closed : forall N eps t0 t1 last x c j l,
  well_formed N -> 0 <= eps -> network_equations_within N eps t0 t1 last x c -> walk N j l j ->
  Rabs (rise N c l) <= slack N l * eps.
Proof. intros N eps t0 t1 last x c j l W He H. exact (closed N eps t0 t1 last x c W H j l). Qed.
Print Assumptions C112_closed.
Theorem C112_given : forall N eps t0 t1 last x c j l j' b b' v v',
  well_formed N -> 0 <= eps -> network_equations_within N eps t0 t1 last x c -> l <> [] -> walk N j l j' ->
  nth_error (nodes N) j = Some (Pressurenode b) -> nth_error (nodes N) j' = Some (Pressurenode b') -> b t1 = Ok v -> b' t1 = Ok v' ->
  Rabs (v' 0%nat - v 0%nat - rise N c l) <= (slack N l + 2) * eps.
Proof. intros N eps t0 t1 last x c j l j' b b' v v' W He H. exact (given N eps t0 t1 last x c W H j l j' b b' v v'). Qed.
Print Assumptions C112_given.

Theorem C112_exact : forall N t0 t1 last x c l j j' q q',
  well_formed N -> pipes_ok N -> boundary_defined N t1 -> network_equations N t0 t1 last x c ->
  is_gas_node N j -> walk N j l j' -> pressure_there N x j q -> pressure_there N x j' q' ->
  q' = q + rise N c l.
Proof.
  intros N t0 t1 last x c l j j' q q' W HP HB H G K P P'.
  pose proof (C112_walk N 0 t0 t1 last x c l j j' q q' W (Rle_refl 0) (exact_within N t0 t1 last x c W HP HB H) G K P P') as Q.
  rewrite Rmult_0_r in Q. apply Rabs_le_between in Q. lra.
Qed.
Print Assumptions C112_exact.

(** A simulation does not end normally if at one of its times (after the first) the controls around a closed walk do not
    cancel, or do not fit the given pressures at the ends of a walk. *)
Theorem C112_simulation : forall E LU n net prepare factor linsolve fuel sfuel cfg controls points x e rows e' i t0 t1,
  (forall e, well_formed (net e) /\ pipes_ok (net e) /\ number_of_states (net e) = n) ->
  (forall e t, In t points -> boundary_defined (net e) t) ->
  (0 <= maximal_iterations (newton cfg))%Z -> 0 <= tolerance (newton cfg) < 1000000 ->
  nth_error points i = Some t0 -> nth_error points (S i) = Some t1 ->
  (forall e c, (iinner controls = 0%nat /\ c = [] \/ (0 < iinner controls)%nat /\ interp_at controls t1 = Ok c) ->
     misfit (net e) (tolerance (newton cfg)) t1 (control_vector c)) ->
  simulate (network_problem E LU n net prepare factor linsolve) fuel sfuel cfg controls points x e <> (Some (Ok rows), e').
Proof.
  intros E LU n net prepare factor linsolve fuel sfuel cfg controls points x e rows e' i t0 t1 HN HB Hm (Ht & Ht') P0 P1 HO H.
  destruct (C90_simulation E LU n net prepare factor linsolve fuel sfuel cfg controls points x e rows e' HN HB Hm Ht' H) as (L & _ & K).
  assert (Hi : (S i < length points)%nat) by (apply nth_error_Some; congruence).
  destruct (nth_error rows i) as [u|] eqn:R0; [|apply nth_error_None in R0; lia].
  destruct (nth_error rows (S i)) as [v|] eqn:R1; [|apply nth_error_None in R1; lia].
  destruct (K i t0 t1 u v P0 P1 R0 R1) as (c & e0 & e1 & Hc & _ & Q). destruct (HO e1 c Hc) as (j & l & j' & Wk & M).
  destruct (HN e1) as (W & _ & _). destruct M as [(<- & M)|(b & b' & w & w' & Hl & Hj & Hj' & Hb & Hb' & M)].
  - pose proof (C112_closed (net e1) _ t0 t1 u v _ j l W Ht Q Wk). lra.
  - pose proof (C112_given (net e1) _ t0 t1 u v _ j l j' b b' w w' W Ht Q Hl Wk Hj Hj' Hb Hb'). lra.
Qed.
Print Assumptions C112_simulation.

(** Case: the compressor with bypass of C107_case.  Around the loop of compressor and control valve the pressure would rise by
    both controls. *)
Definition around : list step := [mkStep 0 (mkEdge 0 1 (ECompressor 1)) true; mkStep 1 (mkEdge 0 1 EControlvalve) false].
Example C112_case :
  walk bypass 0 around 0 /\ (forall c, rise bypass c around = c 0%nat + c 1%nat) /\ slack bypass around = 5 /\
  (forall eps t0 t1 last x c, 0 <= eps -> network_equations_within bypass eps t0 t1 last x c -> Rabs (c 0%nat + c 1%nat) <= 5 * eps) /\
  misfit bypass (1 / 1000) 1 (control_vector [10; 0]).
Proof.
  assert (Wk : walk bypass 0 around 0) by (cbn; repeat split; auto).
  assert (Ri : forall c, rise bypass c around = c 0%nat + c 1%nat) by (intro c; unfold rise, gain; cbn; ring).
  assert (Sl : slack bypass around = 5) by (unfold slack, joint; cbn; ring).
  split; [exact Wk|]. split; [exact Ri|]. split; [exact Sl|]. split.
  - intros eps t0 t1 last x c He H. rewrite <- Sl, <- Ri. destruct bypass_ok as (_ & _ & W & _). exact (C112_closed bypass eps t0 t1 last x c 0 around W He H Wk).
  - exists 0%nat, around, 0%nat. split; [exact Wk|]. left. split; [reflexivity|]. rewrite Sl, Ri. cbn. rewrite Rplus_0_r, Rabs_pos_eq by lra. lra.
Qed.
