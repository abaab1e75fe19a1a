(** * Property C124: controls adapted to other pressures *)
From Coq Require Import Reals ZArith Lra Lia List Arith.
From Verif Require Import Base Calc Euler_Model Box_Model Net_Model Net_Spec Net_Props Level_Spec Level_Proofs Level_Proofs2 Lift_Spec Lift_Props.
From Verif Require Import Adapt_Spec Adapt_Proofs Adapt_Proofs2.
Import ListNotations.
Local Open Scope R_scope.

(** The changed states solve the equations with the adapted controls exactly if the states before solve them with the controls before. *)
Theorem C124_equations : forall N h z x y c c' t0 t1 last, well_formed N -> adaptable N h z -> adapted N h c c' -> changed N h z 1 x y ->
  (network_equations N t0 t1 last y c' <-> network_equations N t0 t1 last x c).
Proof.
  intros N h z x y c c' t0 t1 last W U A X. split.
  - apply (moved_solution N (fun j => - h j) (fun i => - z i)); [exact W|apply adaptable_back; exact U|apply adapted_back; exact A|apply changed_back; exact X].
  - apply (moved_solution N h z); assumption.
Qed.
Print Assumptions C124_equations.

(** For every such change there are a changed state and adapted controls. *)
Theorem C124_exists : forall N h z x c, well_formed N -> adaptable N h z -> exists y c', changed N h z 1 x y /\ adapted N h c c'.
Proof.
  intros N h z x c W U. exists (fun k => x k + 1 * change_direction N h z k), (adapted_controls N h c).
  split; [apply direction_changed; exact W|apply (adapted_exists N h z); exact U].
Qed.
Print Assumptions C124_exists.

Theorem C124_residual : forall N h z x y c c' t0 t1 last v, well_formed N -> pipes_ok N -> boundary_defined N t1 ->
  adaptable N h z -> adapted N h c c' -> changed N h z 1 x y ->
  exists r r', evaluate N t0 t1 last x c v = Ok r /\ evaluate N t0 t1 last y c' v = Ok r' /\
    ((forall k, (k < number_of_states N)%nat -> r' k = 0) <-> (forall k, (k < number_of_states N)%nat -> r k = 0)).
Proof.
  intros N h z x y c c' t0 t1 last v W HP HB U A X.
  destruct (C54_solution N t0 t1 last x c v W HP HB) as (r & E & Z). destruct (C54_solution N t0 t1 last y c' v W HP HB) as (r' & E' & Z').
  exists r, r'. split; [exact E|]. split; [exact E'|]. rewrite Z, Z'. exact (C124_equations N h z x y c c' t0 t1 last W U A X).
Qed.
Print Assumptions C124_residual.

(** At a node between compressors, control valves and power plants the controls can produce every pressure, without any change of the
    flows and of the pressures at other nodes. *)
Theorem C124_any_pressure : forall N t0 t1 last x c j, well_formed N -> network_equations N t0 t1 last x c ->
  balances N j -> has_gas_edge N j ->
  (forall i e, nth_error (edges N) i = Some e -> e_from e = j \/ e_to e = j ->
     match e_type e with ECompressor _ | EControlvalve | EGaspower _ _ => True | _ => False end) ->
  forall pr, exists y c', network_equations N t0 t1 last y c' /\ equal_pressures N j y pr /\
    forall i e d, nth_error (edges N) i = Some e -> gas_end e d ->
      flow_at N i d y = flow_at N i d x /\ (end_node e d <> j -> pressure_at N i e d y = pressure_at N i e d x).
Proof.
  intros N t0 t1 last x c j W H B Hh T pr.
  assert (P0 : exists pr0, equal_pressures N j x pr0).
  { unfold balances in B. destruct (nth_error (nodes N) j) as [t|] eqn:Hj; [|destruct B]. pose proof (proj1 H j t Hj) as Q. destruct t; try destruct B; cbn [node_equation] in Q.
    - exact (proj1 (Q Hh)).
    - destruct (Q Hh) as (v & _ & Q' & _). exact Q'. }
  destruct P0 as (pr0 & P0). set (h := fun k => if Nat.eqb k j then pr - pr0 else 0). set (z := fun _ : nat => 0).
  assert (H0 : forall k, k <> j -> h k = 0) by (intros k D; unfold h; apply Nat.eqb_neq in D; rewrite D; reflexivity).
  assert (Hj : h j = pr - pr0) by (unfold h; rewrite Nat.eqb_refl; reflexivity).
  assert (Gj : is_gas_node N j) by (unfold is_gas_node, balances in *; destruct (nth_error (nodes N) j) as [[]|]; tauto).
  assert (U : adaptable N h z).
  { split; [|split].
    - intros k b Hk. apply H0. intros ->. unfold balances in B. rewrite Hk in B. exact B.
    - intros i e He. specialize (T i e He). destruct (Nat.eq_dec (e_from e) j) as [D|D]; [specialize (T (or_introl D)); destruct (e_type e); try destruct T; auto|].
      destruct (Nat.eq_dec (e_to e) j) as [D'|D']; [specialize (T (or_intror D')); destruct (e_type e); try destruct T; auto|].
      destruct (e_type e); auto; rewrite !H0 by assumption; auto.
    - intros k _. unfold divergence. assert (Z : forall l : list (nat * edge), rsum (fun ie => if carries_gas (snd ie)
        then (if Nat.eqb (e_from (snd ie)) k then z (fst ie) else 0) - (if Nat.eqb (e_to (snd ie)) k then z (fst ie) else 0) else 0) l = 0).
      { induction l as [|ie l IH]; [reflexivity|]. cbn [rsum]. rewrite IH. unfold z.
        destruct (carries_gas (snd ie)), (Nat.eqb (e_from (snd ie)) k), (Nat.eqb (e_to (snd ie)) k); ring. }
      apply Z. }
  destruct (C124_exists N h z x c W U) as (y & c' & X & A). exists y, c'.
  split; [apply (C124_equations N h z x y c c' t0 t1 last W U A X); exact H|]. split.
  - pose proof (moved_equal N h z x y W U X j pr0 Gj P0) as Q. rewrite Hj in Q. replace (pr0 + (pr - pr0)) with pr in Q by ring. exact Q.
  - intros i e d He G. destruct (moved_end N h z x y U X i e d He G) as (Q1 & Q2). split; [rewrite Q2; unfold z; ring|].
    intro D. rewrite Q1, H0 by exact D. ring.
Qed.
Print Assumptions C124_any_pressure.

(** Two solutions, with whatever controls, differ in no other way if they agree at the pipes and in the flows into power plants. *)
Theorem C124_only : forall N t0 t1 last x y c c', well_formed N -> network_equations N t0 t1 last x c -> network_equations N t0 t1 last y c' ->
  (forall i e, nth_error (edges N) i = Some e ->
     match e_type e with
     | EPipe _ _ _ _ => forall d, pressure_at N i e d y = pressure_at N i e d x /\ flow_at N i d y = flow_at N i d x
     | EGaspower _ _ => flow_at N i dstart y = flow_at N i dstart x
     | _ => True
     end) ->
  exists h z, adaptable N h z /\ adapted N h c c' /\
    forall i e d, nth_error (edges N) i = Some e -> gas_end e d ->
      pressure_at N i e d y = pressure_at N i e d x + h (end_node e d) /\ flow_at N i d y = flow_at N i d x + z i.
Proof.
  intros N t0 t1 last x y c c' W Hx Hy S. exists (rise N x y), (more_flow N x y).
  split; [eapply only_adaptable; eassumption|]. split; [eapply only_adapted; eassumption|].
  intros i e d H G. split; [eapply rise_at; eassumption|eapply more_at; eassumption].
Qed.
Print Assumptions C124_only.

(** The row of components of Lift_Props.v: 5 bar more behind the compressor and 2 bar more behind the control valve. *)
Definition row_rise : nat -> R := fun j => nth j [0; 0; 5; 2] 0.
Definition row_raised : vec := fun k => nth k [50; 3; 50; 3; 50; 3; 62; 3; 62; 3; 57; 3] 0.
Definition row_raised_controls : vec := fun k => nth k [12; 5] 0.
Example C124_case :
  well_formed row /\ adaptable row row_rise (fun _ => 0) /\ adapted row row_rise row_controls row_raised_controls /\
  changed row row_rise (fun _ => 0) 1 row_state row_raised /\ network_equations row 0 1 row_state row_raised row_raised_controls.
Proof.
  destruct C121_case as (_ & W & Q & _).
  assert (U : adaptable row row_rise (fun _ => 0)).
  { split; [|split].
    - intros j b H. destruct j as [|[|[|[|j]]]]; cbn in H; try discriminate; [reflexivity|destruct j; discriminate].
    - intros [|[|[|i]]] e H; [injection H as <-..|destruct i; discriminate]; cbn; auto.
    - intros j _. unfold divergence. cbn. repeat match goal with |- context [match ?b with _ => _ end] => destruct b end; lra. }
  assert (A : adapted row row_rise row_controls row_raised_controls).
  { intros [|[|[|i]]] e H _; [injection H as <-..|destruct i; discriminate]; unfold lift; cbn; lra. }
  assert (X : changed row row_rise (fun _ => 0) 1 row_state row_raised).
  { split.
    - intros [|[|[|i]]] e d H _; [injection H as <-..|destruct i; discriminate]; destruct d; cbn; lra.
    - intros k H. do 12 (destruct k as [|k]; [exfalso; first
        [destruct (H 0%nat _ dstart eq_refl Logic.I) as (P1 & P2); cbn in P1, P2; lia|destruct (H 0%nat _ dend eq_refl Logic.I) as (P1 & P2); cbn in P1, P2; lia
        |destruct (H 1%nat _ dstart eq_refl Logic.I) as (P1 & P2); cbn in P1, P2; lia|destruct (H 1%nat _ dend eq_refl Logic.I) as (P1 & P2); cbn in P1, P2; lia
        |destruct (H 2%nat _ dstart eq_refl Logic.I) as (P1 & P2); cbn in P1, P2; lia|destruct (H 2%nat _ dend eq_refl Logic.I) as (P1 & P2); cbn in P1, P2; lia]|]).
      unfold row_raised, row_state. rewrite !nth_overflow by (cbn; lia). reflexivity. }
  split; [exact W|]. split; [exact U|]. split; [exact A|]. split; [exact X|].
  apply (C124_equations row row_rise (fun _ => 0) row_state row_raised row_controls row_raised_controls 0 1 row_state W U A X). exact Q.
Qed.
