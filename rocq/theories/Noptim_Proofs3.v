(** * The case again: controls that vary, with the drawn powers fixed *)
From Coq Require Import Reals ZArith Lra Lia List Arith Bool String FunctionalExtensionality.
From Coquelicot Require Import Coquelicot.
From Verif Require Import Base Interp_Model Interp_Spec Json_Model Calc Euler_Model Net_Model Net_Spec Whole_Spec Sim_Spec States_Model Input_Model Input_Proofs5 Setup_Model Setup_Proofs2
  Noise_Model Noise_Spec Noptim_Spec Noptim_Frozen Noptim_Proofs2.
Import ListNotations.
Local Open Scope R_scope.

Section Case.
Context {G : Type}.
Variables (g : G) (used : list Z).
Notation N := (network_of (map nn_node (random_nodes g used)) opt_edges).
Definition varied_state (v s : R) : vec := vec_of [v; 0; 50; 3; 60 + s; 3].
Lemma varied_power v s : power N 2 1 0 (varied_state v s) = (v * v, 0).
Proof.
  unfold power, current, voltage, varied_state, vec_of. cbn [network_of random_nodes opt_nodes opt_edges edges map csum fold_right me_edge e_type].
  change (fst (node_block N 2)) with 0%nat. cbn [nth Nat.add]. rewrite cos_0, sin_0.
  unfold Cmult, Cplus, Cconj, RtoC. cbn [fst snd]. f_equal; ring.
Qed.
Lemma varied_equations pw t0 t1 last v s u : 0 <= t1 <= 2 -> pw 2%nat = (v * v, 0) -> u 0%nat = 10 + s ->
  network_equations (with_powers random_entries pw N) t0 t1 last (varied_state v s) u.
Proof.
  intros Ht Hp Hu. split.
  - intros j t E. destruct j as [|[|[|j]]]; [injection E as <-..|destruct j; discriminate].
    + intros _. eexists. split; [unfold Input_Model.boundary_of; rewrite small_interp by lra; reflexivity|]. split.
      * exists (60 + s). intros [|i] e d Ee _ Td; [|destruct i; discriminate]. injection Ee as <-. destruct d; cbn in Td; [discriminate|]. reflexivity.
      * cbn. ring.
    + intros _. eexists. split; [unfold Input_Model.boundary_of; rewrite small_interp by lra; reflexivity|].
      intros [|i] e d Ee _ Td; [|destruct i; discriminate]. injection Ee as <-. destruct d; cbn in Td; [|discriminate]. reflexivity.
    + eexists. split; [reflexivity|]. cbv zeta. cbn [v2]. rewrite Hp.
      rewrite <- (shape_power N _ (replaced_shape random_entries N eq_refl (fun j _ => Ok (v2 (fst (pw j)) (snd (pw j)))))). apply varied_power.
  - intros [|i] e E; [|destruct i; discriminate]. injection E as <-. cbn. rewrite Hu. split; ring.
Qed.

(** The control at time 1 is 10 + s; the power at time 1 is the power at time 0 and the random
    number [v * v - 1]. *)
Definition varied_controls (s : R) : list R := [10; 10 + s].
Definition varied_states (v s : R) : list R := [1; 0; 50; 3; 60; 3; v; 0; 50; 3; 60 + s; 3].
Definition added (xi : R) (k j : nat) (last : R * R) : R * R := (fst last + xi, snd last).
Lemma varied_variation v : random_variation random_entries (added (v * v - 1)) N [0; 1] [0; 1] [10; 10] [varied_state 1 0; varied_state v 0]
  varied_controls (fun j _ => INR j) (varied_states v).
Proof.
  assert (R0 : forall s, row (varied_states v s) (number_of_states N) 0 = varied_state 1 0).
  { intro s. apply functional_extensionality. intro k. change (number_of_states N) with 6%nat. do 6 (destruct k as [|k]; [cbn; try reflexivity; ring|]). unfold row, varied_state, vec_of. cbn. destruct k; reflexivity. }
  assert (R1 : forall s, row (varied_states v s) (number_of_states N) 1 = varied_state v s).
  { intro s. apply functional_extensionality. intro k. change (number_of_states N) with 6%nat. do 6 (destruct k as [|k]; [cbn; try reflexivity; ring|]). unfold row, varied_state, vec_of. cbn. destruct k; reflexivity. }
  assert (C1 : forall s u, control_at [0; 1] (number_of_controls N) (varied_controls s) 1 u -> u 0%nat = 10 + s).
  { intros s u [H _]. specialize (H 0%nat ltac:(cbn; lia)). change (number_of_controls N) with 1%nat in H.
    destruct H as [(i & E & ->)|[(i & a & b & E1 & E2 & L & _)|[(a & E & L & _)|(n & b & E & Ln & L & _)]]].
    - destruct i as [|[|i]]; [injection E; lra|reflexivity|destruct i; discriminate].
    - destruct i as [|i]; [injection E2 as <-; lra|destruct i; discriminate].
    - injection E as <-. lra.
    - injection Ln as <-. injection E as <-. lra. }
  unfold random_variation. cbv zeta. change (number_of_states N) with 6%nat in *. change (number_of_controls N) with 1%nat in *.
  split; [intro; reflexivity|]. split; [intro; reflexivity|]. split; [|split; [|split; [|split; [|split; [split; [|split]|split]]]]].
  - intros [|[|j]] [|k] Hj Hk; cbn in Hj, Hk; try lia; unfold entry; cbn; auto_derive; auto.
  - intros [|[|i]] k Hi Hk; cbn in Hi; try lia; do 6 (destruct k as [|k]; [unfold entry; cbn; auto_derive; auto|]); lia.
  - intros s k Hk. do 6 (destruct k as [|k]; [reflexivity|]). lia.
  - apply filter_forall. intros s i t0 t1 u E0 E1 Hu. destruct i as [|i]; [|destruct i; discriminate]. injection E0 as <-. injection E1 as <-. rewrite R0, R1.
    apply varied_equations; [lra| |apply (C1 s u Hu)]. unfold powers_from. cbn [nth_error nodes network_of random_nodes opt_nodes map app nn_node nodetype_of mn_data].
    rewrite varied_power. unfold added. cbn [fst snd]. f_equal. ring.
  - unfold well_formed; cbn; repeat constructor; cbn; auto; discriminate.
  - unfold pipes_ok; cbn; repeat constructor.
  - intros i t H. destruct i as [|i]; [|destruct i; discriminate]. injection H as <-. split; [|intros [|j] e E; [|destruct j; discriminate]; injection E as <-; exact Logic.I].
    intro j. destruct j as [|[|[|j]]]; cbn [network_of random_nodes opt_nodes app nodes map nodetype_of mn_data nth_error nn_node].
    + unfold Input_Model.boundary_of. rewrite small_interp by lra. eexists. reflexivity.
    + unfold Input_Model.boundary_of. rewrite small_interp by lra. eexists. reflexivity.
    + unfold Input_Model.boundary_of. rewrite random_means by lra. eexists. reflexivity.
    + destruct j; exact Logic.I.
  - unfold varied_controls. f_equal. f_equal. ring.
  - intros [|[|i]] x k E Hk; [injection E as <-..|destruct i; discriminate];
      do 6 (destruct k as [|k]; [unfold entry, varied_state, varied_states, vec_of; cbn; try reflexivity; ring|]); lia.
Qed.
End Case.
