(** * A variation of the controls in the case of C98 *)
From Coq Require Import Reals ZArith Lra Lia List Arith Bool String FunctionalExtensionality.
From Coquelicot Require Import Coquelicot.
From Verif Require Import Base Interp_Model Interp_Spec Calc Net_Model Net_Spec Whole_Spec Sim_Spec States_Model Input_Model Input_Proofs5 Setup_Model Setup_Proofs2 Answer_Spec.
Import ListNotations.
Local Open Scope R_scope.

Definition opt_varied (s : R) : list R := [50; 3; 60; 3; 50; 3; 60 + s / 2; 3; 50; 3; 60 + s; 3].
Lemma opt_equations t0 t1 last s u : 0 <= t1 <= 2 -> u 0%nat = 10 + s -> network_equations opt_network t0 t1 last (vec_of [50; 3; 60 + s; 3]) u.
Proof.
  intros Ht Hu. split.
  - intros j t E. destruct j as [|[|j]]; [injection E as <-..|destruct j; discriminate].
    + intros _. eexists. split; [unfold Input_Model.boundary_of; rewrite small_interp by lra; reflexivity|]. split.
      * exists (60 + s). intros [|i] e d Ee _ Td; [|destruct i; discriminate]. injection Ee as <-. destruct d; cbn in Td; [discriminate|]. reflexivity.
      * cbn. ring.
    + intros _. eexists. split; [unfold Input_Model.boundary_of; rewrite small_interp by lra; reflexivity|].
      intros [|i] e d Ee _ Td; [|destruct i; discriminate]. injection Ee as <-. destruct d; cbn in Td; [|discriminate]. reflexivity.
  - intros [|i] e E; [|destruct i; discriminate]. injection E as <-. cbn. rewrite Hu. split; ring.
Qed.
Lemma opt_variation : variation opt_network [0; 1; 2] [0; 2] [10; 10] [vec_of [50; 3; 60; 3]; vec_of [50; 3; 60; 3]; vec_of [50; 3; 60; 3]]
  (fun s => [10; 10 + s]) (fun j _ => INR j) opt_varied.
Proof.
  assert (R1 : forall s, row (opt_varied s) (number_of_states opt_network) 1 = vec_of [50; 3; 60 + s / 2; 3]).
  { intro s. apply functional_extensionality. intro k. change (number_of_states opt_network) with 4%nat. do 4 (destruct k as [|k]; [reflexivity|]). unfold row, vec_of. cbn. destruct k; reflexivity. }
  assert (R2 : forall s, row (opt_varied s) (number_of_states opt_network) 2 = vec_of [50; 3; 60 + s; 3]).
  { intro s. apply functional_extensionality. intro k. change (number_of_states opt_network) with 4%nat. do 4 (destruct k as [|k]; [reflexivity|]). unfold row, vec_of. cbn. destruct k; reflexivity. }
  assert (C : forall s t u, 0 < t <= 2 -> control_at [0; 2] (number_of_controls opt_network) [10; 10 + s] t u -> u 0%nat = 10 + s * (t / 2)).
  { intros s t u Ht [H _]. specialize (H 0%nat ltac:(cbn; lia)). change (number_of_controls opt_network) with 1%nat in H.
    destruct H as [(i & E & ->)|[(i & a & b & E1 & E2 & L & ->)|[(a & E & L & _)|(n & b & E & Ln & L & _)]]].
    - destruct i as [|[|i]]; [injection E as <-; lra|injection E as <-; unfold entry; cbn; field|destruct i; discriminate].
    - destruct i as [|i]; [injection E1 as <-; injection E2 as <-; unfold entry; cbn; field|destruct i; discriminate].
    - injection E as <-. lra.
    - injection Ln as <-. injection E as <-. lra. }
  change (number_of_states opt_network) with 4%nat in *. change (number_of_controls opt_network) with 1%nat in *.
  split; [|split; [split; [|split]|split]].
  - constructor; change (number_of_states opt_network) with 4%nat; change (number_of_controls opt_network) with 1%nat.
    + intro; reflexivity.
    + intro; reflexivity.
    + intros [|[|j]] [|k] Hj Hk; cbn in Hj, Hk; try lia; unfold entry; cbn; auto_derive; auto.
    + intros [|[|[|i]]] k Hi Hk; cbn in Hi; try lia; do 4 (destruct k as [|k]; [unfold entry; cbn; auto_derive; auto|]); lia.
    + intros s k Hk. do 4 (destruct k as [|k]; [reflexivity|]). lia.
    + apply filter_forall. intros s i t0 t1 u E0 E1 Hu. destruct i as [|[|i]]; [| |destruct i; discriminate]; injection E0 as <-; injection E1 as <-.
      * rewrite R1. apply opt_equations; [lra|]. rewrite (C s 1 u); [field|lra|exact Hu].
      * rewrite R2. apply opt_equations; [lra|]. rewrite (C s 2 u); [field|lra|exact Hu].
  - unfold well_formed; cbn; repeat constructor; cbn; auto; discriminate.
  - unfold pipes_ok; cbn; repeat constructor.
  - intros i t H. assert (T : 0 <= t <= 2) by (destruct i as [|[|i]]; [injection H as <-; lra..|destruct i; discriminate]).
    split; [|intros [|j] e E; [|destruct j; discriminate]; injection E as <-; exact Logic.I].
    intro j. destruct j as [|[|j]]; cbn [network_of opt_network opt_nodes nodes map nodetype_of mn_data nth_error].
    + unfold Input_Model.boundary_of. rewrite small_interp by lra. eexists. reflexivity.
    + unfold Input_Model.boundary_of. rewrite small_interp by lra. eexists. reflexivity.
    + destruct j; exact Logic.I.
  - f_equal. f_equal. ring.
  - intros [|[|[|i]]] x k E Hk; [injection E as <-..|destruct i; discriminate]; change (number_of_states opt_network) with 4%nat in *;
      do 4 (destruct k as [|k]; [unfold entry, opt_varied, vec_of; cbn; try reflexivity; field|]); lia.
Qed.
