(** * Networks whose states depend continuously on the controls *)
From Coq Require Import Reals Lra Lia List Arith Bool FunctionalExtensionality Classical.
From Coquelicot Require Import Coquelicot.
From Verif Require Import Base Interp_Model Calc Net_Model Net_Spec Cost_Model Cost_Spec Cost_Proofs Interp_Spec Interp_Proofs Interp_Proofs2
  Jac_Model Ctimes_Model Adjoint_Model Adjoint_Spec Adjoint_Proofs Adjoint_Proofs3 Adjoint_Proofs4 Whole_Model Whole_Spec Whole_Proofs2 Whole_Proofs3
  Implicit_Spec Implicit_Proofs2.
Import ListNotations.
Local Open Scope R_scope.

Section Whole.
Variables (N : network) (sinks : list nat) (st ct : list R) (W : R -> list R) (W' : nat -> nat -> R) (X : R -> list R).
Let n := number_of_states N.
Let m := number_of_controls N.
Let P := network_problem N sinks.
Hypothesis Hst : increasing st.
Hypothesis Hct : increasing ct.
Hypothesis HT : regular_trajectory N st (X 0).
Hypothesis HS : constrained_nodes N sinks.
Hypothesis HF : continuous_network_family N st ct W W' X.

Lemma continuous_right : right_derivatives P st (mk_ivec ct (nu P) (W 0)) (mk_ivec st (nx P) (X 0)).
Proof.
  destruct HT as [HW [HP HR]].
  intros i t0 t1 xl xn u H0 H1 E0 E1 E2. cbn [nx nu ng P network_problem] in *. fold n m in E0, E1, E2 |- *.
  destruct (interp_row st n (X 0) (S i) t1 Hst (cn_X_table _ _ _ _ _ _ HF 0) H1) as [r [Er Vr]].
  rewrite E1 in Er. injection Er as <-. destruct (HR i t1 H1) as [HB HG].
  split; [|split; [|split]].
  - apply (network_residual N sinks HW HP); [exact HB|]. rewrite Vr. fold n. rewrite cut_row. exact HG.
  - apply (network_cost N sinks).
  - apply (network_penalty N sinks).
  - intros r Hr. apply (network_constraint N sinks HW HS). exact Hr.
Qed.

Lemma continuous_whole : continuous_family P st ct W W' X.
Proof.
  destruct HT as [HW [HP HR]]. constructor; cbn [nx nu P network_problem]; fold n m.
  - apply (cn_W_table _ _ _ _ _ _ HF).
  - apply (cn_X_table _ _ _ _ _ _ HF).
  - apply (cn_W_derive _ _ _ _ _ _ HF).
  - apply (cn_X_continuous _ _ _ _ _ _ HF).
  - apply (cn_start _ _ _ _ _ _ HF).
  - generalize (cn_solves _ _ _ _ _ _ HF). apply filter_imp. intros s H i t0 t1 xl xn u H0 H1 E0 E1 E2 e He.
    destruct (interp_row st n (X s) i t0 Hst (cn_X_table _ _ _ _ _ _ HF s) H0) as [r [Er Vr]].
    rewrite E0 in Er. injection Er as <-.
    destruct (interp_row st n (X s) (S i) t1 Hst (cn_X_table _ _ _ _ _ _ HF s) H1) as [r' [Er' Vr']].
    rewrite E1 in Er'. injection Er' as <-.
    destruct (interp_control ct m (W s) t1 u Hct (cn_W_table _ _ _ _ _ _ HF s) E2) as [C L].
    destruct (HR i t1 H1) as [HB _].
    apply (proj2 (residual_zero N sinks HW HP t0 t1 (vec_of xl) (vec_of xn) (vec_of u) HB)); [|exact He].
    rewrite Vr, Vr', !cut_row. rewrite cut_vec_of by exact L. apply H; auto.
Qed.

Lemma continuous_network solve pairs : compute_index_lambda_vector ct st = Ok pairs -> solver_correct n solve ->
  solver_accepts P solve st (mk_ivec ct m (W 0)) (mk_ivec st n (X 0)) -> network_family N st ct W W' X.
Proof.
  intros Hp Hs Ha. constructor.
  - apply (cn_W_table _ _ _ _ _ _ HF).
  - apply (cn_X_table _ _ _ _ _ _ HF).
  - apply (cn_W_derive _ _ _ _ _ _ HF).
  - intros i k Hi Hk. apply (continuous_row P solve st ct pairs W W' X Hst Hct Hp Hs continuous_whole Ha continuous_right i Hi k Hk).
  - apply (cn_start _ _ _ _ _ _ HF).
  - apply (cn_solves _ _ _ _ _ _ HF).
Qed.
End Whole.
