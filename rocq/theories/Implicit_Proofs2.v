(** * A continuous family of states is a differentiable one *)
From Coq Require Import List Arith Reals Lra Lia.
From Coquelicot Require Import Coquelicot.
From Verif Require Import Base Interp_Model Interp_Spec Interp_Proofs Interp_Proofs2 Adjoint_Model Adjoint_Spec Adjoint_Proofs Adjoint_Proofs2
  Adjoint_Proofs3 Implicit_Spec Implicit_Proofs.
Import ListNotations.
Open Scope R_scope.

Section Continuous.
Variables (p : problem) (solve : solver_type) (st ct : list R) (pairs : list (nat * R)).
Variables (W : R -> list R) (W' : nat -> nat -> R) (X : R -> list R).
Hypothesis Hinc : increasing st.
Hypothesis Huinc : increasing ct.
Hypothesis Hpairs : compute_index_lambda_vector ct st = Ok pairs.
Hypothesis Hsol : solver_correct (nx p) solve.
Hypothesis Hfam : continuous_family p st ct W W' X.
Let cv s := mk_ivec ct (nu p) (W s).
Let xv s := mk_ivec st (nx p) (X s).
Hypothesis Hacc : solver_accepts p solve st (cv 0) (xv 0).
Hypothesis Hright : right_derivatives p st (cv 0) (xv 0).

Lemma continuous_row i : (i < length st)%nat -> forall k, (k < nx p)%nat -> ex_derive (fun s => entry (X s) (nx p) i k) 0.
Proof.
  induction i as [|i IH]; intros Hi k Hk.
  - apply (ex_derive_ext (fun _ => entry (X 0) (nx p) 0 k)); [|apply ex_derive_const].
    intro s. symmetry. apply (cf_start _ _ _ _ _ _ Hfam). exact Hk.
  - assert (Hi' : (i < length st)%nat) by lia. specialize (IH Hi').
    destruct (nth_error_lt st i Hi') as [t0 H0]. destruct (nth_error_lt st (S i) Hi) as [t1 H1].
    pose proof (fun s => interp_grid st (nx p) (X s) i t0 Hinc (cf_X_table _ _ _ _ _ _ Hfam s) H0) as R0.
    pose proof (fun s => interp_grid st (nx p) (X s) (S i) t1 Hinc (cf_X_table _ _ _ _ _ _ Hfam s) H1) as R1.
    destruct (omapM_nth _ _ _ Hpairs) as [_ P]. destruct (P (S i) t1 H1) as ([q la] & _ & Eq).
    pose proof (fun s => control_at_time ct (nu p) (W s) t1 q la Huinc (cf_W_table _ _ _ _ _ _ Hfam s) Eq) as RU.
    set (a := fun s => vec_of (row_of (xv s) t0)). set (b := fun s => vec_of (row_of (xv s) t1)). set (c := fun s => vec_of (row_of (cv s) t1)).
    destruct (Hright i t0 t1 _ _ _ H0 H1 (proj1 (R0 0)) (proj1 (R1 0)) (proj1 (RU 0))) as [HJ _].
    set (A := d_new p t0 t1 (a 0) (b 0) (c 0)).
    set (Bk := fun j => match solve (fun k e => A e k) (fun i => if (i =? j)%nat then 1 else 0) with Some x => x | None => fun _ => 0 end).
    assert (HB : forall w j, (j < nx p)%nat -> Rsum (nx p) (fun e => Bk j e * inner (nx p) (A e) w) = w j).
    { intros w j Hj. unfold Bk. destruct (solve (fun k e => A e k) (fun i => if (i =? j)%nat then 1 else 0)) as [x|] eqn:S.
      - pose proof (Hsol _ _ _ S) as Q. unfold inner in *.
        transitivity (Rsum (nx p) (fun k => w k * Rsum (nx p) (fun e => A e k * x e))).
        + rewrite (Rsum_ext _ _ (fun e => Rsum (nx p) (fun k => x e * (A e k * w k)))) by (intros; symmetry; apply Rsum_scal).
          rewrite Rsum_swap. apply Rsum_ext. intros j' _. rewrite <- Rsum_scal. apply Rsum_ext. intros. ring.
        + rewrite (Rsum_ext _ _ (fun k => w k * (if (k =? j)%nat then 1 else 0))) by (intros k' Hk'; rewrite (Q k' Hk'); reflexivity).
          apply (Rsum_single _ _ j); auto. intros k' _. destruct (Nat.eqb_spec k' j); subst; ring.
      - exfalso. revert S. apply (Hacc i t0 t1 _ _ _ _ H0 H1 (proj1 (R0 0)) (proj1 (R1 0)) (proj1 (RU 0))). }
    assert (Ca : curve_through (nx p) a (a 0) (fun k => Derive (fun s => entry (X s) (nx p) i k) 0)).
    { split; auto. intros j Hj. apply (is_derive_ext (fun s => entry (X s) (nx p) i j)).
      - intro s. symmetry. apply (proj2 (R0 s) j Hj).
      - apply Derive_correct. apply IH. exact Hj. }
    assert (Cc : curve_through (nu p) c (c 0) (fun k => weighted q la (fun j => W' j k))).
    { destruct (RU 0) as (_ & Hq & Hl & _). split; auto. intros j Hj. apply (is_derive_ext (fun s => weighted q la (fun j' => entry (W s) (nu p) j' j))).
      - intro s. symmetry. apply (proj2 (proj2 (proj2 (RU s))) j Hj).
      - apply (is_derive_weighted _ _ (fun j' s => entry (W s) (nu p) j' j) (fun j' => W' j' j)).
        + apply (cf_W_derive _ _ _ _ _ _ Hfam); auto.
        + intro. apply (cf_W_derive _ _ _ _ _ _ Hfam); auto. lia. }
    assert (D : is_derive (fun s => b s k) 0
       (vstar (nx p) (nu p) (d_last p t0 t1 (a 0) (b 0) (c 0)) (d_control p t0 t1 (a 0) (b 0) (c 0)) Bk
          (fun k => Derive (fun s => entry (X s) (nx p) i k) 0) (fun k => weighted q la (fun j => W' j k)) k)).
    { apply (implicit_derivative (nx p) (nu p) (residual p t0 t1) (a 0) (b 0) (c 0) _ A _ Bk HJ HB a b c _ _ Ca Cc eq_refl).
      - intros j Hj. apply (continuous_ext (fun s => entry (X s) (nx p) (S i) j)).
        + intro s. symmetry. apply (proj2 (R1 s) j Hj).
        + apply (cf_X_continuous _ _ _ _ _ _ Hfam); auto.
      - generalize (cf_solves _ _ _ _ _ _ Hfam). apply filter_imp. intros s Hs e He.
        apply (Hs i t0 t1 _ _ _ H0 H1 (proj1 (R0 s)) (proj1 (R1 s)) (proj1 (RU s))). exact He.
      - exact Hk. }
    eexists. apply (is_derive_ext (fun s => b s k)); [|exact D]. intro s. apply (proj2 (R1 s) k Hk).
Qed.

Lemma continuous_is_smooth : smooth_family p st ct W W' X.
Proof.
  constructor.
  - apply (cf_W_table _ _ _ _ _ _ Hfam).
  - apply (cf_X_table _ _ _ _ _ _ Hfam).
  - apply (cf_W_derive _ _ _ _ _ _ Hfam).
  - intros i k Hi Hk. apply continuous_row; auto.
  - apply (cf_start _ _ _ _ _ _ Hfam).
  - apply (cf_solves _ _ _ _ _ _ Hfam).
Qed.
End Continuous.
