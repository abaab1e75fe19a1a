(** * Jacobians of flux and pressure away from the pole of the equation of state *)
From Coq Require Import Reals Lra Lia.
From Coquelicot Require Import Coquelicot.
From Verif Require Import Base Interp_Model Interp_Proofs Calc Euler_Model Euler_Spec Euler_Proofs.
Local Open Scope R_scope.

Lemma p_derive_nonzero r : 1 - alpha * c_vac_squared * r <> 0 -> is_derive p r (dp_drho r).
Proof. intro H. unfold p, dp_drho. cbv zeta. auto_derive; [lra|]. field. lra. Qed.

Lemma flux_jacobian_nonzero d u :
  0 < d -> u 0%nat <> 0 -> 1 - alpha * c_vac_squared * u 0%nat <> 0 ->
  jacobian 2 2 (flux d) u (dflux_dstate d u).
Proof.
  intros Hd Hu Hok i Hi x s dx [Hx Hdx].
  pose proof (area_pos d Hd) as HA. pose proof rho_0_pos as Hr.
  rewrite vsum2. specialize (Hx 0%nat) as Hx0. specialize (Hx 1%nat) as Hx1.
  specialize (Hdx 0%nat) as D0. specialize (Hdx 1%nat) as D1.
  destruct i as [|[|i]]; [| |lia]; unfold flux, dflux_dstate; cbn [v2 m2].
  - eapply is_derive_value; [apply is_derive_scal; exact D1|]. ring.
  - pose proof (is_derive_along p (fun r => x r 0%nat) s (u 0%nat) _ _ Hx0 (p_derive_nonzero _ Hok) D0) as DP.
    set (A := circle_area (/ 2 * d)) in *.
    set (rr := fun r => x r 0%nat) in *. set (qq := fun r => x r 1%nat) in *.
    assert (DQ : is_derive (fun r => rho_0 / A * qq r * qq r / rr r) s
       (- (rho_0 / A) * u 1%nat * u 1%nat / (u 0%nat * u 0%nat) * dx 0%nat
        + 2 * rho_0 / A * u 1%nat / u 0%nat * dx 1%nat)).
    { assert (E0 : ex_derive rr s) by (exists (dx 0%nat); exact D0).
      assert (E1 : ex_derive qq s) by (exists (dx 1%nat); exact D1).
      auto_derive.
      - repeat split; auto. unfold rr. rewrite Hx0. exact Hu.
      - change (fun x0 : R => qq x0) with qq. change (fun x0 : R => rr x0) with rr.
        replace (Derive qq s) with (dx 1%nat) by (symmetry; apply is_derive_unique; exact D1).
        replace (Derive rr s) with (dx 0%nat) by (symmetry; apply is_derive_unique; exact D0).
        change (qq s) with (x s 1%nat). change (rr s) with (x s 0%nat). rewrite Hx0, Hx1.
        field. split; lra. }
    eapply is_derive_value.
    + apply (is_derive_plus (fun r => A / rho_0 * p (rr r)) (fun r => rho_0 / A * qq r * qq r / rr r)).
      * apply is_derive_scal. exact DP.
      * exact DQ.
    + unfold plus; cbn. field. repeat split; lra.
Qed.

Lemma p_qvol_jacobian_nonzero u :
  1 - alpha * c_vac_squared * u 0%nat <> 0 -> jacobian 2 2 p_qvol u (dp_qvol_dstate u).
Proof.
  intros Hok i Hi x s dx [Hx Hdx]. rewrite vsum2.
  destruct i as [|[|i]]; [| |lia]; unfold p_qvol, dp_qvol_dstate; cbn [v2 m2].
  - eapply is_derive_value;
      [apply (is_derive_along p (fun r => x r 0%nat) s (u 0%nat)); auto; apply p_derive_nonzero; auto|].
    ring.
  - eapply is_derive_value; [apply Hdx|]. ring.
Qed.
