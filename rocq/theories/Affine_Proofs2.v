(** Which last states lead to the same solutions. *)
From Coq Require Import Reals ZArith Lra Lia List Arith Bool.
From Verif Require Import Base Calc Euler_Model Euler_Spec Box_Model Net_Model Net_Spec.
From Verif Require Import Affine_Spec.
Import ListNotations.
Local Open Scope R_scope.

Lemma edge_alternating N i e a b t0 t1 last last' x c : nth_error (edges N) i = Some e -> alternating N a b last last' ->
  edge_equation N i e t0 t1 last x c -> edge_equation N i e t0 t1 last' x c.
Proof.
  intros He A H. unfold edge_equation in *. destruct (e_type e) as [d k dx np| | | | |] eqn:T; try exact H. cbv zeta in *.
  intros m Hm. destruct (H m Hm) as (sl & sr & E1 & E2 & E3). exists sl, sr. split; [exact E1|]. split; [exact E2|].
  intros q Hq. specialize (E3 q Hq). rewrite <- E3. clear E3. f_equal. f_equal. f_equal.
  destruct (A i e d k dx np He T m ltac:(lia)) as (A0 & A1). destruct (A i e d k dx np He T (m + 1)%nat ltac:(lia)) as (B0 & B1). cbv zeta in *.
  assert (Sg : (-1) ^ (m + 1) = - (-1) ^ m) by (rewrite pow_add; ring). rewrite Sg in B0, B1. unfold seg.
  destruct q as [|[|q]]; [| |lia].
  - rewrite !Nat.add_0_r, A0, B0. field.
  - rewrite A1, B1. field.
Qed.
Lemma alternating_equations N a b t0 t1 last last' x c : alternating N a b last last' ->
  network_equations N t0 t1 last x c -> network_equations N t0 t1 last' x c.
Proof.
  intros A (H1 & H2). split; [exact H1|]. intros i e He. eapply edge_alternating; eauto.
Qed.
Lemma same_solution N t0 t1 last last' x c : pipes_ok N -> network_equations N t0 t1 last x c -> network_equations N t0 t1 last' x c ->
  alternating N (fun i => last' (fst (edge_block N i)) - last (fst (edge_block N i)))
    (fun i => last' (fst (edge_block N i) + 1)%nat - last (fst (edge_block N i) + 1)%nat) last last'.
Proof.
  intros HP (_ & H) (_ & H') i e d k dx np He T. specialize (H i e He). specialize (H' i e He). unfold edge_equation in H, H'. rewrite T in H, H'. cbv zeta in *.
  assert (D : 0 < dx). { pose proof (proj1 (List.Forall_forall _ _) HP e (nth_error_In _ _ He)) as Q. cbn beta in Q. rewrite T in Q. apply Q. }
  set (s := fst (edge_block N i)) in *.
  assert (Step : forall m, (m + 1 < np)%nat -> forall q, (q < 2)%nat ->
    last' (s + 2 * (m + 1) + q)%nat - last (s + 2 * (m + 1) + q)%nat = - (last' (s + 2 * m + q)%nat - last (s + 2 * m + q)%nat)).
  { intros m Hm q Hq. destruct (H m Hm) as (sl & sr & E1 & E2 & E3). destruct (H' m Hm) as (sl' & sr' & E1' & E2' & E3').
    rewrite E1 in E1'. injection E1' as <-. rewrite E2 in E2'. injection E2' as <-. specialize (E3 q Hq). specialize (E3' q Hq). unfold seg in *.
    rewrite <- E3' in E3. assert (E : dx * ((last (s + 2 * m + q)%nat + last (s + 2 * (m + 1) + q)%nat) - (last' (s + 2 * m + q)%nat + last' (s + 2 * (m + 1) + q)%nat)) = 0) by lra.
    apply Rmult_integral in E. destruct E as [E|E]; lra. }
  assert (All : forall m, (m < np)%nat -> forall q, (q < 2)%nat -> last' (s + 2 * m + q)%nat - last (s + 2 * m + q)%nat = (-1) ^ m * (last' (s + q)%nat - last (s + q)%nat)).
  { induction m as [|m IH]; intros Hm q Hq; [rewrite !Nat.mul_0_r, !Nat.add_0_r; cbn; ring|].
    replace (S m) with (m + 1)%nat by lia. rewrite Step by lia. rewrite IH by lia. rewrite pow_add. ring. }
  intros m Hm. pose proof (All m Hm 0%nat ltac:(lia)) as A0. pose proof (All m Hm 1%nat ltac:(lia)) as A1. rewrite !Nat.add_0_r in A0. lra.
Qed.
