From Coq Require Import Reals Lra Lia List Arith.
From Coquelicot Require Import Coquelicot.
From Verif Require Import Base Calc Euler_Model Box_Model Box_Proofs Net_Model Net_Spec Net_Proofs Net_Proofs5
  Cost_Model Cost_Spec.
Import ListNotations.
Local Open Scope R_scope.

Lemma fold_rsum {A} (f : A -> R) l : forall a, fold_left (fun s k => s + f k) l a = a + rsum f l.
Proof. induction l as [|k l IH]; intro a; cbn; [ring|]. rewrite IH. ring. Qed.
Lemma cost_index N w i : In (w, i) (cost_components N) -> (i < number_of_controls N)%nat.
Proof.
  unfold cost_components. rewrite in_flat_map. intros [[k e] [H K]]. apply in_numbered in H. cbn [fst snd] in K.
  destruct (control_block_spec N k e H) as [s [E L]].
  destruct (e_type e) eqn:T; try (destruct K; fail).
  destruct K as [K|[]]. rewrite E in K. cbn [fst] in K. cbn in L. injection K as _ <-. lia.
Qed.
Lemma matrix_app a b r c : matrix_of (a ++ b) r c = matrix_of a r c + matrix_of b r c.
Proof.
  unfold matrix_of. induction a as [|t a IH]; cbn [fold_right app]; [ring|]. rewrite IH. ring.
Qed.
Lemma gradient_square n w i c : (i < n)%nat ->
  gradient n (compressor_cost w i) c (matrix_of (compressor_d_cost_d_control w i c) 0%nat).
Proof.
  intros Hi x s dx [E H]. unfold compressor_cost.
  eapply is_derive_value.
  - pose proof (H i) as Hd. apply (is_derive_mult (fun r => w * x r i) (fun r => x r i) s (w * dx i) (dx i)).
    + apply (is_derive_scal (fun r => x r i) s w (dx i)). exact Hd.
    + exact Hd.
    + intros. apply Rmult_comm.
  - cbn. rewrite !E. rewrite (vsum_ext _ _ (fun k => (if Nat.eqb k i then 1 else 0) * (2 * w * c i * dx k))).
    + rewrite (vsum_delta n i (fun k => 2 * w * c i * dx k)) by exact Hi. change plus with Rplus. change mult with Rmult. ring.
    + intros k _. rewrite (Nat.eqb_sym i k). destruct (Nat.eqb k i); ring.
Qed.
Lemma cost_gradient n (l : list (R * nat)) c : (forall w i, In (w, i) l -> (i < n)%nat) ->
  gradient n (fun u => rsum (fun k => compressor_cost (fst k) (snd k) u) l) c
    (matrix_of (flat_map (fun k => compressor_d_cost_d_control (fst k) (snd k) c) l) 0%nat).
Proof.
  induction l as [|[w i] l IH]; intro H.
  - eapply gradient_value; [exact (gradient_const n 0 c)|]. intros. reflexivity.
  - cbn [rsum flat_map fst snd]. eapply gradient_value.
    + apply gradient_plus; [apply gradient_square; apply (H w i); left; reflexivity|].
      apply IH. intros w' i' K. apply (H w' i'). right. exact K.
    + intros k _. symmetry. apply matrix_app.
Qed.
Lemma weighted_gradient weight N c :
  gradient (number_of_controls N) (evaluate_cost weight N) c
    (fun k => weight * matrix_of (d_evaluate_cost_d_control N c) 0%nat k).
Proof.
  unfold evaluate_cost. apply gradient_scal.
  eapply gradient_ext; [|apply cost_gradient; intros w i; apply cost_index].
  intro x. rewrite fold_rsum. apply Rplus_0_l.
Qed.
Lemma gradient_unique n f u g g' k : (k < n)%nat -> gradient n f u g -> gradient n f u g' -> g k = g' k.
Proof.
  intros Hk H H'.
  set (dx := fun j => if Nat.eqb j k then 1 else 0).
  set (x := fun (r : R) j => u j + r * dx j).
  assert (C : curve_at x 0 u dx).
  { split; [intro j; unfold x; ring|]. intro j. unfold x. eapply is_derive_value.
    - apply (is_derive_plus (fun _ => u j) (fun r => r * dx j)); [apply is_derive_const|].
      apply (is_derive_scal_l (fun r => r) 0 1 (dx j)). apply (is_derive_id (K := R_AbsRing)).
    - change (@eq R (0 + 1 * dx j) (dx j)). ring. }
  pose proof (is_derive_unique _ _ _ (H x 0 dx C)) as A. pose proof (is_derive_unique _ _ _ (H' x 0 dx C)) as B.
  rewrite A in B.
  assert (V : forall h : vec, vsum n (fun j => h j * dx j) = h k).
  { intro h. rewrite (vsum_ext _ _ (fun j => (if Nat.eqb j k then 1 else 0) * h j)) by (intros; unfold dx; ring).
    apply vsum_delta. exact Hk. }
  rewrite !V in B. exact B.
Qed.

Lemma assign_fst l : forall a i, (i < length l)%nat ->
  fst (nth i (fst (assign_indices a l)) (0, 0)%nat) = (a + list_sum (firstn i l))%nat.
Proof.
  induction l as [|k l IH]; intros a i H; cbn in H; [lia|]. cbn [assign_indices].
  destruct (assign_indices (a + k) l) as [bs b] eqn:E. cbn [fst].
  destruct i as [|i]; cbn [nth firstn list_sum fold_right]; [cbn; lia|].
  specialize (IH (a + k)%nat i ltac:(lia)). rewrite E in IH. cbn [fst] in IH. rewrite IH.
  unfold list_sum. lia.
Qed.
Lemma control_index N i : (i < length (edges N))%nat -> fst (control_block N i) = controls_before N i.
Proof.
  intro H. unfold control_block, control_blocks. rewrite assign_fst by (unfold control_sizes; rewrite map_length; exact H).
  cbn [Nat.add]. unfold control_sizes, controls_before. rewrite firstn_map.
  induction (firstn i (edges N)) as [|e l IH]; [reflexivity|]. cbn [map list_sum fold_right filter].
  unfold list_sum in IH. rewrite IH. destruct (e_type e); reflexivity.
Qed.
Lemma cost_value weight N c : evaluate_cost weight N c = weight * compression_cost N c.
Proof.
  unfold evaluate_cost. rewrite fold_rsum, Rplus_0_l. f_equal. unfold cost_components, compression_cost, numbered.
  assert (G : forall es a, (forall i e, nth_error es i = Some e -> nth_error (edges N) (a + i) = Some e) ->
    rsum (fun k => compressor_cost (fst k) (snd k) c)
      (flat_map (fun ie => match e_type (snd ie) with ECompressor w => [(w, fst (control_block N (fst ie)))] | _ => [] end)
         (combine (seq a (length es)) es)) =
    rsum (fun i => match nth_error (edges N) i with
                 | Some e => match e_type e with ECompressor w => w * c (controls_before N i) ^ 2 | _ => 0 end
                 | None => 0
                 end) (seq a (length es))).
  { induction es as [|e es IH]; intros a H; [reflexivity|]. cbn [length seq combine flat_map rsum fst snd].
    assert (RA : forall l m, rsum (fun k => compressor_cost (fst k) (snd k) c) (l ++ m) =
      rsum (fun k => compressor_cost (fst k) (snd k) c) l + rsum (fun k => compressor_cost (fst k) (snd k) c) m).
    { clear. induction l as [|k l IH]; intro m; cbn [app rsum]; [ring|]. rewrite IH. ring. }
    rewrite RA, IH.
    - f_equal. pose proof (H 0%nat e eq_refl) as E. rewrite Nat.add_0_r in E. rewrite E.
      destruct (e_type e); try reflexivity. cbn [rsum fst snd]. unfold compressor_cost.
      rewrite control_index by (apply nth_error_Some; rewrite E; discriminate). ring.
    - intros i e' K. rewrite Nat.add_succ_comm. apply H. exact K. }
  apply G. intros i e H. exact H.
Qed.
