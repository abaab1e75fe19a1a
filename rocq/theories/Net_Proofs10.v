(** Statements about single components. *)
From Coq Require Import Reals Lra Lia List Arith Permutation.
From Coquelicot Require Import Coquelicot.
From Verif Require Import Base Interp_Model Interp_Proofs Calc Euler_Model Euler_Spec Euler_Proofs Euler_Proofs2
  Box_Model Box_Spec Box_Proofs Net_Model Net_Spec Net_Proofs Net_Proofs2 Net_Proofs3 Net_Proofs4 Net_Proofs5
  Net_Proofs6 Net_Proofs7 Net_Proofs8 Net_Proofs9.
Import ListNotations.
Local Open Scope R_scope.

Definition unit_vec (c : nat) : vec := fun k => if Nat.eqb k c then 1 else 0.
Lemma line_curve u dx : curve_at (fun t k => u k + t * dx k) 0 u dx.
Proof.
  split; intro k; [ring|]. eapply is_derive_value.
  - apply (is_derive_plus (fun _ => u k) (fun t => t * dx k)); [apply is_derive_const|].
    apply (is_derive_scal_l (fun t => t) 0 1 (dx k)). apply (@is_derive_id R_AbsRing).
  - match goal with |- @eq _ (plus zero (scal 1 ?b)) ?e => change (@eq R (0 + 1 * b) e) end. ring.
Qed.
Lemma tdot_unit ts r c : tdot ts r (unit_vec c) = matrix_of ts r c.
Proof.
  induction ts as [|[[r' c'] v] ts IH]; [reflexivity|]. rewrite tdot_cons, IH. cbn [fst snd].
  unfold matrix_of at 2. cbn [fold_right fst snd]. fold (matrix_of ts r c). unfold unit_vec.
  destruct (Nat.eqb r' r), (Nat.eqb c' c); cbn [andb]; ring.
Qed.
Lemma matrix_col n ts r c : cols_lt n ts -> (n <= c)%nat -> matrix_of ts r c = 0.
Proof.
  intros H Hc. induction ts as [|[[r' c'] v] ts IH]; [reflexivity|].
  unfold matrix_of. cbn [fold_right fst snd]. fold (matrix_of ts r c).
  rewrite IH by (intros t Ht; apply H; right; auto).
  specialize (H (r', c', v) (or_introl eq_refl)). cbn in H.
  destruct (Nat.eqb_spec c' c); [lia|]. rewrite Bool.andb_false_r. ring.
Qed.

Lemma jac_component n rows ev u dj : jac_ok n rows ev u dj -> NoDup rows -> component_jacobian n rows ev u dj.
Proof.
  intros [W [ts [d [Hd [E [Ed [C [A G]]]]]]]] ND. exists ts, d, W. split; [exact Ed|]. split; [exact Hd|].
  split; [|split].
  - intros x Hx. split; [apply E; exact Hx|apply A].
  - intros r c H. destruct (le_lt_dec n c) as [Hc|Hc]; [eapply matrix_col; eauto|].
    assert (Hr : ~ In r rows) by tauto. rewrite <- tdot_unit.
    pose proof (G r _ _ _ (line_curve u (unit_vec c))) as D.
    assert (D0 : is_derive (fun _ : R => 0) 0 (tdot ts r (unit_vec c))).
    { eapply is_derive_ext; [|exact D]. intro t. cbv beta. rewrite wsum_outside; [reflexivity|apply A|].
      rewrite (proj1 (A _)). exact Hr. }
    apply is_derive_unique in D0. rewrite Derive_const in D0. congruence.
  - intros r v Hr. apply (gradient_ext n (fun x => wsum (W x) r)).
    + intro x. apply run_assigned; [apply A| |]; rewrite (proj1 (A x)); auto.
    + apply gradient_entries; [exact C|]. intros x s dx Hx. apply G. exact Hx.
Qed.

(** ** Pipes *)
Lemma oconcat_in {A} (l : list (outcome (list A))) : forall ws t, oconcat l = Ok ws -> In t ws ->
  exists a, In (Ok a) l /\ In t a.
Proof.
  induction l as [|o l IH]; intros ws t H Ht.
  - cbn in H. assert (ws = []) by congruence. subst. destruct Ht.
  - change (oconcat (o :: l)) with (oapp o (oconcat l)) in H. unfold oapp in H.
    destruct o as [a| |]; cbn [obind] in H; try discriminate.
    destruct (oconcat l) as [b| |] eqn:E; cbn [obind] in H; try discriminate.
    assert (ws = a ++ b) by congruence. subst. apply in_app_iff in Ht. destruct Ht as [Ht|Ht].
    + exists a. split; [left; auto|auto].
    + destruct (IH b t eq_refl Ht) as [a' [H1 H2]]. exists a'. split; [right; auto|auto].
Qed.
Lemma pipe_loop_in {A} e np (body : nat -> outcome (list A)) ws t : pipe_size e np ->
  pipe_loop e body = Ok ws -> In t ws ->
  exists m a, (m + 1 < np)%nat /\ body (ge_start e + 1 + 2 * m)%nat = Ok a /\ In t a.
Proof.
  intros Hs H Ht. unfold pipe_loop in H. rewrite (pipe_indices_ok e np Hs) in H. cbn [obind] in H.
  destruct (oconcat_in _ _ _ H Ht) as [a [H1 H2]]. apply in_map_iff in H1. destruct H1 as [i [H1 H3]].
  unfold pipe_rows in H3. apply in_map_iff in H3. destruct H3 as [m [<- H3]]. apply in_seq in H3.
  exists m, a. split; [lia|auto].
Qed.
Lemma cell_entries_inside e np m l r t : pipe_size e np -> (m + 1 < np)%nat ->
  In t (cell_entries (ge_start e + 1 + 2 * m) l r) ->
  (ge_start e < fst (fst t) < ge_after e - 1)%nat /\ (ge_start e <= snd (fst t) < ge_after e)%nat.
Proof.
  intros [H1 H2] Hm H. unfold cell_entries in H. cbn [In] in H.
  repeat (destruct H as [<-|H]; [cbn [fst snd]; lia|]). destruct H.
Qed.
Lemma pipe_inside e np bl dx t0 t1 last new ts t : pipe_size e np ->
  pipe_loop e (cell_d_new_state bl dx t0 t1 last new) = Ok ts \/
  pipe_loop e (cell_d_last_state bl dx t0 t1 last new) = Ok ts ->
  In t ts ->
  (ge_start e < fst (fst t) < ge_after e - 1)%nat /\ (ge_start e <= snd (fst t) < ge_after e)%nat.
Proof.
  intros Hs [H|H] Ht; destruct (pipe_loop_in e np _ _ _ Hs H Ht) as [m [a [Hm [Ea Ha]]]].
  - unfold cell_d_new_state in Ea.
    destruct (devaluate_point_d_new_left bl t0 t1 dx (seg last (ge_start e + 1 + 2 * m - 1))
      (seg last (ge_start e + 1 + 2 * m + 1)) (seg new (ge_start e + 1 + 2 * m - 1)) (seg new (ge_start e + 1 + 2 * m + 1)))
      as [l| |]; cbn [obind] in Ea; try discriminate.
    destruct (devaluate_point_d_new_right bl t0 t1 dx (seg last (ge_start e + 1 + 2 * m - 1))
      (seg last (ge_start e + 1 + 2 * m + 1)) (seg new (ge_start e + 1 + 2 * m - 1)) (seg new (ge_start e + 1 + 2 * m + 1)))
      as [r| |]; cbn [obind] in Ea; try discriminate.
    assert (a = cell_entries (ge_start e + 1 + 2 * m) l r) by congruence. subst a.
    eapply cell_entries_inside; eauto.
  - unfold cell_d_last_state in Ea.
    destruct (devaluate_point_d_last_left bl t0 t1 dx (seg last (ge_start e + 1 + 2 * m - 1))
      (seg last (ge_start e + 1 + 2 * m + 1)) (seg new (ge_start e + 1 + 2 * m - 1)) (seg new (ge_start e + 1 + 2 * m + 1)))
      as [l| |]; cbn [obind] in Ea; try discriminate.
    destruct (devaluate_point_d_last_right bl t0 t1 dx (seg last (ge_start e + 1 + 2 * m - 1))
      (seg last (ge_start e + 1 + 2 * m + 1)) (seg new (ge_start e + 1 + 2 * m - 1)) (seg new (ge_start e + 1 + 2 * m + 1)))
      as [r| |]; cbn [obind] in Ea; try discriminate.
    assert (a = cell_entries (ge_start e + 1 + 2 * m) l r) by congruence. subst a.
    eapply cell_entries_inside; eauto.
Qed.
Lemma seq_nodup_pipe e : NoDup (seq (ge_start e + 1) (ge_after e - ge_start e - 2)).
Proof. apply seq_NoDup. Qed.
(** The pipe's evaluation with any law: one plain assignment per interior row. *)
Lemma pipe_writes e np bl dx t0 t1 last new : pipe_size e np ->
  (forall j, (j < np)%nat -> exists s, bl_source bl (point e j new) = Ok s) ->
  exists ws, pipe_loop e (cell_evaluate bl dx t0 t1 last new) = Ok ws /\
    map write_index ws = seq (ge_start e + 1) (2 * np - 2) /\
    forall w, In w ws -> exists i r, w = Assign i r.
Proof.
  intros Hs HL. unfold pipe_loop. rewrite (pipe_indices_ok e np Hs). cbn [obind].
  assert (R : seq (ge_start e + 1) (2 * np - 2) = flat_map (fun i => [i; (i + 1)%nat]) (pipe_rows e np)).
  { rewrite pipe_rows_seq by exact Hs. destruct Hs as [H1 H2]. f_equal. lia. }
  rewrite R. clear R.
  assert (C : forall i, In i (pipe_rows e np) -> exists r : vec,
    cell_evaluate bl dx t0 t1 last new i = Ok [Assign i (r 0%nat); Assign (i + 1)%nat (r 1%nat)]).
  { intros i Hi. unfold pipe_rows in Hi. apply in_map_iff in Hi. destruct Hi as [m [<- Hm]]. apply in_seq in Hm.
    destruct (HL m ltac:(lia)) as [s1 E1]. destruct (HL (m + 1)%nat ltac:(lia)) as [s2 E2]. unfold point in *.
    unfold cell_evaluate.
    match goal with |- exists r, omap _ ?o = _ => destruct o as [r| |] eqn:E; [exists r; reflexivity| |] end;
      exfalso; unfold evaluate_point in E;
      replace (ge_start e + 1 + 2 * m - 1)%nat with (ge_start e + 2 * m)%nat in E by lia;
      replace (ge_start e + 1 + 2 * m + 1)%nat with (ge_start e + 2 * (m + 1))%nat in E by lia;
      rewrite E1, E2 in E; cbn [obind] in E; discriminate. }
  induction (pipe_rows e np) as [|i l IH].
  - exists []. repeat split; auto. intros w [].
  - destruct IH as [ws [E1 [E2 E3]]]; [intros; apply C; right; auto|].
    destruct (C i (or_introl eq_refl)) as [r Er].
    exists ([Assign i (r 0%nat); Assign (i + 1)%nat (r 1%nat)] ++ ws). split; [|split].
    + change (oconcat (map (cell_evaluate bl dx t0 t1 last new) (i :: l)))
        with (oapp (cell_evaluate bl dx t0 t1 last new i) (oconcat (map (cell_evaluate bl dx t0 t1 last new) l))).
      rewrite Er, E1. reflexivity.
    + cbn [app map flat_map write_index]. rewrite E2. reflexivity.
    + intros w Hw. apply in_app_iff in Hw. destruct Hw as [[<-|[<-|[]]]|Hw]; eauto.
Qed.

(** ** Conversion *)
Lemma gp_slope_pos g2p p2g q : sqrt 2 * Rabs (p2g - g2p) < p2g + g2p -> 0 < dgp g2p p2g q.
Proof.
  intro H. set (D := p2g - g2p) in *. set (s := sqrt 2) in *.
  assert (Hs : s * s = 2) by (apply sqrt_sqrt; lra).
  assert (s0 : 0 < s) by (apply sqrt_lt_R0; lra).
  assert (s1 : 1 < s) by nra.
  pose proof (Rabs_pos D) as HD. pose proof (Rle_abs D) as HD1. pose proof (Rle_abs (- D)) as HD2. rewrite Rabs_Ropp in HD2.
  assert (HA : Rabs D <= s * Rabs D) by nra.
  assert (g2p > 0 /\ p2g > 0) as [Hg Hp] by (unfold D in *; lra).
  destruct (Rle_dec kappa q) as [K1|K1]; [rewrite (proj2 (gp_high g2p p2g q K1)); lra|].
  destruct (Rle_dec q (- kappa)) as [K2|K2]; [rewrite (proj2 (gp_low g2p p2g q K2)); lra|].
  rewrite (proj2 (gp_mid g2p p2g q ltac:(lra))). unfold dpoly. fold D. pose proof kappa_pos as KP.
  set (r := q / kappa).
  assert (Hr : -1 <= r <= 1).
  { unfold r. split; [apply (Rmult_le_reg_r kappa)|apply (Rmult_le_reg_r kappa)]; try lra;
      replace (q / kappa * kappa) with q by (field; lra); lra. }
  set (c := s / 2). assert (Hc : c * c = 1 / 2) by (unfold c; lra). assert (c0 : 0 < c) by (unfold c; lra).
  assert (c1 : 1 / 2 < c) by (unfold c; lra).
  set (w := 3 / 2 * r - r * r * r).
  assert (W1 : w <= c).
  { assert (Q : c - w = (r - c) * (r - c) * (r + 2 * c)).
    { unfold w. transitivity (r * r * r - 3 * (c * c) * r + 2 * (c * c) * c); [rewrite Hc; field|ring]. }
    pose proof (Rmult_le_pos _ _ (Rle_0_sqr (r - c)) (ltac:(lra) : 0 <= r + 2 * c)) as M. unfold Rsqr in M. lra. }
  assert (W2 : - c <= w).
  { assert (Q : w + c = (r + c) * (r + c) * (2 * c - r)).
    { unfold w. transitivity (- (r * r * r) + 3 * (c * c) * r + 2 * (c * c) * c); [rewrite Hc; field|ring]. }
    pose proof (Rmult_le_pos _ _ (Rle_0_sqr (r + c)) (ltac:(lra) : 0 <= 2 * c - r)) as M. unfold Rsqr in M. lra. }
  replace (1 / 2 * (g2p + p2g) - 3 / 2 * D * r + D * r * r * r) with (1 / 2 * (g2p + p2g) - D * w) by (unfold w; field).
  assert (DW : D * w <= Rabs D * c).
  { apply Rle_trans with (Rabs (D * w)); [apply Rle_abs|]. rewrite Rabs_mult.
    apply Rmult_le_compat_l; [lra|]. apply Rabs_le. lra. }
  unfold c in DW. nra.
Qed.
Lemma gp_increasing g2p p2g q q' : sqrt 2 * Rabs (p2g - g2p) < p2g + g2p -> q < q' ->
  gp g2p p2g q < gp g2p p2g q'.
Proof.
  intros H Hq. destruct (MVT_gen (gp g2p p2g) q q' (dgp g2p p2g)) as [c [_ Hc]].
  - intros x _. apply gp_derive.
  - intros x _. apply continuity_pt_filterlim. apply (ex_derive_continuous (gp g2p p2g)).
    eexists. apply gp_derive.
  - pose proof (gp_slope_pos g2p p2g c H). nra.
Qed.

Lemma vanishes_run ws rows : assigned ws = rows -> adds_ok [] ws -> NoDup rows ->
  ((forall r v, In r rows -> run_writes ws v r = 0) <-> vanishes ws).
Proof.
  intros E A ND. subst rows. unfold vanishes. split.
  - intros H r Hr. rewrite <- (run_assigned ws (fun _ => 0) r A ND Hr). auto.
  - intros H r v Hr. rewrite run_assigned by auto. auto.
Qed.
Lemma flow_rows_nodup att : NoDup (map end_row att) -> NoDup (flow_rows att).
Proof. intro H. eapply Permutation_NoDup; [apply Permutation_sym, flow_rows_perm|exact H]. Qed.
