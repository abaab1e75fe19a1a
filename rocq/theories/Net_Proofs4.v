(** Short components, gas-power connections and all edges together. *)
From Coq Require Import Reals Lra Lia List Arith Permutation.
From Coquelicot Require Import Coquelicot.
From Verif Require Import Base Interp_Model Interp_Proofs Calc Euler_Model Euler_Spec Euler_Proofs Euler_Proofs2
  Box_Model Box_Spec Box_Proofs Net_Model Net_Spec Net_Proofs Net_Proofs2 Net_Proofs3.
Import ListNotations.
Local Open Scope R_scope.

(** ** Generated power *)
Definition poly (g2p p2g q : R) : R :=
  q * (1 / 2 * (g2p + p2g) - 3 / 4 * (p2g - g2p) * (q / kappa)
       + 1 / 4 * (p2g - g2p) * (q / kappa) * (q / kappa) * (q / kappa)).
Definition dpoly (g2p p2g q : R) : R :=
  1 / 2 * (g2p + p2g) - 3 / 2 * (p2g - g2p) * (q / kappa) + (p2g - g2p) * (q / kappa) * (q / kappa) * (q / kappa).
Definition gp (g2p p2g q : R) : R :=
  if Rltb kappa q then g2p * q else if Rltb q (- kappa) then p2g * q else poly g2p p2g q.
Definition dgp (g2p p2g q : R) : R :=
  if Rltb kappa q then g2p else if Rltb q (- kappa) then p2g else dpoly g2p p2g q.

Lemma kappa_pos : 0 < kappa.
Proof. unfold kappa. lra. Qed.

Lemma poly_range q : Rltb kappa q = false -> Rltb q (- kappa) = false ->
  (Rltb (kappa + EPSILON) q || Rltb q (- kappa - EPSILON))%bool = false.
Proof.
  intros H1 H2. apply Rltb_false in H1, H2. pose proof EPSILON_pos.
  rewrite (proj2 (Rltb_false _ _)) by lra. rewrite (proj2 (Rltb_false _ _)) by lra. reflexivity.
Qed.
Lemma gp_ok g2p p2g q : generated_power g2p p2g q = Ok (gp g2p p2g q).
Proof.
  unfold generated_power, gp, smoothing_polynomial.
  destruct (Rltb kappa q) eqn:E1; [reflexivity|]. destruct (Rltb q (- kappa)) eqn:E2; [reflexivity|].
  rewrite poly_range by auto. reflexivity.
Qed.
Lemma dgp_ok g2p p2g q : dgenerated_power_dq g2p p2g q = Ok (dgp g2p p2g q).
Proof.
  unfold dgenerated_power_dq, dgp, dsmoothing_polynomial_dq.
  destruct (Rltb kappa q) eqn:E1; [reflexivity|]. destruct (Rltb q (- kappa)) eqn:E2; [reflexivity|].
  rewrite poly_range by auto. reflexivity.
Qed.
Lemma gp_high g2p p2g q : kappa <= q -> gp g2p p2g q = g2p * q /\ dgp g2p p2g q = g2p.
Proof.
  intro H. unfold gp, dgp. destruct (Rltb kappa q) eqn:E; [auto|]. apply Rltb_false in E.
  assert (q = kappa) by lra. subst q. pose proof kappa_pos.
  rewrite (proj2 (Rltb_false _ _)) by lra. unfold poly, dpoly.
  replace (kappa / kappa) with 1 by (field; lra). split; field.
Qed.
Lemma gp_low g2p p2g q : q <= - kappa -> gp g2p p2g q = p2g * q /\ dgp g2p p2g q = p2g.
Proof.
  intro H. unfold gp, dgp. pose proof kappa_pos. rewrite (proj2 (Rltb_false kappa q)) by lra.
  destruct (Rltb q (- kappa)) eqn:E; [auto|]. apply Rltb_false in E.
  assert (q = - kappa) by lra. subst q. unfold poly, dpoly.
  replace (- kappa / kappa) with (-1) by (field; lra). split; field.
Qed.
Lemma gp_mid g2p p2g q : - kappa <= q <= kappa -> gp g2p p2g q = poly g2p p2g q /\ dgp g2p p2g q = dpoly g2p p2g q.
Proof.
  intro H. unfold gp, dgp. rewrite (proj2 (Rltb_false _ _)) by lra. rewrite (proj2 (Rltb_false _ _)) by lra. auto.
Qed.
Lemma poly_derive g2p p2g q : is_derive (poly g2p p2g) q (dpoly g2p p2g q).
Proof.
  unfold poly, dpoly. pose proof kappa_pos. auto_derive; [repeat split; lra|]. field. lra.
Qed.
Lemma linear_derive c q : is_derive (fun x => c * x) q c.
Proof. auto_derive; auto. ring. Qed.

Lemma gp_derive g2p p2g q : is_derive (gp g2p p2g) q (dgp g2p p2g q).
Proof.
  pose proof kappa_pos as K.
  destruct (Rlt_dec kappa q) as [H|H].
  { rewrite (proj2 (gp_high g2p p2g q ltac:(lra))).
    apply (is_derive_ext_near _ (fun x => g2p * x) q (q - kappa)); [lra| |apply linear_derive].
    intros y Hy. symmetry. apply gp_high. lra. }
  destruct (Rlt_dec q (- kappa)) as [H'|H'].
  { rewrite (proj2 (gp_low g2p p2g q ltac:(lra))).
    apply (is_derive_ext_near _ (fun x => p2g * x) q (- kappa - q)); [lra| |apply linear_derive].
    intros y Hy. symmetry. apply gp_low. lra. }
  destruct (Req_dec q kappa) as [->|N1].
  { apply (is_derive_glue _ (poly g2p p2g) (fun x => g2p * x) kappa kappa); [lra| | | |].
    - intros x Hx. apply gp_mid. lra.
    - intros x Hx. apply gp_high. lra.
    - rewrite (proj2 (gp_mid g2p p2g kappa ltac:(lra))). apply poly_derive.
    - rewrite (proj2 (gp_high g2p p2g kappa ltac:(lra))). apply linear_derive. }
  destruct (Req_dec q (- kappa)) as [->|N2].
  { apply (is_derive_glue _ (fun x => p2g * x) (poly g2p p2g) (- kappa) kappa); [lra| | | |].
    - intros x Hx. apply gp_low. lra.
    - intros x Hx. apply gp_mid. lra.
    - rewrite (proj2 (gp_low g2p p2g (- kappa) ltac:(lra))). apply linear_derive.
    - rewrite (proj2 (gp_mid g2p p2g (- kappa) ltac:(lra))). apply poly_derive. }
  rewrite (proj2 (gp_mid g2p p2g q ltac:(lra))).
  set (d := Rmin (kappa - q) (q + kappa)).
  assert (Hd : 0 < d) by (apply Rmin_glb_lt; lra).
  pose proof (Rmin_l (kappa - q) (q + kappa)). pose proof (Rmin_r (kappa - q) (q + kappa)).
  apply (is_derive_ext_near _ (poly g2p p2g) q d); [auto| |apply poly_derive].
  intros y Hy. symmetry. apply gp_mid. unfold d in *. lra.
Qed.

Lemma dpoly_continuous g2p p2g q : continuous (dpoly g2p p2g) q.
Proof.
  apply (ex_derive_continuous (dpoly g2p p2g) q). unfold dpoly. pose proof kappa_pos. auto_derive. repeat split; lra.
Qed.
Lemma dgp_continuous g2p p2g q : continuous (dgp g2p p2g) q.
Proof.
  pose proof kappa_pos as K.
  destruct (Rlt_dec kappa q) as [H|H].
  { apply (continuous_ext_near _ (fun _ => g2p) q (q - kappa)); [lra| |apply continuous_const].
    intros y Hy. symmetry. apply gp_high. lra. }
  destruct (Rlt_dec q (- kappa)) as [H'|H'].
  { apply (continuous_ext_near _ (fun _ => p2g) q (- kappa - q)); [lra| |apply continuous_const].
    intros y Hy. symmetry. apply gp_low. lra. }
  destruct (Req_dec q kappa) as [->|N1].
  { apply (continuous_glue _ (dpoly g2p p2g) (fun _ => g2p) kappa kappa); [lra| | | |].
    - intros x Hx. apply gp_mid. lra.
    - intros x Hx. apply gp_high. lra.
    - apply dpoly_continuous.
    - apply continuous_const. }
  destruct (Req_dec q (- kappa)) as [->|N2].
  { apply (continuous_glue _ (fun _ => p2g) (dpoly g2p p2g) (- kappa) kappa); [lra| | | |].
    - intros x Hx. apply gp_low. lra.
    - intros x Hx. apply gp_mid. lra.
    - apply continuous_const.
    - apply dpoly_continuous. }
  set (d := Rmin (kappa - q) (q + kappa)).
  assert (Hd : 0 < d) by (apply Rmin_glb_lt; lra).
  pose proof (Rmin_l (kappa - q) (q + kappa)). pose proof (Rmin_r (kappa - q) (q + kappa)).
  apply (continuous_ext_near _ (dpoly g2p p2g) q d); [auto| |apply dpoly_continuous].
  intros y Hy. symmetry. apply gp_mid. unfold d in *. lra.
Qed.

(** ** Short components *)
Definition short_size (e : gasedge) : Prop := ge_after e = (ge_start e + 4)%nat.
Lemma short_has_end e d : short_size e -> has_end (d, e).
Proof. intro H. destruct d; cbn; unfold short_size in H; [auto|lia]. Qed.
Lemma short_state e d x : short_size e ->
  boundary_state d e x = Ok (seg x (end_index d e)).
Proof. intro H. apply (boundary_state_ok (d, e)), short_has_end, H. Qed.
Lemma short_index e d : short_size e -> boundary_state_index d e = Ok (end_index d e).
Proof. intro H. apply (state_index_ok (d, e)), short_has_end, H. Qed.

Lemma diff_derive c i j (x : R -> vec) s u dx k : curve_at x s u dx ->
  is_derive (fun t => c * (x t i - x t j) + k) s (c * (dx i - dx j)).
Proof.
  intros [Hx Hd]. eapply is_derive_value.
  - apply (is_derive_plus (fun t => c * (x t i - x t j)) (fun _ => k)).
    + apply (is_derive_scal (fun t => x t i - x t j)).
      apply (is_derive_minus (fun t => x t i) (fun t => x t j)); apply Hd.
    + apply (is_derive_const (k : R)).
  - match goal with |- @eq _ (plus (?a * minus ?b ?c) zero) ?e => change (@eq R (a * (b - c) + 0) e) end. ring.
Qed.
(** A pair of rows comparing the two ends. *)
Lemma short_pair n row i j c k0 k1 u :
  (i + 2 <= n)%nat -> (j + 2 <= n)%nat ->
  jac_ok n [row; (row + 1)%nat] (fun x => Ok [Assign row (c * (x i - x j) + k0); Assign (row + 1)%nat (c * (x (i + 1)%nat - x (j + 1)%nat) + k1)]) u
    (Ok [(row, i, c); (row, j, - c); ((row + 1)%nat, (i + 1)%nat, c); ((row + 1)%nat, (j + 1)%nat, - c)]).
Proof.
  intros Hi Hj.
  apply (jac_ok_app n [row] [(row + 1)%nat] (fun x => Ok [Assign row (c * (x i - x j) + k0)])
          (fun x => Ok [Assign (row + 1)%nat (c * (x (i + 1)%nat - x (j + 1)%nat) + k1)]) u
          (Ok [(row, i, c); (row, j, - c)]) (Ok [((row + 1)%nat, (i + 1)%nat, c); ((row + 1)%nat, (j + 1)%nat, - c)])).
  - apply (jac_row n row); auto with net.
    + repeat apply cols_lt_cons; auto with net; lia.
    + intros x s dx Hx. eapply is_derive_value; [apply (diff_derive c i j x s u dx k0 Hx)|].
      cbn. rewrite Nat.eqb_refl. ring.
  - apply (jac_row n (row + 1)); auto with net.
    + repeat apply cols_lt_cons; auto with net; lia.
    + intros x s dx Hx. eapply is_derive_value; [apply (diff_derive c (i + 1) (j + 1) x s u dx k1 Hx)|].
      cbn [tdot fold_right fst snd]. rewrite Nat.eqb_refl. ring.
Qed.

Lemma short_rows_seq e : short_size e ->
  seq (ge_start e + 1) (ge_after e - ge_start e - 2) = [equation_start_index e; (equation_start_index e + 1)%nat].
Proof.
  unfold short_size, equation_start_index. intro H. rewrite H.
  replace (ge_start e + 4 - ge_start e - 2)%nat with 2%nat by lia. cbn [seq]. repeat f_equal. lia.
Qed.
Definition gas_size (e : gasedge) : Prop :=
  match ge_kind e with
  | Pipe d k dx => exists np, pipe_size e np
  | Shortpipe | Compressorstation _ | Controlvalve _ => short_size e
  | Gaspowerconnection _ _ plant =>
      ge_after e = (ge_start e + 2)%nat
  end.
(** What the Jacobian of an edge needs: grid points with positive density and laminar or
    transitional flow; the plant's lines end at power nodes. *)
Definition plant_known (n : nat) (plant : powernode) : Prop :=
  (pn_start plant + 2 <= n)%nat /\ exists l, lines_known (pn_lines plant) l /\ known_in n l.
Definition edge_regular (n : nat) (e : gasedge) (u : vec) : Prop :=
  match ge_kind e with
  | Pipe d k dx => geometry d k /\ forall j, (2 * j < ge_after e - ge_start e)%nat ->
      0 < point e j u 0%nat /\ Reynolds (point e j u 1%nat) d < 4000
  | Gaspowerconnection _ _ plant => plant_known n plant
  | _ => True
  end.

Lemma edge_new_jac n e t0 t1 last u c :
  gas_size e -> (ge_after e <= n)%nat -> edge_regular n e u ->
  jac_ok n (edge_rows e) (fun x => edge_evaluate e t0 t1 last x c) u (edge_d_new_state e t0 t1 last u c).
Proof.
  unfold gas_size, edge_regular, edge_rows, edge_evaluate, edge_d_new_state.
  destruct (ge_kind e) as [d k dx| |ci|ci|g2p p2g plant]; intros Hs Hn HR.
  - destruct Hs as [np Hs]. destruct HR as [Hg HR]. apply (pipe_new_jac n e np); auto.
    intros j Hj. destruct Hs as [H1 H2]. destruct (HR j) as [A B]; [lia|].
    apply euler_differentiable; auto.
  - rewrite !short_index by auto. cbn [obind].
    rewrite short_rows_seq by auto.
    eapply jac_ok_ext; [|apply (short_pair n (equation_start_index e) (end_index dstart e) (end_index dend e) 1 0 0)].
    + intro x. rewrite !short_state by auto. cbn [obind]. unfold short_rows, seg.
      rewrite !Nat.add_0_r, !Rplus_0_r, !Rmult_1_l. reflexivity.
    + unfold short_size in Hs. cbn. lia.
    + unfold short_size in Hs. cbn. lia.
  - rewrite !short_index by auto. cbn [obind].
    replace 1 with (- (-1)) at 1 2 by ring.
    rewrite short_rows_seq by auto.
    eapply jac_ok_ext; [|apply (short_pair n (equation_start_index e) (end_index dstart e) (end_index dend e) (-1) (- c ci) 0)].
    + intro x. rewrite !short_state by auto. cbn [obind]. unfold short_rows, seg.
      rewrite !Nat.add_0_r. do 2 f_equal; [f_equal; ring|]. f_equal; f_equal; ring.
    + unfold short_size in Hs. cbn. lia.
    + unfold short_size in Hs. cbn. lia.
  - rewrite !short_index by auto. cbn [obind].
    replace 1 with (- (-1)) at 1 2 by ring.
    rewrite short_rows_seq by auto.
    eapply jac_ok_ext; [|apply (short_pair n (equation_start_index e) (end_index dstart e) (end_index dend e) (-1) (c ci) 0)].
    + intro x. rewrite !short_state by auto. cbn [obind]. unfold short_rows, seg.
      rewrite !Nat.add_0_r. do 2 f_equal; [f_equal; ring|]. f_equal; f_equal; ring.
    + unfold short_size in Hs. cbn. lia.
    + unfold short_size in Hs. cbn. lia.
  - destruct HR as [HP [l [HL HK]]]. cbv zeta. rewrite dgp_ok. cbn [obind].
    rewrite (dP_ok plant l) by auto.
    set (qi := (ge_start e + 1)%nat).
    assert (J : jac_ok n [qi] (fun x => Ok [Assign qi (Pval plant l x - gp g2p p2g (x qi))]) u
                 (Ok ([(qi, qi, - dgp g2p p2g (u qi))] ++ P_entries plant l qi u))).
    { apply (jac_row n qi); auto with net.
      - apply rows_in_app; [auto with net|apply P_entries_rows].
      - apply cols_lt_app; [|apply P_entries_cols; auto].
        apply cols_lt_cons; auto with net. unfold qi. lia.
      - intros x s dx Hx. rewrite tdot_app. pose proof Hx as [Hx0 Hd].
        eapply is_derive_value.
        + apply (is_derive_minus (fun t => Pval plant l (x t)) (fun t => gp g2p p2g (x t qi))).
          * apply (P_derive plant l qi x s u dx Hx).
          * apply (is_derive_along (gp g2p p2g) (fun t => x t qi) s (u qi)); auto. apply gp_derive.
        + cbn [tdot fold_right fst snd]. rewrite Nat.eqb_refl.
          match goal with |- @eq _ (minus ?a ?b) ?c => change (@eq R (a - b) c) end.
          fold (tdot (P_entries plant l qi u) qi dx). ring. }
    destruct J as [W [ts [d [Hd [E1 [E2 [C [A G]]]]]]]].
    assert (Ets : ts = [(qi, qi, - dgp g2p p2g (u qi))] ++ P_entries plant l qi u) by congruence.
    exists W, (ts ++ [(pn_start plant, ge_start e, 0)]), d.
    split; [auto|]. split; [|split; [|split]].
    + intros x Hx. rewrite (P_ok plant l) by auto. cbn [obind]. rewrite gp_ok. cbn [obind]. apply E1; auto.
    + rewrite Ets, <- app_assoc. reflexivity.
    + apply cols_lt_app; [auto|]. apply cols_lt_cons; auto with net. lia.
    + split; [auto|]. intros r x s dx Hx. rewrite tdot_app. eapply is_derive_value; [apply (G r x s dx Hx)|].
      cbn [tdot fold_right fst snd]. destruct (Nat.eqb (pn_start plant) r); ring.
Qed.

(** Edges can always be evaluated. *)
Definition edge_data_ok (n : nat) (e : gasedge) : Prop :=
  match ge_kind e with
  | Pipe d k dx => geometry d k
  | Gaspowerconnection _ _ plant => plant_known n plant
  | _ => True
  end.
Lemma edge_last_jac n e t0 t1 u new c :
  gas_size e -> (ge_after e <= n)%nat -> edge_data_ok n e ->
  jac_ok n (edge_rows e) (fun x => edge_evaluate e t0 t1 x new c) u (edge_d_last_state e t0 t1 u new c).
Proof.
  unfold gas_size, edge_rows, edge_evaluate, edge_d_last_state, edge_data_ok.
  destruct (ge_kind e) as [d k dx| |ci|ci|g2p p2g plant]; intros Hs Hn HR.
  - destruct Hs as [np Hs]. apply (pipe_last_jac n e np); auto.
    intros j Hj. eexists. apply source_ok. exact HR.
  - rewrite !short_state by auto. cbn [obind]. rewrite short_rows_seq by auto. apply jac_ok_const; cbn; auto.
  - rewrite !short_state by auto. cbn [obind]. rewrite short_rows_seq by auto. apply jac_ok_const; cbn; auto.
  - rewrite !short_state by auto. cbn [obind]. rewrite short_rows_seq by auto. apply jac_ok_const; cbn; auto.
  - destruct HR as [_ [l [HL _]]]. cbv zeta. rewrite (P_ok plant l) by auto. cbn [obind].
    rewrite gp_ok. cbn [obind]. apply jac_ok_const; cbn; auto.
Qed.

Lemma edge_control_jac m n e t0 t1 last new u :
  gas_size e -> edge_data_ok n e ->
  (match ge_kind e with Compressorstation c | Controlvalve c => (c < m)%nat | _ => True end) ->
  jac_ok m (edge_rows e) (fun x => edge_evaluate e t0 t1 last new x) u (edge_d_control e).
Proof.
  unfold gas_size, edge_rows, edge_evaluate, edge_d_control, edge_data_ok.
  assert (K : forall row ci a b k, (ci < m)%nat ->
     jac_ok m [row; (row + 1)%nat] (fun x => Ok [Assign row (k * x ci + a); Assign (row + 1)%nat b]) u (Ok [(row, ci, k)])).
  { intros row ci a b k Hc.
    apply (jac_ok_app m [row] [(row + 1)%nat] (fun x => Ok [Assign row (k * x ci + a)]) (fun x => Ok [Assign (row + 1)%nat b]) u
       (Ok [(row, ci, k)]) (Ok [])); [|apply jac_ok_const; cbn; auto].
    apply (jac_row m row); auto with net.
    intros x s dx [Hx Hd]. eapply is_derive_value.
    - apply (is_derive_plus (fun t => k * x t ci) (fun _ => a)).
      + apply (is_derive_scal (fun t => x t ci)). apply Hd.
      + apply (is_derive_const (a : R)).
    - rewrite tdot_cons. cbn [fst snd]. rewrite Nat.eqb_refl. change (tdot [] row dx) with 0.
      match goal with |- @eq _ (plus ?a zero) ?e => change (@eq R (a + 0) e) end. ring. }
  destruct (ge_kind e) as [d k dx| |ci|ci|g2p p2g plant]; intros Hs HR Hc.
  - destruct Hs as [np Hs].
    assert (E : exists ws, pipe_loop e (cell_evaluate (isothermal_euler d k) dx t0 t1 last new) = Ok ws /\
       assigned ws = seq (ge_start e + 1) (ge_after e - ge_start e - 2) /\ adds_ok [] ws).
    { rewrite <- (pipe_rows_seq e np Hs). unfold pipe_loop. rewrite (pipe_indices_ok e np Hs). cbn [obind].
      induction (pipe_rows e np) as [|i l [ws [IH [IH1 IH2]]]]; [exists []; cbn; auto|].
      cbn [map oconcat fold_right flat_map]. unfold oconcat in IH. rewrite IH.
      unfold cell_evaluate, evaluate_point. cbn [bl_source isothermal_euler].
      rewrite !source_ok by auto. cbn [obind omap]. eexists. split; [reflexivity|]. split.
      - rewrite assigned_app. cbn [assigned flat_map app]. fold (assigned ws). rewrite IH1. reflexivity.
      - apply adds_ok_app; cbn; auto. }
    destruct E as [ws [E [E1 E2]]]. rewrite E. apply jac_ok_const; auto.
  - rewrite !short_state by auto. cbn [obind]. rewrite short_rows_seq by auto. apply jac_ok_const; cbn; auto.
  - rewrite !short_state by auto. cbn [obind]. unfold short_rows.
    rewrite short_rows_seq by auto. eapply jac_ok_ext; [|apply (K (equation_start_index e) ci (seg new (end_index dend e) 0%nat - seg new (end_index dstart e) 0%nat)
       (seg new (end_index dend e) 1%nat - seg new (end_index dstart e) 1%nat - 0) (-1) Hc)].
    intro x. cbn beta. do 2 f_equal. f_equal. ring.
  - rewrite !short_state by auto. cbn [obind]. unfold short_rows.
    rewrite short_rows_seq by auto. eapply jac_ok_ext; [|apply (K (equation_start_index e) ci (seg new (end_index dend e) 0%nat - seg new (end_index dstart e) 0%nat)
       (seg new (end_index dend e) 1%nat - seg new (end_index dstart e) 1%nat + 0) 1 Hc)].
    intro x. cbn beta. do 2 f_equal. f_equal. ring.
  - destruct HR as [_ [l [HL _]]]. cbv zeta. rewrite (P_ok plant l) by auto. cbn [obind].
    rewrite gp_ok. cbn [obind]. apply jac_ok_const; cbn; auto.
Qed.
