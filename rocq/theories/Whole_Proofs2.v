(** * The derivatives reported by a network are right: the hypotheses of C09 and C10 hold *)
From Coq Require Import Reals Lra Lia List Arith Bool Permutation FunctionalExtensionality.
From Coquelicot Require Import Coquelicot.
From Verif Require Import Base Interp_Model Calc Euler_Model Euler_Spec Box_Model Box_Proofs Net_Model Net_Spec Net_Proofs Net_Proofs2
  Net_Proofs4 Net_Proofs5 Net_Proofs6 Net_Proofs8 Net_Proofs9 Cost_Model Cost_Spec Cost_Proofs Whole_Proofs Interp_Spec Interp_Proofs Interp_Proofs2
  Adjoint_Model Adjoint_Spec Adjoint_Proofs3 Whole_Model Whole_Spec.
Import ListNotations.
Local Open Scope R_scope.

Lemma cut_in n x k : (k < n)%nat -> cut n x k = x k.
Proof. intro H. unfold cut. apply Nat.ltb_lt in H. rewrite H. reflexivity. Qed.
Lemma cut_out n x k : (n <= k)%nat -> cut n x k = 0.
Proof. intro H. unfold cut. destruct (Nat.ltb_spec k n); [lia|reflexivity]. Qed.
Lemma vsum_Rsum n f : vsum n f = Rsum n f.
Proof. induction n; cbn; [reflexivity|]. rewrite IHn. reflexivity. Qed.
Lemma cut_curve n c base dir : curve_through n c base dir ->
  curve_at (fun s => cut n (c s)) 0 (cut n base) (cut n dir).
Proof.
  intros [E D]. split; intro k.
  - rewrite E. reflexivity.
  - destruct (Nat.ltb_spec k n) as [L|L].
    + rewrite (cut_in n dir) by exact L. apply (is_derive_ext (fun s => c s k)); [|apply D; exact L].
      intro s. rewrite cut_in by exact L. reflexivity.
    + rewrite (cut_out n dir) by exact L. apply (is_derive_ext (fun _ => 0)); [|apply (is_derive_const 0)].
      intro s. rewrite cut_out by exact L. reflexivity.
Qed.
Lemma cut_inner n g dir : vsum n (fun j => g j * cut n dir j) = inner n g dir.
Proof.
  unfold inner. rewrite vsum_Rsum. apply Rsum_ext. intros i H. rewrite cut_in by exact H. reflexivity.
Qed.
(** A curve in finitely many components stays near its base point. *)
Lemma cut_near n c base dir d : 0 < d -> curve_through n c base dir ->
  locally 0 (fun s => forall k, Rabs (cut n (c s) k - cut n base k) < d).
Proof.
  intros Hd [E D].
  assert (L : forall m, (m <= n)%nat -> locally 0 (fun s => forall k, (k < m)%nat -> Rabs (c s k - base k) < d)).
  { induction m as [|m IH]; intro Hm; [apply filter_forall; intros; lia|].
    assert (C : locally 0 (fun s => Rabs (c s m - base m) < d)).
    { pose proof (is_derive_continuous _ _ _ (D m ltac:(lia))) as K.
      assert (P : locally (c 0 m) (fun y => Rabs (y - base m) < d)).
      { exists (mkposreal d Hd). intros y Hy. rewrite <- E. exact Hy. }
      exact (K _ P). }
    specialize (IH ltac:(lia)). generalize (filter_and (F := locally (0:R)) _ _ IH C). apply filter_imp. intros s [H1 H2] k Hk.
    destruct (Nat.eq_dec k m) as [->|]; [exact H2|apply H1; lia]. }
  generalize (L n (le_n n)). apply filter_imp. intros s H k. destruct (Nat.ltb_spec k n) as [K|K].
  - rewrite !cut_in by exact K. apply H. exact K.
  - rewrite !cut_out by exact K. rewrite Rminus_0_r, Rabs_R0. exact Hd.
Qed.

(** From [is_jacobian] to the derivative along a curve. *)
Lemma jacobian_along n m (f : vec -> outcome vec) c base dir J i : (i < n)%nat ->
  is_jacobian n m f (cut m base) J -> curve_through m c base dir ->
  is_derive (fun s => value (f (cut m (c s))) i) 0 (inner m (J i) dir).
Proof.
  intros Hi [g [HJ [d [Hd E]]]] HC.
  pose proof (HJ i Hi _ _ _ (cut_curve m c base dir HC)) as D. rewrite cut_inner in D. cbn beta in D.
  apply (is_derive_ext_loc (fun s => g (cut m (c s)) i)); [|exact D].
  generalize (cut_near m c base dir d Hd HC). apply filter_imp. intros s H. rewrite (E _ H). reflexivity.
Qed.

Section Residual.
Variables (N : network) (sinks : list nat).
Hypothesis HW : well_formed N.
Hypothesis HP : pipes_ok N.
Let n := number_of_states N.
Let m := number_of_controls N.
Let P := network_problem N sinks.

Lemma evaluable t0 t1 l x c v : boundary_defined N t1 -> exists r, evaluate N t0 t1 l x c v = Ok r.
Proof. intro HB. destruct (evaluate_zero N t0 t1 l x c v HW HP HB) as [r [E _]]. eauto. Qed.

(** The residual is a sum of a part of the last state, a part of the new state and a part of the control. *)
Lemma residual_splits t0 t1 l x c l0 x0 c0 e : boundary_defined N t1 ->
  residual P t0 t1 l x c e = residual P t0 t1 l x0 c0 e + residual P t0 t1 l0 x c0 e + residual P t0 t1 l0 x0 c e
    - 2 * residual P t0 t1 l0 x0 c0 e.
Proof.
  intro HB. cbn [residual P network_problem].
  set (z := fun _ : nat => 0).
  destruct (evaluable t0 t1 (cut n l) (cut n x) (cut m c) z HB) as [r1 E1].
  destruct (evaluable t0 t1 (cut n l0) (cut n x) (cut m c) z HB) as [r2 E2].
  destruct (evaluable t0 t1 (cut n l) (cut n x0) (cut m c0) z HB) as [r3 E3].
  destruct (evaluable t0 t1 (cut n l0) (cut n x0) (cut m c0) z HB) as [r4 E4].
  destruct (evaluable t0 t1 (cut n l0) (cut n x) (cut m c0) z HB) as [r5 E5].
  destruct (evaluable t0 t1 (cut n l0) (cut n x0) (cut m c) z HB) as [r6 E6].
  fold n m. fold z. rewrite E1, E3, E4, E5, E6. cbn [value].
  pose proof (evaluate_sep_last N t0 t1 _ _ _ _ _ _ z r1 r2 r3 r4 E1 E2 E3 E4 e).
  pose proof (evaluate_sep_control N t0 t1 _ _ _ _ _ _ z r2 r5 r6 r4 E2 E5 E6 E4 e). lra.
Qed.

Lemma network_residual t0 t1 xl xn u : boundary_defined N t1 -> regular_state N (cut n xn) ->
  residual_jacobians P t0 t1 xl xn u.
Proof.
  intros HB HR a b c a' b' c' Ha Hb Hc e He. cbn [nx nu P network_problem] in *. fold n m in Ha, Hb, Hc, He |- *.
  apply (is_derive_ext (fun s => residual P t0 t1 (a s) xn u e + residual P t0 t1 xl (b s) u e + residual P t0 t1 xl xn (c s) e
    - 2 * residual P t0 t1 xl xn u e)).
  { intro s. symmetry. apply residual_splits. exact HB. }
  set (z := fun _ : nat => 0).
  destruct (jac_finish _ _ _ _ _ _ z (network_last_jac N t0 t1 (cut n xl) (cut n xn) (cut m u) HW HP HB) (rows_perm N HW)) as [tl [El Jl]].
  destruct (jac_finish _ _ _ _ _ _ z (network_new_jac N t0 t1 (cut n xl) (cut n xn) (cut m u) HW HP HB HR) (rows_perm N HW)) as [tn [En Jn]].
  destruct (jac_finish _ _ _ _ _ _ z (network_control_jac N t0 t1 (cut n xl) (cut n xn) (cut m u) HW HP HB) (rows_perm N HW)) as [tc [Ec Jc]].
  pose proof (jacobian_along n n _ a xl a' _ e He Jl Ha) as Dl.
  pose proof (jacobian_along n n _ b xn b' _ e He Jn Hb) as Dn.
  pose proof (jacobian_along n m _ c u c' _ e He Jc Hc) as Dc.
  cbn [d_last d_new d_control P network_problem]. fold n m. rewrite El, En, Ec. cbn [coefficients].
  set (L := inner n (matrix_of tl e) a') in *. set (M := inner n (matrix_of tn e) b') in *. set (K := inner m (matrix_of tc e) c') in *.
  set (f1 := fun s => residual P t0 t1 (a s) xn u e). set (f2 := fun s => residual P t0 t1 xl (b s) u e).
  set (f3 := fun s => residual P t0 t1 xl xn (c s) e). set (k0 := residual P t0 t1 xl xn u e).
  change (is_derive f1 0 L) in Dl. change (is_derive f2 0 M) in Dn. change (is_derive f3 0 K) in Dc.
  change (is_derive (fun s => f1 s + f2 s + f3 s - 2 * k0) 0 (L + M + K)).
  apply (is_derive_value _ _ (L + M + K - 0)); [|ring].
  apply (is_derive_minus (fun s => f1 s + f2 s + f3 s) (fun _ => 2 * k0)); [|apply (is_derive_const (2 * k0))].
  apply (is_derive_plus (fun s => f1 s + f2 s) f3); [|exact Dc].
  apply (is_derive_plus f1 f2); assumption.
Qed.

(** The residual vanishes iff the equations of the network are fulfilled. *)
Lemma residual_zero t0 t1 xl xn u : boundary_defined N t1 ->
  (forall e, (e < n)%nat -> residual P t0 t1 xl xn u e = 0) <->
  network_equations N t0 t1 (cut n xl) (cut n xn) (cut m u).
Proof.
  intro HB. destruct (evaluate_zero N t0 t1 (cut n xl) (cut n xn) (cut m u) (fun _ => 0) HW HP HB) as [r [E [H _]]].
  rewrite <- H. cbn [residual P network_problem]. fold n m. rewrite E. reflexivity.
Qed.

(** ** Cost *)
Lemma zero_gradient k : inner k (fun _ => 0) = fun _ => 0.
Proof.
  apply functional_extensionality. intro a. unfold inner. induction k; cbn; [reflexivity|]. rewrite IHk. ring.
Qed.
Lemma matrix_nil r : matrix_of [] r = fun _ => 0.
Proof. reflexivity. Qed.
Lemma network_cost t xn u : has_gradient n m (cost P t) xn u (cost_dx P t xn u) (cost_du P t xn u).
Proof.
  intros a b a' b' Ha Hb. cbn [cost cost_dx cost_du P network_problem]. fold m.
  assert (Z : d_evaluate_cost_d_state N (cut m u) = []).
  { unfold d_evaluate_cost_d_state. induction (cost_components N); auto. }
  rewrite Z, matrix_nil, zero_gradient.
  assert (G : gradient m (evaluate_cost constructed_weight N) (cut m u) (matrix_of (d_evaluate_cost_d_control N (cut m u)) 0%nat)).
  { eapply gradient_value; [apply weighted_gradient|]. intros k _. unfold constructed_weight. ring. }
  pose proof (G _ _ _ (cut_curve m b u b' Hb)) as D. rewrite cut_inner in D.
  eapply is_derive_value; [exact D|ring].
Qed.
Lemma network_penalty t xn u : has_gradient n m (penalty P t) xn u (penalty_dx P t xn u) (penalty_du P t xn u).
Proof.
  intros a b a' b' Ha Hb. cbn [penalty penalty_dx penalty_du P network_problem].
  assert (Z : d_evaluate_penalty N = []).
  { unfold d_evaluate_penalty. induction (cost_components N); auto. }
  rewrite Z, matrix_nil, !zero_gradient.
  eapply is_derive_value; [apply (is_derive_const (evaluate_penalty constructed_weight N))|]. unfold zero; cbn. ring.
Qed.

(** ** Constraints *)
Lemma sink_value j : is_gas_node N j -> has_gas_edge N j ->
  exists i e d, nth_error (edges N) i = Some e /\ carries_gas e = true /\ touches e d j /\
    (end_position N i d < n)%nat /\
    (forall x, sink_constraint (attached_gas N j) x = Ok (x (end_position N i d))) /\
    (forall r, sink_constraint_d_state (attached_gas N j) r = Ok [(r, end_position N i d, 1)]).
Proof.
  intros HG HE. apply attached_nonempty in HE. destruct (attached_facts N j HW HG) as [F1 F2].
  destruct (attached_gas N j) as [|[d g] rest] eqn:EA; [congruence|].
  assert (Hin : In (d, g) (attached_gas N j)) by (rewrite EA; left; reflexivity).
  apply attached_iff in Hin. destruct Hin as [i [e [H1 [H2 H3]]]].
  inversion F1 as [|? ? K1 _]; subst. inversion F2 as [|? ? K2 _]; subst.
  destruct (gas_of_kind N i e g H2) as [_ [EB _]].
  assert (EI : end_index d g = end_position N i d) by (unfold end_index, end_position; rewrite <- EB; reflexivity).
  exists i, e, d. split; [exact H1|]. split; [apply (gas_carries N i e); eauto|]. split; [exact H3|].
  cbn [fst snd] in K2. rewrite EI in K2. split; [unfold n; lia|]. split.
  - intro x. unfold sink_constraint. cbn [get nth_error obind].
    pose proof (boundary_state_ok (d, g) x K1) as B. cbn [fst snd] in B. rewrite B. cbn [obind]. unfold seg. rewrite Nat.add_0_r, EI. reflexivity.
  - intro r. unfold sink_constraint_d_state. cbn [get nth_error obind].
    pose proof (state_index_ok (d, g) K1) as B. cbn [fst snd] in B. rewrite B. cbn [obind]. rewrite EI. reflexivity.
Qed.

Hypothesis HC : constrained_nodes N sinks.

Lemma sinks_rows : forall (l : list nat) b, (forall j, In j l -> is_gas_node N j /\ has_gas_edge N j) ->
  exists ts, oconcat (map (fun rj => sink_constraint_d_state (attached_gas N (snd rj)) (fst rj)) (combine (seq b (length l)) l)) = Ok ts /\
    (forall r c, (r < b)%nat -> matrix_of ts r c = 0) /\
    forall q j, nth_error l q = Some j -> exists k, (k < n)%nat /\
      (forall x, sink_constraint (attached_gas N j) x = Ok (x k)) /\
      forall c, matrix_of ts (b + q)%nat c = if Nat.eqb k c then 1 else 0.
Proof.
  induction l as [|j l IH]; intros b H.
  - exists []. split; [reflexivity|]. split; [reflexivity|]. intros [|q] j E; discriminate.
  - destruct (IH (S b)) as [ts [E [Z R]]]; [intros; apply H; right; assumption|].
    destruct (H j (or_introl eq_refl)) as [HG HE].
    destruct (sink_value j HG HE) as [i [e [d [_ [_ [_ [L [V D]]]]]]]].
    exists ((b, end_position N i d, 1) :: ts). split.
    { cbn [length seq combine map oconcat fold_right fst snd]. rewrite D. unfold oapp. cbn [obind].
      change (fold_right _ _ _) with (oconcat (map (fun rj => sink_constraint_d_state (attached_gas N (snd rj)) (fst rj)) (combine (seq (S b) (length l)) l))).
      rewrite E. reflexivity. }
    split.
    + intros r c Hr. cbn [matrix_of fold_right fst snd]. fold (matrix_of ts r c). rewrite Z by lia.
      destruct (Nat.eqb_spec b r); [lia|]. cbn. ring.
    + intros [|q] j' E'; cbn [nth_error] in E'.
      * injection E' as <-. exists (end_position N i d). split; [exact L|]. split; [exact V|]. intro c.
        rewrite Nat.add_0_r. cbn [matrix_of fold_right fst snd]. fold (matrix_of ts b c). rewrite Z by lia. rewrite Nat.eqb_refl. cbn.
        destruct (Nat.eqb _ c); ring.
      * destruct (R q j' E') as [k [K1 [K2 K3]]]. exists k. split; [exact K1|]. split; [exact K2|]. intro c.
        cbn [matrix_of fold_right fst snd]. fold (matrix_of ts (b + S q)%nat c).
        replace (b + S q)%nat with (S b + q)%nat by lia. rewrite K3. destruct (Nat.eqb_spec b (S b + q)); [lia|]. cbn.
        destruct (Nat.eqb k c); ring.
Qed.

Lemma network_constraint t xn u r : (r < length sinks)%nat ->
  has_gradient n m (fun x u => constr P t x u r) xn u (constr_dx P t xn u r) (constr_du P t xn u r).
Proof.
  intros Hr a b a' b' Ha Hb. cbn [constr constr_dx constr_du P network_problem]. fold n.
  destruct (sinks_rows sinks 0 HC) as [ts [E [_ R]]].
  assert (Z : constraint_d_control N sinks = Ok []).
  { unfold constraint_d_control. clear. induction sinks as [|j l IH]; [reflexivity|].
    change (oapp (Ok []) (oconcat (map (fun _ : nat => Ok []) l)) = Ok ([] : list Net_Model.entry)). rewrite IH. reflexivity. }
  rewrite Z. unfold constraint_d_state. rewrite E. cbn [coefficients]. rewrite matrix_nil, zero_gradient.
  destruct (nth_error sinks r) as [j|] eqn:Ej; [|apply nth_error_None in Ej; lia].
  destruct (R r j Ej) as [k [K1 [K2 K3]]]. cbn [Nat.add] in K3.
  apply (is_derive_ext (fun s => a s k)).
  { intro s. unfold constraint_value. rewrite Ej, K2, cut_in by exact K1. reflexivity. }
  apply (is_derive_value _ _ (a' k)); [apply (proj2 Ha); exact K1|].
  unfold inner. rewrite (Rsum_ext n _ (fun c => if Nat.eqb c k then a' k else 0)).
  - rewrite (Adjoint_Proofs.Rsum_single n (fun c => if Nat.eqb c k then a' k else 0) k (a' k) K1) by reflexivity. ring.
  - intros c _. rewrite K3. destruct (Nat.eqb_spec c k) as [->|Q]; [rewrite Nat.eqb_refl; ring|].
    destruct (Nat.eqb_spec k c); [congruence|]. ring.
Qed.

End Residual.
