(** Other units for the power network. *)
From Coq Require Import Reals ZArith Lra Lia List Arith Bool.
From Coquelicot Require Import Complex.
From Verif Require Import Base Interp_Model Calc Euler_Model Box_Model Net_Model Net_Spec Net_Proofs5 Net_Proofs8 Level_Spec Level_Proofs Mass_Proofs.
From Verif Require Import Unit_Spec.
Import ListNotations.
Local Open Scope R_scope.

Section Units.
Variables (u w : R) (N N' : network).
Hypothesis Hu : u <> 0.
Hypothesis Hw : w <> 0.
Hypothesis W : well_formed N.
Hypothesis H : network_units u w N N'.
Let s := power_factor u w.

Lemma factor_not_zero : s <> 0.
Proof. unfold s, power_factor. apply Rmult_integral_contrapositive. split; [apply Rmult_integral_contrapositive; auto|exact Hw]. Qed.

Lemma units_node j : match nth_error (nodes N) j, nth_error (nodes N') j with
  | Some t, Some t' => node_units u w t t' | None, None => True | _, _ => False end.
Proof.
  destruct H as (F & _). clear - F. revert j. induction F as [|t t' l l' Ht F IH]; intros [|j]; cbn; auto. apply IH.
Qed.
Lemma units_length : length (nodes N') = length (nodes N).
Proof. destruct H as (F & _). clear - F. induction F as [|t t' l l' _ F IH]; [reflexivity|]. cbn. rewrite IH. reflexivity. Qed.
Lemma units_edges : edges N' = map (edge_units u w) (edges N).
Proof. apply H. Qed.
Lemma units_states e : edge_states (e_type (edge_units u w e)) = edge_states (e_type e).
Proof. unfold edge_units. cbn. destruct (e_type e); reflexivity. Qed.
Lemma units_controls e : edge_controls (e_type (edge_units u w e)) = edge_controls (e_type e).
Proof. unfold edge_units. cbn. destruct (e_type e); reflexivity. Qed.
Lemma units_sizes : state_sizes N' = state_sizes N.
Proof.
  unfold state_sizes. rewrite units_edges, map_map. f_equal.
  - destruct H as (F & _). clear - F. induction F as [|t t' l l' Ht F IH]; [reflexivity|]. cbn. rewrite IH. destruct Ht; reflexivity.
  - apply map_ext. apply units_states.
Qed.
Lemma units_node_block j : node_block N' j = node_block N j.
Proof. unfold node_block, state_blocks. rewrite units_sizes. reflexivity. Qed.
Lemma units_edge_block i : edge_block N' i = edge_block N i.
Proof. unfold edge_block, state_blocks. rewrite units_sizes, units_length. reflexivity. Qed.
Lemma units_number : number_of_states N' = number_of_states N.
Proof. unfold number_of_states. rewrite units_sizes. reflexivity. Qed.
Lemma units_control_block i : control_block N' i = control_block N i.
Proof. unfold control_block, control_blocks, control_sizes. rewrite units_edges, map_map. rewrite (map_ext _ _ units_controls). reflexivity. Qed.
Lemma units_edge i : nth_error (edges N') i = option_map (edge_units u w) (nth_error (edges N) i).
Proof. rewrite units_edges, nth_error_map. reflexivity. Qed.
Lemma units_carries e : carries_gas (edge_units u w e) = carries_gas e.
Proof. unfold carries_gas, edge_units. cbn. destruct (e_type e); reflexivity. Qed.
Lemma units_touches e d j : touches (edge_units u w e) d j <-> touches e d j.
Proof. unfold touches. destruct d; reflexivity. Qed.
Lemma units_gas j : is_gas_node N' j <-> is_gas_node N j.
Proof.
  unfold is_gas_node. pose proof (units_node j) as A. destruct (nth_error (nodes N) j), (nth_error (nodes N') j); try easy. destruct A; reflexivity.
Qed.
Lemma units_power_node j : is_power_node N' j <-> is_power_node N j.
Proof.
  unfold is_power_node. pose proof (units_node j) as A. destruct (nth_error (nodes N) j), (nth_error (nodes N') j); try easy. destruct A; reflexivity.
Qed.
Lemma units_well_formed : well_formed N'.
Proof.
  unfold well_formed. rewrite units_edges. apply Forall_forall. intros e' I. apply in_map_iff in I. destruct I as (e & <- & I).
  destruct (proj1 (Forall_forall _ _) W e I) as (A & B). split; [exact A|]. unfold edge_units. cbn [e_from e_to e_type].
  destruct (e_type e); rewrite ?units_gas, ?units_power_node; exact B.
Qed.
Lemma units_pipes : pipes_ok N -> pipes_ok N'.
Proof.
  unfold pipes_ok. rewrite units_edges, !Forall_forall. intros P e' I. apply in_map_iff in I. destruct I as (e & <- & I). specialize (P e I).
  unfold edge_units. cbn [e_type]. destruct (e_type e); exact P.
Qed.
Lemma units_boundary t : boundary_defined N t -> boundary_defined N' t.
Proof.
  intros D j. specialize (D j). pose proof (units_node j) as A. destruct (nth_error (nodes N) j), (nth_error (nodes N') j); try easy.
  destruct A as [| | |ext G B b b' V|ext G B b b' V|ext G B b b' V]; try exact D; specialize (V t); destruct D as (v & D); rewrite D in V; cbn in V;
    destruct (b' t); try contradiction; eauto.
Qed.

Lemma units_generated g2p p2g q : generated_power (s * g2p) (s * p2g) q = omap (Rmult s) (generated_power g2p p2g q).
Proof.
  unfold generated_power. destruct (Rltb kappa q); [cbn; f_equal; ring|]. destruct (Rltb q (- kappa)); [cbn; f_equal; ring|].
  unfold smoothing_polynomial. destruct (_ || _)%bool; [reflexivity|]. cbn. f_equal. unfold Rdiv. ring.
Qed.

Section State.
Variables (x x' : vec).
Hypothesis X : state_units u N x x'.

Lemma units_voltage j : is_power_node N j -> voltage N' j x' = Cmult (RtoC u) (voltage N j x).
Proof.
  intro P. destruct X as (A & _). destruct (A j P) as (A0 & A1). unfold voltage. rewrite units_node_block, A0, A1.
  unfold Cmult, RtoC. cbn [fst snd]. f_equal; ring.
Qed.
Lemma csum_scale {A} (c : C) (f g : A -> C) l : (forall a, In a l -> g a = Cmult c (f a)) -> csum g l = Cmult c (csum f l).
Proof.
  induction l as [|a l IH]; intro E; cbn; [rewrite Cmult_0_r; reflexivity|]. unfold csum in IH. rewrite IH by (intros; apply E; right; assumption).
  rewrite (E a (or_introl eq_refl)), Cmult_plus_distr_l. reflexivity.
Qed.
Lemma csum_map {A B} (f : B -> C) (g : A -> B) l : csum f (map g l) = csum (fun a => f (g a)) l.
Proof. induction l as [|a l IH]; [reflexivity|]. cbn. unfold csum in IH. rewrite IH. reflexivity. Qed.
Lemma units_pair g b : (w * g, w * b) = Cmult (RtoC w) (g, b).
Proof. unfold Cmult, RtoC. cbn. f_equal; ring. Qed.
Lemma units_current j G B : is_power_node N j -> current N' j (w * G) (w * B) x' = Cmult (RtoC (w * u)) (current N j G B x).
Proof.
  intro P. unfold current. rewrite units_voltage, units_edges, csum_map by exact P. rewrite Cmult_plus_distr_l. f_equal.
  - rewrite units_pair, RtoC_mult. rewrite <- !Cmult_assoc. f_equal. rewrite !Cmult_assoc. f_equal. apply Cmult_comm.
  - apply csum_scale. intros e I. destruct (proj1 (Forall_forall _ _) W e I) as (_ & K). unfold edge_units. cbn [e_type e_from e_to].
    destruct (e_type e) as [| | | | |g b]; try (rewrite Cmult_0_r; reflexivity). destruct K as (K1 & K2).
    rewrite !units_voltage, units_pair by assumption. rewrite Cmult_plus_distr_l.
    assert (M : forall v, Cmult (Cmult (RtoC w) (g, b)) (Cmult (RtoC u) v) = Cmult (RtoC (w * u)) (Cmult (g, b) v)).
    { intro v. rewrite RtoC_mult. rewrite <- !Cmult_assoc. f_equal. rewrite !Cmult_assoc. f_equal. apply Cmult_comm. }
    rewrite !M. f_equal; destruct (Nat.eqb _ j); try reflexivity; rewrite Cmult_0_r; reflexivity.
Qed.
Lemma units_power j G B : is_power_node N j ->
  fst (power N' j (w * G) (w * B) x') = s * fst (power N j G B x) /\ snd (power N' j (w * G) (w * B) x') = s * snd (power N j G B x).
Proof.
  intro P. unfold power. rewrite units_voltage, units_current by exact P. destruct (voltage N j x) as (a, b), (current N j G B x) as (c, d).
  unfold s, power_factor. cbn. split; ring.
Qed.

Lemma position_inside i e d : nth_error (edges N) i = Some e -> gas_end e d ->
  exists k, (k + 1 < edge_states (e_type e))%nat /\ end_position N i d = (fst (edge_block N i) + k)%nat.
Proof.
  intros He Hd. destruct (end_inside N i e d W He Hd) as (A & B). exists (end_position N i d - fst (edge_block N i))%nat. lia.
Qed.
(** An edge that carries gas and touches a gas node does so at one of its gas ends. *)
Lemma touches_gas_end i e d j : nth_error (edges N) i = Some e -> carries_gas e = true -> touches e d j -> is_gas_node N j -> gas_end e d.
Proof.
  intros He C T G. destruct (proj1 (Forall_forall _ _) W e (nth_error_In _ _ He)) as (_ & K). unfold gas_end, carries_gas, touches in *.
  destruct (e_type e), d; auto; try discriminate. destruct K as (_ & K). rewrite T in K. unfold is_gas_node, is_power_node in *.
  destruct (nth_error (nodes N) j) as [[]|]; contradiction.
Qed.
Lemma units_pressure i e d : nth_error (edges N) i = Some e -> gas_end e d -> pressure_at N' i (edge_units u w e) d x' = pressure_at N i e d x.
Proof.
  intros He Hd. destruct (position_inside i e d He Hd) as (k & K & P). assert (E : end_position N' i d = end_position N i d) by (unfold end_position; rewrite units_edge_block; reflexivity).
  unfold pressure_at. rewrite E, P. destruct X as (_ & B). rewrite (B i e k He) by lia. unfold edge_units. cbn [e_type]. destruct (e_type e); reflexivity.
Qed.
Lemma units_flow i e d : nth_error (edges N) i = Some e -> gas_end e d -> flow_at N' i d x' = flow_at N i d x.
Proof.
  intros He Hd. destruct (position_inside i e d He Hd) as (k & K & P). assert (E : end_position N' i d = end_position N i d) by (unfold end_position; rewrite units_edge_block; reflexivity).
  unfold flow_at. rewrite E, P. destruct X as (_ & B). replace (fst (edge_block N i) + k + 1)%nat with (fst (edge_block N i) + (k + 1))%nat by lia. rewrite (B i e (k + 1)%nat He) by lia. reflexivity.
Qed.
Lemma units_equal j pr : is_gas_node N j -> equal_pressures N' j x' pr <-> equal_pressures N j x pr.
Proof.
  intro G. split; intros E i e d He C T.
  - pose proof (touches_gas_end i e d j He C T G) as Hd. rewrite <- (units_pressure i e d He Hd). apply E; [rewrite units_edge, He; reflexivity|rewrite units_carries; exact C|apply units_touches; exact T].
  - rewrite units_edge in He. destruct (nth_error (edges N) i) as [e0|] eqn:He0; [|discriminate]. injection He as <-. rewrite units_carries in C. apply units_touches in T.
    pose proof (touches_gas_end i e0 d j He0 C T G) as Hd. rewrite (units_pressure i e0 d He0 Hd). exact (E i e0 d He0 C T).
Qed.
Lemma units_has j : has_gas_edge N' j <-> has_gas_edge N j.
Proof.
  split; intros (i & e & d & He & C & T).
  - rewrite units_edge in He. destruct (nth_error (edges N) i) as [e0|] eqn:He0; [|discriminate]. injection He as <-. rewrite units_carries in C. apply units_touches in T.
    exists i, e0, d. auto.
  - exists i, (edge_units u w e), d. split; [rewrite units_edge, He; reflexivity|]. split; [rewrite units_carries; exact C|apply units_touches; exact T].
Qed.
Lemma units_outflow j : is_gas_node N j -> net_outflow N' j x' = net_outflow N j x.
Proof.
  intro G. unfold net_outflow. unfold numbered. rewrite units_edges, map_length.
  assert (M : forall (l : list edge) a, combine (seq a (length l)) (map (edge_units u w) l) = map (fun ie => (fst ie, edge_units u w (snd ie))) (combine (seq a (length l)) l)).
  { induction l as [|e l IH]; intro a; [reflexivity|]. cbn. rewrite IH. reflexivity. }
  rewrite M, rsum_map. apply rsum_ext. intros (i, e) I. apply in_combine_seq in I. cbn [fst snd]. rewrite units_carries.
  destruct (carries_gas e) eqn:C; [|reflexivity]. cbn [edge_units e_from e_to].
  f_equal; [|f_equal].
  - destruct (Nat.eqb_spec (e_from e) j) as [T|T]; [|reflexivity]. apply (units_flow i e dstart I). exact (touches_gas_end i e dstart j I C T G).
  - destruct (Nat.eqb_spec (e_to e) j) as [T|T]; [|reflexivity]. apply (units_flow i e dend I). exact (touches_gas_end i e dend j I C T G).
Qed.
Lemma times_cancel f a b : f <> 0 -> f * a = f * b <-> a = b.
Proof. intro F. split; [intro E; apply (Rmult_eq_reg_l f); assumption|intros ->; reflexivity]. Qed.
Lemma units_node_equation j t t' t1 : nth_error (nodes N) j = Some t -> nth_error (nodes N') j = Some t' ->
  node_equation N' j t' t1 x' <-> node_equation N j t t1 x.
Proof.
  intros Ht Ht'. pose proof (units_node j) as A. rewrite Ht, Ht' in A. pose proof factor_not_zero as Z.
  destruct A as [|sink b|b|ext G B b b' V|ext G B b b' V|ext G B b b' V].
  - assert (Gs : is_gas_node N j) by (unfold is_gas_node; rewrite Ht; exact Logic.I). cbn. rewrite units_outflow, units_has by exact Gs.
    assert (E : forall pr, equal_pressures N' j x' pr <-> equal_pressures N j x pr) by (intro; apply units_equal; exact Gs). setoid_rewrite E. reflexivity.
  - assert (Gs : is_gas_node N j) by (unfold is_gas_node; rewrite Ht; exact Logic.I). cbn. rewrite units_outflow, units_has by exact Gs.
    assert (E : forall pr, equal_pressures N' j x' pr <-> equal_pressures N j x pr) by (intro; apply units_equal; exact Gs). setoid_rewrite E. reflexivity.
  - assert (Gs : is_gas_node N j) by (unfold is_gas_node; rewrite Ht; exact Logic.I). cbn. rewrite units_has by exact Gs.
    assert (E : forall pr, equal_pressures N' j x' pr <-> equal_pressures N j x pr) by (intro; apply units_equal; exact Gs). setoid_rewrite E. reflexivity.
  - assert (P : is_power_node N j) by (unfold is_power_node; rewrite Ht; exact Logic.I). destruct (units_power j G B P) as (P1 & P2). specialize (V t1).
    cbn [node_equation]. fold s in V. split; intros (v & Ev & Q).
    + rewrite Ev in V. destruct (b t1) as [v0| |]; try contradiction. destruct V as (V0 & V1). exists v0. split; [reflexivity|].
      assert (Q1 := f_equal fst Q). assert (Q2 := f_equal snd Q). change (fst (v 0%nat, v 1%nat)) with (v 0%nat) in Q1. change (snd (v 0%nat, v 1%nat)) with (v 1%nat) in Q2. rewrite (surjective_pairing (power N j G B x)). f_equal.
      * apply (times_cancel s); [exact Z|]. congruence.
      * apply (times_cancel s); [exact Z|]. congruence.
    + rewrite Ev in V. destruct (b' t1) as [v0| |]; try contradiction. destruct V as (V0 & V1). exists v0. split; [reflexivity|].
      rewrite (surjective_pairing (power N' j (w * G) (w * B) x')), P1, P2, Q. cbn [fst snd]. congruence.
  - assert (P : is_power_node N j) by (unfold is_power_node; rewrite Ht; exact Logic.I). destruct (units_power j G B P) as (P1 & P2). specialize (V t1).
    destruct X as (XA & _). destruct (XA j P) as (X0 & X1). cbn [node_equation]. rewrite units_node_block, P1, X0. fold s in V. split; intros (v & Ev & Q1 & Q2).
    + rewrite Ev in V. destruct (b t1) as [v0| |]; try contradiction. destruct V as (V0 & V1). exists v0. split; [reflexivity|].
      split; [apply (times_cancel s); [exact Z|congruence]|apply (times_cancel u); [exact Hu|congruence]].
    + rewrite Ev in V. destruct (b' t1) as [v0| |]; try contradiction. destruct V as (V0 & V1). exists v0. split; [reflexivity|]. split; congruence.
  - assert (P : is_power_node N j) by (unfold is_power_node; rewrite Ht; exact Logic.I). specialize (V t1).
    destruct X as (XA & _). destruct (XA j P) as (X0 & X1). cbn [node_equation]. rewrite units_node_block, X0, X1. split; intros (v & Ev & Q1 & Q2).
    + rewrite Ev in V. destruct (b t1) as [v0| |]; try contradiction. destruct V as (V0 & V1). exists v0. split; [reflexivity|].
      split; [apply (times_cancel u); [exact Hu|congruence]|lra].
    + rewrite Ev in V. destruct (b' t1) as [v0| |]; try contradiction. destruct V as (V0 & V1). exists v0. split; [reflexivity|]. split; [congruence|lra].
Qed.
Lemma units_edge_equation i e t0 t1 last last' c : nth_error (edges N) i = Some e -> state_units u N last last' ->
  edge_equation N' i (edge_units u w e) t0 t1 last' x' c <-> edge_equation N i e t0 t1 last x c.
Proof.
  intros He XL. destruct X as (XA & XB). destruct XL as (_ & LB). unfold edge_equation. rewrite units_edge_block, units_control_block.
  set (b := fst (edge_block N i)). cbn [edge_units e_type].
  assert (R : forall k, (k < edge_states (e_type e))%nat -> x' (b + k)%nat = x (b + k)%nat) by (intros k Hk; exact (XB i e k He Hk)).
  assert (RL : forall k, (k < edge_states (e_type e))%nat -> last' (b + k)%nat = last (b + k)%nat) by (intros k Hk; exact (LB i e k He Hk)).
  destruct (e_type e) as [d r dx np| |cw| |g2p p2g|g b0] eqn:T; cbn [edge_states] in R, RL.
  - assert (Sg : forall (y y' : vec) m, (forall k, (k < 2 * np)%nat -> y' (b + k)%nat = y (b + k)%nat) -> (m < np)%nat ->
      seg y' (b + 2 * m) 0%nat = seg y (b + 2 * m) 0%nat /\ seg y' (b + 2 * m) 1%nat = seg y (b + 2 * m) 1%nat).
    { intros y y' m E L. unfold seg. rewrite <- !Nat.add_assoc. split; apply E; lia. }
    assert (Cell : forall m, (m + 1 < np)%nat ->
      cell_balanced d r dx t0 t1 (seg last' (b + 2 * m)) (seg last' (b + 2 * (m + 1))) (seg x' (b + 2 * m)) (seg x' (b + 2 * (m + 1)))
      <-> cell_balanced d r dx t0 t1 (seg last (b + 2 * m)) (seg last (b + 2 * (m + 1))) (seg x (b + 2 * m)) (seg x (b + 2 * (m + 1)))).
    { intros m L. destruct (Sg x x' m R ltac:(lia)) as (A0 & A1). destruct (Sg x x' (m + 1)%nat R L) as (B0 & B1).
      destruct (Sg last last' m RL ltac:(lia)) as (C0 & C1). destruct (Sg last last' (m + 1)%nat RL L) as (D0 & D1).
      assert (So : forall a a' : vec, a' 0%nat = a 0%nat -> a' 1%nat = a 1%nat -> source d r a' = source d r a) by (intros a a' Q0 Q1; unfold source; rewrite Q0, Q1; reflexivity).
      assert (Fl : forall a a' : vec, a' 0%nat = a 0%nat -> a' 1%nat = a 1%nat -> flux d a' = flux d a) by (intros a a' Q0 Q1; unfold flux; rewrite Q0, Q1; reflexivity).
      unfold cell_balanced. rewrite (So _ _ A0 A1), (So _ _ B0 B1), (Fl _ _ A0 A1), (Fl _ _ B0 B1).
      split; intros (sl & sr & E1 & E2 & E3); exists sl, sr; (split; [exact E1|]); (split; [exact E2|]); intros k Hk; specialize (E3 k Hk);
        destruct k as [|[|k]]; try lia; congruence. }
    split; intros E m L; apply Cell; auto.
  - rewrite (R 1%nat), (R 2%nat), (R 3%nat), <- (Nat.add_0_r b), (R 0%nat) by lia. rewrite Nat.add_0_r. reflexivity.
  - rewrite (R 1%nat), (R 2%nat), (R 3%nat), <- (Nat.add_0_r b), (R 0%nat) by lia. rewrite Nat.add_0_r. reflexivity.
  - rewrite (R 1%nat), (R 2%nat), (R 3%nat), <- (Nat.add_0_r b), (R 0%nat) by lia. rewrite Nat.add_0_r. reflexivity.
  - rewrite R by lia. fold s. rewrite units_generated. destruct (proj1 (Forall_forall _ _) W e (nth_error_In _ _ He)) as (_ & K). rewrite T in K. destruct K as (_ & K).
    change (e_to (edge_units u w e)) with (e_to e). pose proof (units_node (e_to e)) as A. unfold is_power_node in K.
    destruct (nth_error (nodes N) (e_to e)) as [t|] eqn:Et; [|contradiction]. destruct (nth_error (nodes N') (e_to e)) as [t'|]; [|contradiction].
    assert (P : is_power_node N (e_to e)) by (unfold is_power_node; rewrite Et; exact K).
    assert (Z := factor_not_zero).
    assert (Main : forall G B, (exists w0, omap (Rmult s) (generated_power g2p p2g (x (b + 1)%nat)) = Ok w0 /\ fst (power N' (e_to e) (w * G) (w * B) x') = w0)
      <-> (exists w0, generated_power g2p p2g (x (b + 1)%nat) = Ok w0 /\ fst (power N (e_to e) G B x) = w0)).
    { intros G B. rewrite (proj1 (units_power (e_to e) G B P)). destruct (generated_power g2p p2g (x (b + 1)%nat)) as [g| |]; cbn.
      - split; intros (w0 & E & Q); injection E as <-; eexists; (split; [reflexivity|]).
        + apply (times_cancel s); assumption.
        + rewrite Q. reflexivity.
      - split; intros (w0 & E & _); discriminate.
      - split; intros (w0 & E & _); discriminate. }
    destruct A; try contradiction; apply Main.
  - reflexivity.
Qed.
End State.

Theorem units_equations t0 t1 last last' x x' c : state_units u N last last' -> state_units u N x x' ->
  (network_equations N' t0 t1 last' x' c <-> network_equations N t0 t1 last x c).
Proof.
  intros XL X. split; intros (A & B); split.
  - intros j t Ht. pose proof (units_node j) as K. rewrite Ht in K. destruct (nth_error (nodes N') j) as [t'|] eqn:Ht'; [|contradiction].
    apply (units_node_equation x x' X j t t' t1 Ht Ht'). apply A. exact Ht'.
  - intros i e He. apply (units_edge_equation x x' X i e t0 t1 last last' c He XL). apply B. rewrite units_edge, He. reflexivity.
  - intros j t' Ht'. pose proof (units_node j) as K. rewrite Ht' in K. destruct (nth_error (nodes N) j) as [t|] eqn:Ht; [|contradiction].
    apply (units_node_equation x x' X j t t' t1 Ht Ht'). apply A. exact Ht.
  - intros i e' He'. rewrite units_edge in He'. destruct (nth_error (edges N) i) as [e|] eqn:He; [|discriminate]. injection He' as <-.
    apply (units_edge_equation x x' X i e t0 t1 last last' c He XL). apply B. exact He.
Qed.
End Units.
