(** The residual vanishes exactly when the equations of the network hold. *)
From Coq Require Import Reals Lra Lia List Arith Permutation.
From Coquelicot Require Import Complex.
From Verif Require Import Base Interp_Model Calc Euler_Model Euler_Spec Euler_Proofs Euler_Proofs2
  Box_Model Box_Spec Box_Proofs Net_Model Net_Spec Net_Proofs Net_Proofs2 Net_Proofs3 Net_Proofs4 Net_Proofs5
  Net_Proofs6 Net_Proofs7.
Import ListNotations.
Local Open Scope R_scope.

(** ** Sums *)
Lemma rsum_app {A} (f : A -> R) l m : rsum f (l ++ m) = rsum f l + rsum f m.
Proof. induction l as [|a l IH]; cbn; [ring|rewrite IH; ring]. Qed.
Lemma rsum_ext {A} (f g : A -> R) l : (forall a, In a l -> f a = g a) -> rsum f l = rsum g l.
Proof.
  induction l as [|a l IH]; intro H; cbn; [reflexivity|]. rewrite H by (left; auto).
  rewrite IH; [reflexivity|]. intros; apply H; right; auto.
Qed.
Lemma rsum_plus {A} (f g : A -> R) l : rsum f l + rsum g l = rsum (fun a => f a + g a) l.
Proof. induction l as [|a l IH]; cbn; [ring|rewrite <- IH; ring]. Qed.
Lemma rsum_flat {A B} (f : B -> R) (g : A -> list B) l :
  rsum f (flat_map g l) = rsum (fun a => rsum f (g a)) l.
Proof. induction l as [|a l IH]; cbn; [reflexivity|rewrite rsum_app, IH; reflexivity]. Qed.
Lemma rsum_filter {A} (f : A -> R) h l : rsum f (filter h l) = rsum (fun a => if h a then f a else 0) l.
Proof. induction l as [|a l IH]; cbn; [reflexivity|]. destruct (h a); cbn; rewrite IH; ring. Qed.

(** ** Power *)
Lemma conj_csum (fc : C -> R) {A} (f : A -> C) l :
  fc (RtoC 0) = 0 -> (forall a b, fc (Cplus a b) = fc a + fc b) ->
  fc (csum f l) = rsum (fun a => fc (f a)) l.
Proof. intros Z P. induction l as [|a l IH]; cbn; [exact Z|]. rewrite P. unfold csum in IH. rewrite IH. reflexivity. Qed.

Definition oterm (f : R * R * nat -> R) (t : R * R * option nat) : R :=
  match snd t with Some k => f (fst t, k) | None => 0 end.
Lemma known_sum f ls l : lines_known ls l -> rsum f l = rsum (oterm f) ls.
Proof.
  unfold lines_known. intros ->. induction l as [|[gb k] l IH]; cbn; [reflexivity|]. rewrite IH. reflexivity.
Qed.
Lemma power_sum f N j : (forall e, In e (edges N) -> edge_ok N e) ->
  rsum (oterm f) (power_lines N j) =
  rsum (fun e => match e_type e with
                 | ELine g b => (if Nat.eqb (e_from e) j then f (g, b, fst (node_block N (e_to e))) else 0)
                                + (if Nat.eqb (e_to e) j then f (g, b, fst (node_block N (e_from e))) else 0)
                 | _ => 0
                 end) (edges N).
Proof.
  intro W. unfold power_lines. rewrite rsum_app, !rsum_flat, !rsum_filter, rsum_plus.
  apply rsum_ext. intros e He. specialize (W e He). destruct W as [_ W]. unfold line_of.
  destruct (e_type e); cbn [rsum]; try (destruct (Nat.eqb (e_from e) j), (Nat.eqb (e_to e) j); ring).
  destruct W as [W1 W2]. rewrite (proj1 (power_start_ok N _ W1)), (proj1 (power_start_ok N _ W2)).
  unfold oterm. cbn [snd fst]. destruct (Nat.eqb (e_from e) j), (Nat.eqb (e_to e) j); ring.
Qed.

Lemma power_value N j k ext G B b l x : well_formed N ->
  nth_error (nodes N) j = Some (Powernode k ext G B b) -> lines_known (pn_lines (power_of N j)) l ->
  power N j G B x = (Pval (power_of N j) l x, Qval (power_of N j) l x).
Proof.
  intros W H HL. unfold well_formed in W. rewrite List.Forall_forall in W.
  unfold Pval, Qval. rewrite !(known_sum _ _ l HL). unfold power_of in *. rewrite H in *.
  cbn [pn_start pn_G pn_B pn_lines] in *. rewrite !power_sum by exact W.
  assert (L1 : forall a c, fst (Cmult (voltage N j x) (Cconj (Cplus a c)))
    = fst (Cmult (voltage N j x) (Cconj a)) + fst (Cmult (voltage N j x) (Cconj c)))
    by (intros [] []; cbn; ring).
  assert (L2 : forall a c, snd (Cmult (voltage N j x) (Cconj (Cplus a c)))
    = snd (Cmult (voltage N j x) (Cconj a)) + snd (Cmult (voltage N j x) (Cconj c)))
    by (intros [] []; cbn; ring).
  assert (T1 : forall g c m, fst (Cmult (voltage N j x) (Cconj (Cmult (g, c) (voltage N m x)))) =
    Pterm (fst (node_block N j)) (fst (node_block N j) + 1) (g, c, fst (node_block N m)) x).
  { intros g c m. unfold voltage, Pterm. cbn. rewrite cos_minus, sin_minus. ring. }
  assert (T2 : forall g c m, snd (Cmult (voltage N j x) (Cconj (Cmult (g, c) (voltage N m x)))) =
    Qterm (fst (node_block N j)) (fst (node_block N j) + 1) (g, c, fst (node_block N m)) x).
  { intros g c m. unfold voltage, Qterm. cbn. rewrite cos_minus, sin_minus. ring. }
  assert (Z1 : fst (Cmult (voltage N j x) (Cconj (RtoC 0))) = 0) by (cbn; ring).
  assert (Z2 : snd (Cmult (voltage N j x) (Cconj (RtoC 0))) = 0) by (cbn; ring).
  assert (D0 : forall r, r - r = 0) by (intro; ring).
  unfold power, current.
  rewrite (surjective_pairing (Cmult (voltage N j x) (Cconj (Cplus (Cmult (G, B) (voltage N j x)) _)))).
  f_equal.
  - rewrite L1, T1.
    rewrite (conj_csum (fun w => fst (Cmult (voltage N j x) (Cconj w))) _ _ Z1 L1). f_equal.
    + unfold Pterm. rewrite (D0 (x (fst (node_block N j) + 1)%nat)), cos_0, sin_0. ring.
    + apply rsum_ext. intros e _. destruct (e_type e); try exact Z1. rewrite L1.
      destruct (Nat.eqb (e_from e) j), (Nat.eqb (e_to e) j); rewrite ?T1, ?Z1; reflexivity.
  - rewrite L2, T2.
    rewrite (conj_csum (fun w => snd (Cmult (voltage N j x) (Cconj w))) _ _ Z2 L2). f_equal.
    + unfold Qterm. rewrite (D0 (x (fst (node_block N j) + 1)%nat)), cos_0, sin_0. ring.
    + apply rsum_ext. intros e _. destruct (e_type e); try exact Z2. rewrite L2.
      destruct (Nat.eqb (e_from e) j), (Nat.eqb (e_to e) j); rewrite ?T2, ?Z2; reflexivity.
Qed.

(** ** The edges at a node *)
Lemma attached_iff N j d g : In (d, g) (attached_gas N j) <->
  exists i e, nth_error (edges N) i = Some e /\ gas_of N i e = Some g /\ touches e d j.
Proof.
  split.
  - intro H. apply attached_in in H. destruct H as [i [e [H1 [H2 H3]]]]. exists i, e.
    destruct d; auto.
  - intros [i [e [H1 [H2 H3]]]]. unfold attached_gas. apply in_app_iff.
    destruct d; [left|right]; unfold gas_list; apply in_flat_map; exists (i, e);
      cbn [fst snd]; rewrite H2; (split; [|left; reflexivity]); apply filter_In;
      (split; [apply in_numbered; exact H1|]); cbn [snd]; apply Nat.eqb_eq; exact H3.
Qed.
Lemma gas_carries N i e : carries_gas e = true <-> exists g, gas_of N i e = Some g.
Proof.
  unfold carries_gas, gas_of. destruct (edge_block N i) as [s a].
  destruct (e_type e); split; intro H; eauto; try discriminate. destruct H; discriminate.
Qed.
Lemma end_pressure_at N i e g d x : gas_of N i e = Some g -> end_pressure (d, g) x = pressure_at N i e d x.
Proof.
  intro H. destruct (gas_of_kind N i e g H) as [_ [E [K NL]]].
  unfold end_pressure, pressure_at, end_position, end_index. cbn [fst snd]. rewrite K, <- E.
  destruct (e_type e); try reflexivity. exfalso. eapply NL; eauto.
Qed.
Lemma end_flow_at N i e g d x : gas_of N i e = Some g -> end_flow (d, g) x = flow_at N i d x.
Proof.
  intro H. destruct (gas_of_kind N i e g H) as [_ [E _]].
  unfold end_flow, flow_at, end_position, end_index. cbn [fst snd]. rewrite <- E. reflexivity.
Qed.

Lemma pressures_iff N j x pr :
  (forall de, In de (attached_gas N j) -> end_pressure de x = pr) <-> equal_pressures N j x pr.
Proof.
  unfold equal_pressures. split.
  - intros H i e d H1 H2 H3. apply (gas_carries N i e) in H2. destruct H2 as [g Hg].
    rewrite <- (end_pressure_at N i e g d x Hg). apply H. apply attached_iff. exists i, e. auto.
  - intros H [d g] Hin. apply attached_iff in Hin. destruct Hin as [i [e [H1 [H2 H3]]]].
    rewrite (end_pressure_at N i e g d x H2). apply (H i e d); auto. apply (gas_carries N i e). eauto.
Qed.
Lemma attached_nonempty N j : attached_gas N j <> [] <-> has_gas_edge N j.
Proof.
  unfold has_gas_edge. split.
  - intro H. destruct (attached_gas N j) as [|[d g] l] eqn:E; [congruence|].
    assert (Hin : In (d, g) (attached_gas N j)) by (rewrite E; left; reflexivity).
    apply attached_iff in Hin. destruct Hin as [i [e [H1 [H2 H3]]]]. exists i, e, d.
    split; [auto|]. split; [apply (gas_carries N i e); eauto|auto].
  - intros [i [e [d [H1 [H2 H3]]]]] E. apply (gas_carries N i e) in H2. destruct H2 as [g Hg].
    assert (Hin : In (d, g) (attached_gas N j)) by (apply attached_iff; exists i, e; auto).
    rewrite E in Hin. destruct Hin.
Qed.
Lemma outflow_eq N j x : rsum (fun de => dsign (fst de) * end_flow de x) (attached_gas N j) = net_outflow N j x.
Proof.
  unfold attached_gas, net_outflow, gas_list. rewrite rsum_app, !rsum_flat, !rsum_filter, rsum_plus.
  apply rsum_ext. intros [i e] _. cbn [fst snd].
  destruct (gas_of N i e) as [g|] eqn:E.
  - assert (C : carries_gas e = true) by (apply (gas_carries N i e); eauto). rewrite C.
    cbn [rsum]. rewrite !(end_flow_at N i e g _ x E). cbn [fst dsign].
    destruct (Nat.eqb (e_from e) j), (Nat.eqb (e_to e) j); ring.
  - destruct (carries_gas e) eqn:C; [apply (gas_carries N i e) in C; destruct C; congruence|].
    cbn [rsum]. destruct (Nat.eqb (e_from e) j), (Nat.eqb (e_to e) j); ring.
Qed.

(** ** Nodes *)
Definition zero_iff (rows : list nat) (o : outcome (list write)) (P : Prop) : Prop :=
  exists ws, done rows o ws /\ (NoDup rows -> (vanishes ws <-> P)).

Lemma flow_node_zero N j x q : well_formed N -> is_gas_node N j ->
  zero_iff (flow_rows (attached_gas N j)) (flow_balance (attached_gas N j) x q)
    (has_gas_edge N j -> (exists pr, equal_pressures N j x pr) /\ net_outflow N j x = q).
Proof.
  intros W Hg. destruct (attached_facts N j W Hg) as [F1 _].
  exists (pflow (attached_gas N j) x q). split.
  - split; [apply flow_ok; auto|apply pflow_rows].
  - intro ND. rewrite flow_zero by exact ND. rewrite attached_nonempty, outflow_eq.
    split; intros H K; destruct (H K) as [[pr A] B]; (split; [exists pr; apply pressures_iff; auto|auto]).
Qed.

Lemma node_zero N j t t1 x : well_formed N -> nth_error (nodes N) j = Some t -> has_boundary t t1 ->
  zero_iff (node_rows N j t) (node_evaluate N j t t1 x) (node_equation N j t t1 x).
Proof.
  intros W H HB.
  assert (U : forall (b : boundary) v v', b t1 = Ok v -> b t1 = Ok v' -> v = v') by (intros; congruence).
  destruct t as [|sink b|b|k ext gg bb b]; cbn [node_rows node_evaluate has_boundary node_equation] in *.
  - apply flow_node_zero; auto. unfold is_gas_node. rewrite H. exact I.
  - destruct HB as [v E]. rewrite E. cbn [obind].
    assert (Hg : is_gas_node N j) by (unfold is_gas_node; rewrite H; exact I).
    destruct (flow_node_zero N j x (if sink then - v 0%nat else v 0%nat) W Hg) as [ws [D V]].
    pose proof (attached_nonempty N j) as NE. exists ws. split.
    + destruct (attached_gas N j); exact D.
    + intro ND. rewrite (V ND). split; intros K HE; specialize (K HE).
      * exists v. tauto.
      * destruct K as [v' [Ev K]]. assert (v = v') by congruence. subst v'. exact K.
  - destruct HB as [v E]. rewrite E. cbn [obind].
    assert (Hg : is_gas_node N j) by (unfold is_gas_node; rewrite H; exact I).
    destruct (attached_facts N j W Hg) as [F1 _]. pose proof (attached_nonempty N j) as NE.
    pose proof (pressures_iff N j x (v 0%nat)) as PI.
    assert (Q : zero_iff (map end_row (attached_gas N j)) (pressure_evaluate (attached_gas N j) x (v 0%nat))
                 (equal_pressures N j x (v 0%nat))).
    { assert (ND' : NoDup (map end_row (attached_gas N j)) \/ ~ NoDup (map end_row (attached_gas N j)))
        by (destruct (ListDec.NoDup_dec Nat.eq_dec (map end_row (attached_gas N j))); auto).
      destruct ND' as [ND|ND].
      - destruct (pressure_zero (attached_gas N j) x (v 0%nat) F1 ND) as [ws [E1 [A1 [A2 V]]]].
        exists ws. split; [split; [auto|auto]|]. intros _. rewrite V. exact PI.
      - destruct (jac_done 0 (map end_row (attached_gas N j)) (pressure_evaluate (attached_gas N j) x (v 0%nat)) x (Ok [])) as [ws D].
        { pose proof (node_const N j (Pressurenode b) t1 x 0 x W H ltac:(exists v; exact E)) as J.
          cbn [node_rows node_evaluate] in J. rewrite E in J. cbn [obind] in J.
          destruct (attached_gas N j) eqn:EA; exact J. }
        exists ws. split; [exact D|]. intro; contradiction. }
    destruct Q as [ws [D V]]. exists ws. split.
    + destruct (attached_gas N j); exact D.
    + intro ND. rewrite (V ND). split.
      * intros K _. exists v. auto.
      * intro K. destruct (attached_gas N j) as [|de l] eqn:EA.
        -- apply PI. intros de [].
        -- destruct K as [v' [Ev K]]; [apply NE; discriminate|]. assert (v = v') by congruence. subst v'. exact K.
  - destruct HB as [v E]. rewrite E. cbn [obind].
    assert (Hp : is_power_node N j) by (unfold is_power_node; rewrite H; exact I).
    destruct (power_known N j W Hp) as [K1 [l [K2 K3]]].
    pose proof (power_value N j k ext gg bb b l x W H K2) as PV.
    assert (S : pn_start (power_of N j) = fst (node_block N j)) by (unfold power_of; rewrite H; reflexivity).
    assert (X : forall (Q : vec -> Prop), (exists v', Ok v = Ok v' /\ Q v') <-> Q v).
    { intro Q. split; [intros [v' [Ev HQ]]; assert (v = v') by congruence; subst; auto|intro; exists v; auto]. }
    destruct k; cbn [power_evaluate]; rewrite ?(P_ok _ l), ?(Q_ok _ l) by auto; cbn [obind]; rewrite S;
      (eexists; split; [split; [reflexivity|split; [reflexivity|cbn; auto]]|]); intros _;
      rewrite two_zero by lia; cbv zeta; rewrite X, ?PV.
    + split; [intros [A B]; f_equal; lra|intro A; assert (Pval (power_of N j) l x = v 0%nat /\ Qval (power_of N j) l x = v 1%nat) by (split; congruence); lra].
    + cbn [fst]. split; intros [A B]; split; lra.
    + split; intros [A B]; split; lra.
Qed.
