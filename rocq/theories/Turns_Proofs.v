(** States with the same complex voltages. *)
From Coq Require Import Reals ZArith Lra Lia List Arith Bool Psatz.
From Coquelicot Require Import Coquelicot Complex.
From Verif Require Import Base Interp_Model Calc Euler_Model Euler_Spec Box_Model Net_Model Net_Spec Net_Proofs Net_Proofs2 Net_Proofs3 Net_Proofs4 Net_Proofs5 Net_Proofs6
  Net_Proofs8 Net_Props Grid_Spec Grid_Proofs Grid_Proofs2 Unit_Proofs2 Unit_Proofs Level_Spec Level_Proofs Mass_Proofs.
From Verif Require Import Turns_Spec.
Import ListNotations.
Local Open Scope R_scope.

Lemma sin_half m : sin (IZR m * PI) = 0.
Proof. apply sin_eq_0_1. exists m. reflexivity. Qed.
Lemma cos_even k : cos (IZR (2 * k) * PI) = 1.
Proof.
  rewrite mult_IZR. replace (2 * IZR k * PI) with (2 * (IZR k * PI)) by ring. rewrite cos_2a_sin, sin_half. ring.
Qed.
Lemma cos_half m : cos (IZR m * PI) = if Z.even m then 1 else -1.
Proof.
  destruct (Z.even m) eqn:E.
  - apply Z.even_spec in E. destruct E as (k & ->). apply cos_even.
  - assert (O : Z.odd m = true) by (rewrite <- Z.negb_even, E; reflexivity). apply Z.odd_spec in O. destruct O as (k & ->).
    rewrite plus_IZR. replace ((IZR (2 * k) + 1) * PI) with (IZR (2 * k) * PI + PI) by ring. rewrite neg_cos, cos_even. reflexivity.
Qed.

Section Turns.
Variables (N : network) (m : nat -> Z) (x y : vec).
Hypothesis T : half_turned N m x y.

Lemma voltage_same j : is_power_node N j -> voltage N j y = voltage N j x.
Proof.
  intro H. destruct (proj1 T j H) as (A & B). unfold voltage. rewrite A, B, cos_plus, sin_plus, sin_half, cos_half.
  destruct (Z.even (m j)); f_equal; ring.
Qed.
Lemma turns_edges i e : nth_error (edges N) i = Some e -> same_from (fst (edge_block N i)) x y.
Proof.
  intros He k L. apply (proj2 T). intros (j & H & E). pose proof (node_before_edge N j i e H He). lia.
Qed.
Hypothesis W : well_formed N.
Lemma current_same j G B : is_power_node N j -> current N j G B y = current N j G B x.
Proof.
  intro H. unfold current. rewrite voltage_same by exact H. f_equal.
  assert (K : forall e, In e (edges N) -> edge_ok N e) by (apply List.Forall_forall; exact W).
  revert K. generalize (edges N). induction l as [|e l IH]; intro K; [reflexivity|]. unfold csum in *. cbn [fold_right]. rewrite IH by (intros; apply K; right; assumption).
  f_equal. destruct (K e (or_introl eq_refl)) as (_ & Q). destruct (e_type e); try reflexivity. destruct Q as (Q1 & Q2). rewrite !voltage_same by assumption. reflexivity.
Qed.
Lemma power_same j G B : is_power_node N j -> power N j G B y = power N j G B x.
Proof. intro H. unfold power. rewrite voltage_same, current_same by exact H. reflexivity. Qed.
Lemma PQ_same j : is_power_node N j -> P (power_of N j) y = P (power_of N j) x /\ Q (power_of N j) y = Q (power_of N j) x.
Proof.
  intro H. destruct (power_known N j W H) as (_ & l & Hl & _).
  assert (E : exists k e G B b, nth_error (nodes N) j = Some (Powernode k e G B b)).
  { unfold is_power_node in H. destruct (nth_error (nodes N) j) as [[]|]; try (destruct H; fail). eauto 6. }
  destruct E as (k & e & G & B & b & E).
  pose proof (power_value N j k e G B b l x W E Hl) as Ex. pose proof (power_value N j k e G B b l y W E Hl) as Ey.
  rewrite power_same, Ex in Ey by exact H. injection Ey as E1 E2.
  rewrite !(P_ok _ l) by exact Hl. rewrite !(Q_ok _ l) by exact Hl. rewrite E1, E2. split; reflexivity.
Qed.

Hypothesis Free : allowed N m.
Lemma given_kept j k ext G B b : nth_error (nodes N) j = Some (Powernode k ext G B b) -> k <> PQ -> y (fst (node_block N j)) = x (fst (node_block N j)).
Proof.
  intros H K. assert (P : is_power_node N j) by (unfold is_power_node; rewrite H; exact Logic.I). rewrite (proj1 (proj1 T j P)). pose proof (Free j) as F. rewrite H in F.
  destruct k; [congruence|rewrite F; reflexivity|rewrite F; reflexivity].
Qed.
Lemma phase_kept j ext G B b : nth_error (nodes N) j = Some (Powernode Vphi ext G B b) -> y (fst (node_block N j) + 1)%nat = x (fst (node_block N j) + 1)%nat.
Proof.
  intro H. assert (P : is_power_node N j) by (unfold is_power_node; rewrite H; exact Logic.I). rewrite (proj2 (proj1 T j P)). pose proof (Free j) as F. rewrite H in F. rewrite F. ring.
Qed.
Lemma node_half j t t1 : nth_error (nodes N) j = Some t -> node_evaluate N j t t1 y = node_evaluate N j t t1 x.
Proof.
  intro H.
  assert (G : is_gas_node N j -> all_same (attached_gas N j) x y).
  { intros Hg de Hde. destruct (attached_facts N j W Hg) as (F & _). rewrite List.Forall_forall in F. split; [apply F; exact Hde|].
    destruct de as [d g]. apply attached_in in Hde. destruct Hde as (i & e & H1 & H2 & _).
    destruct (gas_of_kind N i e g H2) as (_ & E & _). pose proof (turns_edges i e H1) as S. rewrite <- E in S. exact S. }
  unfold node_evaluate. destruct t as [|sink b|b|k ext G' B b].
  - apply flow_same. apply G. unfold is_gas_node. rewrite H. exact Logic.I.
  - assert (S : all_same (attached_gas N j) x y) by (apply G; unfold is_gas_node; rewrite H; exact Logic.I).
    destruct (attached_gas N j); [reflexivity|]. destruct (b t1); cbn [obind]; try reflexivity. apply flow_same. exact S.
  - assert (S : all_same (attached_gas N j) x y) by (apply G; unfold is_gas_node; rewrite H; exact Logic.I).
    destruct (attached_gas N j); [reflexivity|]. destruct (b t1); cbn [obind]; try reflexivity. apply pressure_same. exact S.
  - assert (Hp : is_power_node N j) by (unfold is_power_node; rewrite H; exact Logic.I).
    destruct (b t1) as [v| |]; cbn [obind]; try reflexivity. destruct (PQ_same j Hp) as (EP & EQ). unfold power_evaluate.
    assert (SV : pn_start (power_of N j) = fst (node_block N j)) by (unfold power_of; rewrite H; reflexivity).
    destruct k; rewrite ?EP, ?EQ, ?SV.
    + reflexivity.
    + rewrite (given_kept j _ _ _ _ _ H) by discriminate. reflexivity.
    + rewrite (given_kept j _ _ _ _ _ H), (phase_kept j _ _ _ _ H) by discriminate. reflexivity.
Qed.
Lemma evaluate_half t0 t1 last c v : evaluate N t0 t1 last y c v = evaluate N t0 t1 last x c v.
Proof.
  unfold evaluate. f_equal. unfold evaluate_writes. f_equal.
  assert (Ed : forall sel, on_edges N sel (fun g => edge_evaluate g t0 t1 last y c) = on_edges N sel (fun g => edge_evaluate g t0 t1 last x c)).
  { intro sel. rewrite !on_edges_gases. apply map_ext_in. intros g Hg. destruct (gases_in N sel g Hg) as (i & e & H1 & H2 & _).
    destruct (gas_of_size N i e g W H1 H2) as (Sz & _). destruct (gas_of_kind N i e g H2) as (_ & E & K & NL).
    apply edge_same; [exact Sz| |].
    - pose proof (turns_edges i e H1) as S. rewrite <- E in S. exact S.
    - intros g2p p2g plant Kp. rewrite Kp in K. pose proof W as W'. unfold well_formed in W'. rewrite List.Forall_forall in W'.
      destruct (W' e (nth_error_In _ _ H1)) as (_ & Ke).
      destruct (e_type e) as [| | | |g2p' p2g'|gl bl] eqn:Ty; try discriminate; [|exfalso; exact (NL gl bl eq_refl)].
      injection K as -> -> ->. apply PQ_same. tauto. }
  rewrite !Ed. f_equal. unfold on_nodes. apply map_ext_in. intros [j t] Hj. cbn [fst snd]. apply in_combine_seq in Hj.
  apply node_half. exact Hj.
Qed.
End Turns.

(** The equations depend on the last state only through the edges. *)
Lemma last_edges N t0 t1 last last' x c : (forall i e, nth_error (edges N) i = Some e -> same_from (fst (edge_block N i)) last last') ->
  network_equations N t0 t1 last x c -> network_equations N t0 t1 last' x c.
Proof.
  intros S (A & B). split; [exact A|]. intros i e He. specialize (B i e He). specialize (S i e He). unfold edge_equation in *.
  destruct (e_type e); try exact B. intros k Hk. specialize (B k Hk). destruct B as (sl & sr & B1 & B2 & B3). exists sl, sr. split; [exact B1|]. split; [exact B2|].
  intros j Hj. specialize (B3 j Hj). unfold seg in *. rewrite !S by lia. exact B3.
Qed.
Lemma half_back N m x y : half_turned N m x y -> half_turned N (fun j => - m j)%Z y x.
Proof.
  intros (A & B). split.
  - intros j H. destruct (A j H) as (A0 & A1). rewrite A0, A1, Z.even_opp, opp_IZR. destruct (Z.even (m j)); split; ring.
  - intros k H. symmetry. apply B. exact H.
Qed.

(** Every state can be turned. *)
Definition turn_at (N : network) (m : nat -> Z) (x : vec) : vec := fun k =>
  match find (fun j => power_here N j && Nat.leb (fst (node_block N j)) k && Nat.leb k (fst (node_block N j) + 1))%bool (seq 0 (length (nodes N))) with
  | Some j => if Nat.eqb k (fst (node_block N j)) then (if Z.even (m j) then x k else - x k) else x k + IZR (m j) * PI
  | None => x k
  end.
Lemma turn_at_find N m x j k : is_power_node N j -> (fst (node_block N j) <= k <= fst (node_block N j) + 1)%nat ->
  turn_at N m x k = if Nat.eqb k (fst (node_block N j)) then (if Z.even (m j) then x k else - x k) else x k + IZR (m j) * PI.
Proof.
  intros H L. unfold turn_at. destruct (find _ _) as [j'|] eqn:F.
  - apply find_some in F. destruct F as (_ & F). apply andb_true_iff in F. destruct F as (F & F2). apply andb_true_iff in F. destruct F as (F0 & F1).
    apply power_here_spec in F0. apply Nat.leb_le in F1, F2. destruct (Nat.eq_dec j j') as [<-|D]; [reflexivity|]. pose proof (nodes_apart N j j' H F0 D). lia.
  - exfalso. assert (I : In j (seq 0 (length (nodes N)))).
    { apply in_seq. split; [lia|]. cbn. apply nth_error_Some. unfold is_power_node in H. destruct (nth_error (nodes N) j); [discriminate|contradiction]. }
    pose proof (find_none _ _ F j I) as Q. cbn beta in Q. rewrite (proj2 (power_here_spec N j) H) in Q. rewrite (proj2 (Nat.leb_le _ _) (proj1 L)), (proj2 (Nat.leb_le _ _) (proj2 L)) in Q. discriminate.
Qed.
Lemma turn_at_half N m x : half_turned N m x (turn_at N m x).
Proof.
  split.
  - intros j H. split.
    + rewrite (turn_at_find N m x j) by (auto; lia). rewrite Nat.eqb_refl. reflexivity.
    + rewrite (turn_at_find N m x j) by (auto; lia). rewrite (proj2 (Nat.eqb_neq _ _)) by lia. reflexivity.
  - intros k H. unfold turn_at. destruct (find _ _) as [j'|] eqn:F; [|reflexivity]. exfalso. apply H.
    apply find_some in F. destruct F as (_ & F). apply andb_true_iff in F. destruct F as (F & F2). apply andb_true_iff in F. destruct F as (F0 & F1).
    apply power_here_spec in F0. apply Nat.leb_le in F1, F2. exists j'. split; [exact F0|]. lia.
Qed.

(** A voltage other than zero determines amplitude and phase up to half turns. *)
Lemma polar V a V' a' : V <> 0 -> V' * cos a' = V * cos a -> V' * sin a' = V * sin a ->
  exists m : Z, V' = (if Z.even m then V else - V) /\ a' = a + IZR m * PI.
Proof.
  intros Z E1 E2. assert (S0 : V * sin (a' - a) = 0).
  { rewrite sin_minus. assert (Q : V * (sin a' * cos a - cos a' * sin a) = sin a' * (V * cos a) - cos a' * (V * sin a)) by ring. rewrite Q, <- E1, <- E2. ring. }
  apply Rmult_integral in S0. destruct S0 as [S0|S0]; [contradiction|]. destruct (sin_eq_0_0 _ S0) as (m & Hm).
  assert (Ha : a' = a + IZR m * PI) by lra. exists m. split; [|exact Ha]. rewrite Ha, cos_plus, sin_half, cos_half in E1. rewrite Ha, sin_plus, sin_half, cos_half in E2.
  pose proof (sin2_cos2 a) as SC. unfold Rsqr in SC.
  destruct (Z.even m).
  - assert (C1 : (V' - V) * cos a = 0) by lra. assert (C2 : (V' - V) * sin a = 0) by lra.
    apply Rmult_integral in C1. apply Rmult_integral in C2. destruct C1 as [C1|C1]; [lra|]. destruct C2 as [C2|C2]; [lra|]. rewrite C1, C2 in SC. lra.
  - assert (C1 : (V' + V) * cos a = 0) by lra. assert (C2 : (V' + V) * sin a = 0) by lra.
    apply Rmult_integral in C1. apply Rmult_integral in C2. destruct C1 as [C1|C1]; [lra|]. destruct C2 as [C2|C2]; [lra|]. rewrite C1, C2 in SC. lra.
Qed.
