(** Turning all phases of an island of the power network. *)
From Coq Require Import Reals Lra Lia List Arith Bool Psatz.
From Coquelicot Require Import Coquelicot Complex.
From Verif Require Import Base Interp_Model Calc Euler_Model Euler_Spec Box_Model Net_Model Net_Spec Net_Proofs Net_Proofs2 Net_Proofs3 Net_Proofs4 Net_Proofs5 Net_Proofs6
  Net_Proofs8 Net_Props Grid_Spec Grid_Proofs.
Import ListNotations.
Local Open Scope R_scope.

(** ** Positions *)
Lemma assign_start sizes : forall next i s, nth_error sizes i = Some s ->
  nth_error (fst (assign_indices next sizes)) i =
    Some ((next + list_sum (firstn i sizes))%nat, (next + list_sum (firstn i sizes) + s)%nat).
Proof.
  induction sizes as [|s0 sizes IH]; intros next i s H; [destruct i; discriminate|]. cbn [assign_indices].
  specialize (IH (next + s0)%nat). destruct (assign_indices (next + s0) sizes) as [blocks after]. cbn [fst snd] in *.
  destruct i as [|i]; cbn in H.
  - injection H as ->. cbn. f_equal. f_equal; lia.
  - cbn [nth_error firstn list_sum fold_right]. rewrite (IH i s H). fold (list_sum (firstn i sizes)). f_equal. f_equal; lia.
Qed.
Lemma list_sum_le l : forall i i' s, (i < i')%nat -> nth_error l i = Some s ->
  (list_sum (firstn i l) + s <= list_sum (firstn i' l))%nat.
Proof.
  induction l as [|a l IH]; intros i i' s L H; [destruct i; discriminate|]. destruct i' as [|i']; [lia|].
  destruct i as [|i]; cbn in *.
  - injection H as ->. lia.
  - pose proof (IH i i' s ltac:(lia) H). unfold list_sum in *. lia.
Qed.
Lemma block_order N i i' s s' : (i < i')%nat -> nth_error (state_sizes N) i = Some s -> nth_error (state_sizes N) i' = Some s' ->
  (fst (nth i (state_blocks N) (0, 0)%nat) + s <= fst (nth i' (state_blocks N) (0, 0)%nat))%nat.
Proof.
  intros L H H'. unfold state_blocks. pose proof (list_sum_le _ _ _ _ L H).
  rewrite (nth_error_nth _ _ _ (assign_start _ 0 _ _ H)), (nth_error_nth _ _ _ (assign_start _ 0 _ _ H')). cbn [fst]. lia.
Qed.
Lemma node_size N j : is_power_node N j -> nth_error (state_sizes N) j = Some 2%nat.
Proof.
  intro H. pose proof (power_number N j H) as L. unfold state_sizes. rewrite nth_error_app1 by (rewrite map_length; exact L).
  unfold is_power_node in H. destruct (nth_error (nodes N) j) as [t|] eqn:E; [|destruct H].
  rewrite (map_nth_error _ _ _ E). destruct t; try (destruct H; fail). reflexivity.
Qed.
Lemma edge_size N i e : nth_error (edges N) i = Some e -> nth_error (state_sizes N) (length (nodes N) + i) = Some (edge_states (e_type e)).
Proof.
  intro H. unfold state_sizes. rewrite nth_error_app2 by (rewrite map_length; lia). rewrite map_length.
  replace (length (nodes N) + i - length (nodes N))%nat with i by lia. apply (map_nth_error (fun e => edge_states (e_type e))). exact H.
Qed.
Lemma nodes_apart N j j' : is_power_node N j -> is_power_node N j' -> j <> j' ->
  (fst (node_block N j) + 2 <= fst (node_block N j') \/ fst (node_block N j') + 2 <= fst (node_block N j))%nat.
Proof.
  intros H H' D. destruct (Nat.lt_total j j') as [L|[L|L]]; [left|congruence|right].
  - exact (block_order N j j' 2 2 L (node_size N j H) (node_size N j' H')).
  - exact (block_order N j' j 2 2 L (node_size N j' H') (node_size N j H)).
Qed.
Lemma node_before_edge N j i e : is_power_node N j -> nth_error (edges N) i = Some e ->
  (fst (node_block N j) + 2 <= fst (edge_block N i))%nat.
Proof.
  intros H He. pose proof (power_number N j H).
  exact (block_order N j (length (nodes N) + i) 2 _ ltac:(lia) (node_size N j H) (edge_size N i e He)).
Qed.

(** ** The parts of the residual see only their own variables *)
Definition same_from (s : nat) (x y : vec) : Prop := forall k, (s <= k)%nat -> y k = x k.
Lemma end_pressure_same de x y : same_from (ge_start (snd de)) x y -> (ge_start (snd de) <= end_index (fst de) (snd de))%nat ->
  end_pressure de y = end_pressure de x /\ end_flow de y = end_flow de x.
Proof.
  intros H L. unfold end_pressure, end_flow. rewrite !H by lia. split; reflexivity.
Qed.
Lemma has_end_index de : has_end de -> (ge_start (snd de) <= end_index (fst de) (snd de))%nat.
Proof. unfold has_end, end_index. destruct (fst de); lia. Qed.
Definition all_same (att : attached) (x y : vec) : Prop :=
  forall de, In de att -> has_end de /\ same_from (ge_start (snd de)) x y.
Lemma pbal_same att x y : all_same att x y -> forall oeq op leq, pbal att y oeq op leq = pbal att x oeq op leq.
Proof.
  induction att as [|de att IH]; intros H oeq op leq; [reflexivity|]. cbn [pbal].
  destruct (H de (or_introl eq_refl)) as (E & S). destruct (end_pressure_same de x y S (has_end_index de E)) as (-> & ->).
  rewrite IH; [reflexivity|]. intros d Hd. apply H. right. exact Hd.
Qed.
Lemma flow_same att x y q : all_same att x y -> flow_balance att y q = flow_balance att x q.
Proof.
  intro H. assert (F : List.Forall has_end att) by (apply List.Forall_forall; intros d Hd; apply (H d Hd)).
  rewrite !flow_ok by exact F. f_equal. destruct att as [|de rest]; [reflexivity|]. cbn [pflow].
  destruct (H de (or_introl eq_refl)) as (E & S). destruct (end_pressure_same de x y S (has_end_index de E)) as (-> & ->).
  rewrite (pbal_same rest x y); [reflexivity|]. intros d Hd. apply H. right. exact Hd.
Qed.
Lemma pressure_same att x y q : all_same att x y -> pressure_evaluate att y q = pressure_evaluate att x q.
Proof.
  intro H. unfold pressure_evaluate. f_equal. apply map_ext_in. intros [d e] Hd. destruct (H _ Hd) as (E & S).
  pose proof (end_vec_ok (d, e) x E) as E1. pose proof (end_vec_ok (d, e) y E) as E2. cbn [fst snd] in E1, E2.
  rewrite E1, E2. cbn [obind]. rewrite !end_vec_0.
  rewrite (proj1 (end_pressure_same (d, e) x y S (has_end_index (d, e) E))). reflexivity.
Qed.

Lemma source_same d k u v : v 0%nat = u 0%nat -> v 1%nat = u 1%nat -> source d k v = source d k u.
Proof. intros H0 H1. unfold source. rewrite H0, H1. reflexivity. Qed.
Lemma flux_same d u v i : v 0%nat = u 0%nat -> v 1%nat = u 1%nat -> flux d v i = flux d u i.
Proof. intros H0 H1. unfold flux. rewrite H0, H1. reflexivity. Qed.
Lemma cell_same d k dx t0 t1 last x y i s : same_from s x y -> (s + 1 <= i)%nat ->
  cell_evaluate (isothermal_euler d k) dx t0 t1 last y i = cell_evaluate (isothermal_euler d k) dx t0 t1 last x i.
Proof.
  intros H L. unfold cell_evaluate, evaluate_point. cbn [isothermal_euler bl_source bl_flux].
  assert (E1 : forall c, seg y (i - 1) c = seg x (i - 1) c) by (intro c; unfold seg; apply H; lia).
  assert (E2 : forall c, seg y (i + 1) c = seg x (i + 1) c) by (intro c; unfold seg; apply H; lia).
  rewrite (source_same d k (seg x (i + 1)) (seg y (i + 1))) by apply E2.
  rewrite (source_same d k (seg x (i - 1)) (seg y (i - 1))) by apply E1.
  destruct (source d k (seg x (i + 1))); cbn [obind omap]; try reflexivity.
  destruct (source d k (seg x (i - 1))); cbn [obind omap]; try reflexivity.
  rewrite !(flux_same d (seg x (i - 1)) (seg y (i - 1))) by apply E1.
  rewrite !(flux_same d (seg x (i + 1)) (seg y (i + 1))) by apply E2.
  rewrite !E1, !E2. reflexivity.
Qed.
Lemma loop_ge fuel : forall i stop l, loop_by_two fuel i stop = Ok l -> forall k, In k l -> (i <= k)%nat.
Proof.
  induction fuel as [|fuel IH]; intros i stop l H k Hk; cbn [loop_by_two] in H.
  - destruct (Nat.eqb i stop); [injection H as <-; destruct Hk|]. destruct (Nat.ltb stop i); discriminate.
  - destruct (Nat.eqb i stop); [injection H as <-; destruct Hk|]. destruct (Nat.ltb stop i); [discriminate|].
    destruct (loop_by_two fuel (i + 2) stop) as [l'| |] eqn:E; try discriminate. cbn in H. injection H as <-.
    destruct Hk as [<-|Hk]; [lia|]. pose proof (IH _ _ _ E k Hk). lia.
Qed.
Lemma boundary_same d e x y : same_from (ge_start e) x y -> (d = dend -> ge_start e + 4 <= ge_after e)%nat ->
  match boundary_state d e y, boundary_state d e x with
  | Ok b, Ok b' => forall c, b c = b' c
  | Exc, Exc => True
  | _, _ => False
  end.
Proof.
  intros S L. unfold boundary_state, boundary_state_index. destruct d; cbn [omap].
  - intro c. unfold seg. apply S. lia.
  - specialize (L eq_refl). destruct (Nat.eqb_spec (ge_after e - ge_start e) 2); [lia|]. cbn [omap]. intro c. unfold seg. apply S. lia.
Qed.
Lemma edge_same g t0 t1 last x y c : gas_size g -> same_from (ge_start g) x y ->
  (forall a b plant, ge_kind g = Gaspowerconnection a b plant -> P plant y = P plant x) ->
  edge_evaluate g t0 t1 last y c = edge_evaluate g t0 t1 last x c.
Proof.
  intros Sz S Hp. unfold edge_evaluate. unfold gas_size in Sz. destruct (ge_kind g) as [d k dx| |ci|ci|a b plant] eqn:K.
  - unfold pipe_loop, pipe_indices. destruct (loop_by_two (ge_after g) (equation_start_index g) (equation_after_index g)) as [l| |] eqn:E; try reflexivity.
    cbn [obind]. f_equal. apply map_ext_in. intros i Hi. pose proof (loop_ge _ _ _ _ E i Hi) as L. unfold equation_start_index in L.
    apply (cell_same d k dx t0 t1 last x y i (ge_start g) S L).
  - unfold short_size in Sz. pose proof (boundary_same dstart g x y S ltac:(discriminate)) as B1. pose proof (boundary_same dend g x y S ltac:(intros _; lia)) as B2.
    destruct (boundary_state dstart g y), (boundary_state dstart g x), (boundary_state dend g y), (boundary_state dend g x); try destruct B1; try destruct B2; cbn [obind]; try reflexivity.
    rewrite !B1, !B2. reflexivity.
  - unfold short_size in Sz. pose proof (boundary_same dstart g x y S ltac:(discriminate)) as B1. pose proof (boundary_same dend g x y S ltac:(intros _; lia)) as B2.
    destruct (boundary_state dstart g y), (boundary_state dstart g x), (boundary_state dend g y), (boundary_state dend g x); try destruct B1; try destruct B2; cbn [obind]; try reflexivity.
    rewrite !B1, !B2. reflexivity.
  - unfold short_size in Sz. pose proof (boundary_same dstart g x y S ltac:(discriminate)) as B1. pose proof (boundary_same dend g x y S ltac:(intros _; lia)) as B2.
    destruct (boundary_state dstart g y), (boundary_state dstart g x), (boundary_state dend g y), (boundary_state dend g x); try destruct B1; try destruct B2; cbn [obind]; try reflexivity.
    rewrite !B1, !B2. reflexivity.
  - rewrite (Hp a b plant eq_refl). rewrite (S (ge_start g + 1)%nat) by lia. reflexivity.
Qed.

(** ** Turning the phases *)
Section Turn.
Variable N : network.
Variable inside : nat -> bool.
Variable a : R.
Variables x y : vec.
Hypothesis W : well_formed N.
Hypothesis Isl : island N inside.
Hypothesis T : turned N inside a x y.

Lemma voltage_kept j : is_power_node N j -> y (fst (node_block N j)) = x (fst (node_block N j)).
Proof.
  intro H. apply (proj2 T). intros j' _ H'. destruct (Nat.eq_dec j j') as [->|D]; [lia|].
  pose proof (nodes_apart N j j' H H' D). lia.
Qed.
Lemma phase_moved j : is_power_node N j -> y (fst (node_block N j) + 1)%nat = x (fst (node_block N j) + 1)%nat + (if inside j then a else 0).
Proof.
  intro H. destruct (inside j) eqn:I; [apply (proj1 T); assumption|]. rewrite Rplus_0_r. apply (proj2 T).
  intros j' I' H'. assert (D : j <> j') by (intros ->; congruence). pose proof (nodes_apart N j j' H H' D). lia.
Qed.
Lemma edges_kept i e : nth_error (edges N) i = Some e -> same_from (fst (edge_block N i)) x y.
Proof.
  intros He k L. apply (proj2 T). intros j _ H. pose proof (node_before_edge N j i e H He). lia.
Qed.

Definition turn (j : nat) : C := if inside j then (cos a, sin a) else RtoC 1.
Lemma voltage_turned j : is_power_node N j -> voltage N j y = Cmult (turn j) (voltage N j x).
Proof.
  intro H. unfold voltage. rewrite voltage_kept, phase_moved by exact H. unfold turn. destruct (inside j).
  - rewrite cos_plus, sin_plus. unfold Cmult. cbn [fst snd]. f_equal; ring.
  - rewrite Rplus_0_r. unfold Cmult, RtoC. cbn [fst snd]. f_equal; ring.
Qed.
Lemma power_turned j G B : is_power_node N j -> power N j G B y = power N j G B x.
Proof.
  intro H. unfold power.
  assert (CT : current N j G B y = Cmult (turn j) (current N j G B x)).
  { unfold current. rewrite voltage_turned by exact H.
    assert (A : forall u b1 b2, Cmult u (Cplus b1 b2) = Cplus (Cmult u b1) (Cmult u b2)) by (intros; ring).
    rewrite A. f_equal; [ring|]. unfold well_formed in W. rewrite List.Forall_forall in W.
    assert (Q : forall l, (forall e, In e l -> In e (edges N)) ->
      csum (fun e => match e_type e with
                    | ELine g b =>
                        Cplus (if Nat.eqb (e_from e) j then Cmult (g, b) (voltage N (e_to e) y) else RtoC 0)
                              (if Nat.eqb (e_to e) j then Cmult (g, b) (voltage N (e_from e) y) else RtoC 0)
                    | _ => RtoC 0
                    end) l = Cmult (turn j)
      (csum (fun e => match e_type e with
                    | ELine g b =>
                        Cplus (if Nat.eqb (e_from e) j then Cmult (g, b) (voltage N (e_to e) x) else RtoC 0)
                              (if Nat.eqb (e_to e) j then Cmult (g, b) (voltage N (e_from e) x) else RtoC 0)
                    | _ => RtoC 0
                    end) l)).
    { induction l as [|e l IH]; intro Hl.
      - cbn. ring.
      - assert (He : In e (edges N)) by (apply Hl; left; reflexivity). destruct (W e He) as (_ & K).
        unfold csum in *. cbn [fold_right]. rewrite IH by (intros; apply Hl; right; assumption). rewrite A. f_equal.
        destruct (e_type e) as [| | | | |g b] eqn:Ty; try (ring). destruct K as (K1 & K2).
        pose proof (proj1 Isl e g b He Ty) as In'. rewrite !voltage_turned by assumption.
        assert (TE : turn (e_from e) = turn (e_to e)) by (unfold turn; rewrite In'; reflexivity).
        destruct (Nat.eqb_spec (e_from e) j) as [Ef|]; destruct (Nat.eqb_spec (e_to e) j) as [Et|].
        + rewrite TE, Et. ring.
        + rewrite <- TE, Ef. ring.
        + rewrite TE, Et. ring.
        + ring. }
    apply Q. auto. }
  rewrite CT, voltage_turned by exact H. destruct (voltage N j x) as [v1 v2]. destruct (current N j G B x) as [c1 c2].
  pose proof (sin2_cos2 a) as SC. unfold Rsqr in SC.
  unfold turn. destruct (inside j); unfold Cmult, Cconj, RtoC; cbn [fst snd]; f_equal; try ring.
  - transitivity ((sin a * sin a + cos a * cos a) * (v1 * c1 - v2 * - c2)); [ring|rewrite SC; ring].
  - transitivity ((sin a * sin a + cos a * cos a) * (v1 * - c2 + v2 * c1)); [ring|rewrite SC; ring].
Qed.
Lemma PQ_turned j : is_power_node N j -> P (power_of N j) y = P (power_of N j) x /\ Q (power_of N j) y = Q (power_of N j) x.
Proof.
  intro H. destruct (power_known N j W H) as (_ & l & Hl & _).
  assert (E : exists k e G B b, nth_error (nodes N) j = Some (Powernode k e G B b)).
  { unfold is_power_node in H. destruct (nth_error (nodes N) j) as [[]|]; try (destruct H; fail). eauto 6. }
  destruct E as (k & e & G & B & b & E).
  pose proof (power_value N j k e G B b l x W E Hl) as Ex. pose proof (power_value N j k e G B b l y W E Hl) as Ey.
  rewrite power_turned, Ex in Ey by exact H. injection Ey as E1 E2.
  rewrite !(P_ok _ l) by exact Hl. rewrite !(Q_ok _ l) by exact Hl. rewrite E1, E2. split; reflexivity.
Qed.

Hypothesis Free : phase_free N inside.
Lemma node_turned j t t1 : nth_error (nodes N) j = Some t -> node_evaluate N j t t1 y = node_evaluate N j t t1 x.
Proof.
  intro H.
  assert (G : is_gas_node N j -> all_same (attached_gas N j) x y).
  { intros Hg de Hde. destruct (attached_facts N j W Hg) as (F & _). rewrite List.Forall_forall in F. split; [apply F; exact Hde|].
    destruct de as [d g]. apply attached_in in Hde. destruct Hde as (i & e & H1 & H2 & _).
    destruct (gas_of_kind N i e g H2) as (_ & E & _). pose proof (edges_kept i e H1) as S. rewrite <- E in S. exact S. }
  unfold node_evaluate. destruct t as [|sink b|b|k ext G' B b].
  - apply flow_same. apply G. unfold is_gas_node. rewrite H. exact Logic.I.
  - assert (S : all_same (attached_gas N j) x y) by (apply G; unfold is_gas_node; rewrite H; exact Logic.I).
    destruct (attached_gas N j); [reflexivity|]. destruct (b t1); cbn [obind]; try reflexivity. apply flow_same. exact S.
  - assert (S : all_same (attached_gas N j) x y) by (apply G; unfold is_gas_node; rewrite H; exact Logic.I).
    destruct (attached_gas N j); [reflexivity|]. destruct (b t1); cbn [obind]; try reflexivity. apply pressure_same. exact S.
  - assert (Hp : is_power_node N j) by (unfold is_power_node; rewrite H; exact Logic.I).
    destruct (b t1) as [v| |]; cbn [obind]; try reflexivity. destruct (PQ_turned j Hp) as (EP & EQ). unfold power_evaluate.
    assert (SV : pn_start (power_of N j) = fst (node_block N j)) by (unfold power_of; rewrite H; reflexivity).
    destruct k; rewrite ?EP, ?EQ, ?SV.
    + reflexivity.
    + rewrite voltage_kept by exact Hp. reflexivity.
    + rewrite voltage_kept, phase_moved by exact Hp.
      destruct (inside j) eqn:In'; [exfalso; exact (Free j ext G' B b In' H)|]. rewrite Rplus_0_r. reflexivity.
Qed.
Lemma evaluate_turned t0 t1 last c v : evaluate N t0 t1 last y c v = evaluate N t0 t1 last x c v.
Proof.
  unfold evaluate. f_equal. unfold evaluate_writes. f_equal.
  assert (Ed : forall sel, on_edges N sel (fun g => edge_evaluate g t0 t1 last y c) = on_edges N sel (fun g => edge_evaluate g t0 t1 last x c)).
  { intro sel. rewrite !on_edges_gases. apply map_ext_in. intros g Hg. destruct (gases_in N sel g Hg) as (i & e & H1 & H2 & _).
    destruct (gas_of_size N i e g W H1 H2) as (Sz & _). destruct (gas_of_kind N i e g H2) as (_ & E & K & NL).
    apply edge_same; [exact Sz| |].
    - pose proof (edges_kept i e H1) as S. rewrite <- E in S. exact S.
    - intros g2p p2g plant Kp. rewrite Kp in K. pose proof W as W'. unfold well_formed in W'. rewrite List.Forall_forall in W'.
      destruct (W' e (nth_error_In _ _ H1)) as (_ & Ke).
      destruct (e_type e) as [| | | |g2p' p2g'|gl bl] eqn:Ty; try discriminate; [|exfalso; exact (NL gl bl eq_refl)].
      injection K as -> -> ->. apply PQ_turned. tauto. }
  rewrite !Ed. f_equal. unfold on_nodes. apply map_ext_in. intros [j t] Hj. cbn [fst snd]. apply in_combine_seq in Hj.
  apply node_turned. exact Hj.
Qed.
End Turn.

(** ** The direction in which nothing changes *)
Definition phase_direction (N : network) (inside : nat -> bool) : vec := fun k =>
  if existsb (fun j => inside j && powerb N j && Nat.eqb k (fst (node_block N j) + 1)) (node_numbers N) then 1 else 0.
Lemma powerb_iff N j : powerb N j = true <-> is_power_node N j.
Proof. unfold powerb, is_power_node. destruct (nth_error (nodes N) j) as [[]|]; split; intro H; auto; try discriminate; destruct H. Qed.
Lemma direction_one N inside j : inside j = true -> is_power_node N j -> phase_direction N inside (fst (node_block N j) + 1)%nat = 1.
Proof.
  intros H P. unfold phase_direction.
  rewrite (proj2 (existsb_exists _ _)); [reflexivity|]. exists j. split.
  - apply in_seq. pose proof (power_number N j P). lia.
  - rewrite H, (proj2 (powerb_iff N j) P), Nat.eqb_refl. reflexivity.
Qed.
Lemma direction_zero N inside k : (forall j, inside j = true -> is_power_node N j -> k <> (fst (node_block N j) + 1)%nat) ->
  phase_direction N inside k = 0.
Proof.
  intro H. unfold phase_direction.
  destruct (existsb _ _) eqn:E; [|reflexivity]. apply existsb_exists in E. destruct E as (j & _ & E).
  apply andb_prop in E. destruct E as (E & E3). apply andb_prop in E. destruct E as (E1 & E2).
  apply powerb_iff in E2. apply Nat.eqb_eq in E3. exfalso. exact (H j E1 E2 E3).
Qed.
Lemma direction_turned N inside a x : turned N inside a x (fun k => x k + a * phase_direction N inside k).
Proof.
  split.
  - intros j H P. rewrite direction_one by assumption. ring.
  - intros k H. rewrite direction_zero by exact H. ring.
Qed.
Lemma island_singular N inside t0 t1 last x c : well_formed N -> pipes_ok N -> boundary_defined N t1 -> regular_state N x ->
  island N inside -> phase_free N inside ->
  exists ts, d_evaluate_d_new_state N t0 t1 last x c = Ok ts /\ singular (number_of_states N) (matrix_of ts).
Proof.
  intros W HP HB HR Isl Free. destruct (C53_new_state N t0 t1 last x c (fun _ => 0) W HP HB HR) as (ts & E & g & J & d & Hd & Eg).
  exists ts. split; [exact E|]. exists (phase_direction N inside). split.
  - destruct Isl as (_ & j & Hj & P). exists (fst (node_block N j) + 1)%nat. rewrite direction_one by assumption.
    split; [|lra]. destruct (power_start_ok N j P) as (_ & L). lia.
  - intros r Hr.
    assert (D : is_derive (fun s => g (fun k => x k + s * phase_direction N inside k) r) 0
       (vsum (number_of_states N) (fun k => matrix_of ts r k * phase_direction N inside k))).
    { apply (J r Hr (fun s k => x k + s * phase_direction N inside k) 0). split; [intro k; ring|].
      intro k. auto_derive; [exact Logic.I|ring]. }
    assert (B : forall k, 0 <= phase_direction N inside k <= 1) by (intro k; unfold phase_direction; destruct (existsb _ _); lra).
    assert (Z : is_derive (fun s => g (fun k => x k + s * phase_direction N inside k) r) 0 0).
    { apply (is_derive_ext_loc (fun _ => g x r)).
      - exists (mkposreal d Hd). intros s Hs. unfold ball in Hs; cbn in Hs. unfold AbsRing_ball, abs, minus, plus, opp in Hs; cbn in Hs.
        rewrite Ropp_0, Rplus_0_r in Hs.
        assert (E1 : evaluate N t0 t1 last (fun k => x k + s * phase_direction N inside k) c (fun _ => 0) = Ok (g (fun k => x k + s * phase_direction N inside k))).
        { apply Eg. intro k. replace (x k + s * phase_direction N inside k - x k) with (s * phase_direction N inside k) by ring.
          rewrite Rabs_mult. rewrite (Rabs_pos_eq (phase_direction N inside k)) by apply B. pose proof (B k). pose proof (Rabs_pos s). nra. }
        assert (E0 : evaluate N t0 t1 last x c (fun _ => 0) = Ok (g x)).
        { apply Eg. intro k. rewrite Rminus_eq_0, Rabs_R0. exact Hd. }
        rewrite (evaluate_turned N inside s x _ W Isl (direction_turned N inside s x) Free), E0 in E1. injection E1 as E1. rewrite E1. reflexivity.
      - exact (is_derive_const (K := R_AbsRing) (V := R_NormedModule) (g x r) 0). }
    pose proof (is_derive_unique _ _ _ D) as U1. pose proof (is_derive_unique _ _ _ Z) as U2. rewrite U1 in U2. exact U2.
Qed.
