(** Two lines in place of one. *)
From Coq Require Import Reals ZArith Lra Lia List Arith Bool.
From Coquelicot Require Import Complex.
From Verif Require Import Base Calc Euler_Model Box_Model Net_Model Net_Spec Net_Proofs5 Net_Proofs8 Level_Spec Level_Proofs Mass_Proofs Grid_Proofs2.
From Verif Require Import Insert_Proofs Parallel_Spec.
Import ListNotations.
Local Open Scope R_scope.

Section Split.
Variables (N : network) (i : nat) (e : edge) (G B : R) (a b : nat).
Hypothesis W : well_formed N.
Hypothesis He : nth_error (edges N) i = Some e.
Hypothesis Hl : is_line e.
Hypothesis Hab : same_ends e a b.
Let m := length (edges N).
Let N' := split_line N i G B a b.

Lemma split_number : length (edges N') = S m.
Proof. cbn. unfold numbered. rewrite app_length, map_length, combine_length, seq_length. cbn. unfold m. lia. Qed.
Lemma split_i : (i < m)%nat.
Proof. apply nth_error_Some. rewrite He. discriminate. Qed.
Lemma split_new : nth_error (edges N') m = Some (mkEdge a b (ELine G B)).
Proof.
  cbn [N' split_line edges]. unfold numbered. rewrite nth_error_app2; rewrite map_length, combine_length, seq_length, Nat.min_id; fold m; [|lia].
  rewrite Nat.sub_diag. reflexivity.
Qed.
Lemma split_old i0 : (i0 < m)%nat ->
  nth_error (edges N') i0 = option_map (fun e0 => if Nat.eqb i0 i then thinner G B e0 else e0) (nth_error (edges N) i0).
Proof.
  intro H. cbn [N' split_line edges]. unfold numbered. rewrite nth_error_app1; [|rewrite map_length, combine_length, seq_length, Nat.min_id; exact H].
  rewrite nth_error_map, nth_error_numbered. destruct (nth_error (edges N) i0); reflexivity.
Qed.
Lemma split_gas i0 e0 : (is_line e0 -> False) -> nth_error (edges N') i0 = Some e0 <-> nth_error (edges N) i0 = Some e0.
Proof.
  intro C. split; intro H.
  - assert (L : (i0 < S m)%nat) by (rewrite <- split_number; apply nth_error_Some; congruence).
    destruct (Nat.eq_dec i0 m) as [->|Nm]; [rewrite split_new in H; injection H as <-; destruct (C Logic.I)|].
    rewrite split_old in H by lia. destruct (nth_error (edges N) i0) as [e1|] eqn:E; [|discriminate]. cbn in H. injection H as <-.
    destruct (Nat.eqb_spec i0 i) as [->|]; [|reflexivity]. exfalso. apply C. assert (e1 = e) by congruence. subst e1.
    unfold thinner, is_line in *. destruct (e_type e); try contradiction; exact Logic.I.
  - rewrite split_old by (apply nth_error_Some; congruence). rewrite H. cbn. destruct (Nat.eqb_spec i0 i) as [->|]; [|reflexivity].
    exfalso. apply C. congruence.
Qed.
Lemma gas_not_line e0 : carries_gas e0 = true -> is_line e0 -> False.
Proof. unfold carries_gas, is_line. destruct (e_type e0); auto; discriminate. Qed.

(** ** Blocks *)
Lemma thinner_states e0 : edge_states (e_type (thinner G B e0)) = edge_states (e_type e0).
Proof. unfold thinner. destruct (e_type e0) eqn:E; rewrite ?E; reflexivity. Qed.
Lemma thinner_controls e0 : edge_controls (e_type (thinner G B e0)) = edge_controls (e_type e0).
Proof. unfold thinner. destruct (e_type e0) eqn:E; rewrite ?E; reflexivity. Qed.
Lemma split_types {A} (f : edge -> A) : (forall e0, f (thinner G B e0) = f e0) -> map f (edges N') = map f (edges N) ++ [f (mkEdge a b (ELine G B))].
Proof.
  intro F. cbn [N' split_line edges]. rewrite map_app. unfold numbered. rewrite map_map. cbn [map]. f_equal.
  transitivity (map (fun ie : nat * edge => f (snd ie)) (combine (seq 0 (length (edges N))) (edges N))); [|apply map_numbered].
  apply map_ext. intros (c, d). cbn. destruct (Nat.eqb c i); [apply F|reflexivity].
Qed.
Lemma split_sizes : state_sizes N' = state_sizes N ++ [0%nat].
Proof. unfold state_sizes. rewrite (split_types (fun e0 => edge_states (e_type e0)) thinner_states). rewrite app_assoc. reflexivity. Qed.
Lemma split_control_sizes : control_sizes N' = control_sizes N ++ [0%nat].
Proof. unfold control_sizes. rewrite (split_types (fun e0 => edge_controls (e_type e0)) thinner_controls). reflexivity. Qed.
Lemma assign_snoc l k : forall n, (k < length l)%nat -> nth k (fst (assign_indices n (l ++ [0%nat]))) (0, 0)%nat = nth k (fst (assign_indices n l)) (0, 0)%nat.
Proof.
  intros n H. destruct (nth_error l k) as [s|] eqn:E; [|apply nth_error_None in E; lia].
  assert (E' : nth_error (l ++ [0%nat]) k = Some s) by (rewrite nth_error_app1; assumption).
  rewrite (nth_error_nth _ _ _ (assign_start _ n _ _ E)), (nth_error_nth _ _ _ (assign_start _ n _ _ E')).
  rewrite firstn_app. replace (k - length l)%nat with 0%nat by lia. cbn [firstn]. rewrite app_nil_r. reflexivity.
Qed.
Lemma sizes_length : length (state_sizes N) = (length (nodes N) + m)%nat.
Proof. unfold state_sizes. rewrite app_length, !map_length. reflexivity. Qed.
Lemma split_node_block j : (j < length (nodes N))%nat -> node_block N' j = node_block N j.
Proof. intro H. unfold node_block, state_blocks. rewrite split_sizes. apply assign_snoc. rewrite sizes_length. lia. Qed.
Lemma split_edge_block i0 : (i0 < m)%nat -> edge_block N' i0 = edge_block N i0.
Proof. intro H. unfold edge_block, state_blocks. rewrite split_sizes. apply assign_snoc. rewrite sizes_length. lia. Qed.
Lemma split_control_block i0 : (i0 < m)%nat -> control_block N' i0 = control_block N i0.
Proof. intro H. unfold control_block, control_blocks. rewrite split_control_sizes. apply assign_snoc. unfold control_sizes. rewrite map_length. exact H. Qed.
Lemma split_states : number_of_states N' = number_of_states N.
Proof.
  unfold number_of_states. rewrite split_sizes. generalize (state_sizes N) as l. intro l. generalize 0%nat at 1 3.
  induction l as [|s l IH]; intro n; cbn; [lia|]. specialize (IH (n + s)%nat). destruct (assign_indices (n + s) (l ++ [0%nat])), (assign_indices (n + s) l). exact IH.
Qed.

(** ** Gas *)
Lemma split_position i0 d0 : (i0 < m)%nat -> end_position N' i0 d0 = end_position N i0 d0.
Proof. intro H. unfold end_position. rewrite split_edge_block by exact H. reflexivity. Qed.
Lemma split_flow i0 d0 x : (i0 < m)%nat -> flow_at N' i0 d0 x = flow_at N i0 d0 x.
Proof. intro H. unfold flow_at. rewrite split_position by exact H. reflexivity. Qed.
Lemma split_pressure i0 e0 d0 x : (i0 < m)%nat -> pressure_at N' i0 e0 d0 x = pressure_at N i0 e0 d0 x.
Proof. intro H. unfold pressure_at. rewrite split_position by exact H. reflexivity. Qed.
Lemma split_equal j x pr : equal_pressures N' j x pr <-> equal_pressures N j x pr.
Proof.
  split; intros E i0 e0 d0 H C T.
  - rewrite <- split_pressure by (apply nth_error_Some; congruence). apply E; auto. apply split_gas; [apply gas_not_line; exact C|exact H].
  - apply split_gas in H; [|apply gas_not_line; exact C]. rewrite split_pressure by (apply nth_error_Some; congruence). exact (E i0 e0 d0 H C T).
Qed.
Lemma split_has j : has_gas_edge N' j <-> has_gas_edge N j.
Proof.
  split; intros (i0 & e0 & d0 & H & C & T); exists i0, e0, d0; (split; [|auto]); (apply split_gas; [apply gas_not_line; exact C|exact H]).
Qed.
Lemma thinner_carries e0 : carries_gas (thinner G B e0) = carries_gas e0.
Proof. unfold thinner, carries_gas. destruct (e_type e0) eqn:E; cbn; rewrite ?E; reflexivity. Qed.
Lemma split_outflow j x : net_outflow N' j x = net_outflow N j x.
Proof.
  unfold net_outflow. unfold numbered at 1. rewrite split_number. cbn [N' split_line edges]. fold N'.
  rewrite seq_S, Nat.add_0_l.
  assert (Co : forall (u : list nat) (v : list nat) (y z : list edge), length u = length y -> combine (u ++ v) (y ++ z) = combine u y ++ combine v z).
  { induction u as [|x0 u IH]; intros v [|y0 y] z HL; try discriminate; [reflexivity|]. cbn. rewrite IH by (injection HL; auto). reflexivity. }
  rewrite Co by (unfold numbered; rewrite map_length, combine_length, !seq_length; fold m; lia).
  rewrite rsum_app. unfold numbered, m. rewrite combine_numbered, rsum_map. cbn [combine rsum fst snd carries_gas e_type]. rewrite Rplus_0_r.
  match goal with |- ?l + _ = _ => transitivity l; [cbn; ring|] end.
  apply rsum_ext. intros (i0, e0) I. apply in_combine_seq in I. cbn [fst snd]. rewrite !split_flow by (apply nth_error_Some; congruence).
  destruct (Nat.eqb_spec i0 i) as [->|]; [|reflexivity]. assert (e0 = e) by congruence. subst e0. rewrite thinner_carries.
  unfold carries_gas, is_line in *. destruct (e_type e); try contradiction. reflexivity.
Qed.

(** ** Power *)
Lemma ends_small e0 : In e0 (edges N) -> (e_from e0 < length (nodes N))%nat /\ (e_to e0 < length (nodes N))%nat.
Proof.
  intro I. apply In_nth_error in I. destruct I as (i0 & H). exact (edge_inside N W i0 e0 H).
Qed.
Lemma split_voltage j x : (j < length (nodes N))%nat -> voltage N' j x = voltage N j x.
Proof. intro H. unfold voltage. rewrite split_node_block by exact H. reflexivity. Qed.
Lemma split_power j g0 b0 x : (j < length (nodes N))%nat -> power N' j g0 b0 x = power N j g0 b0 x.
Proof.
  intro H. unfold power, current. rewrite split_voltage by exact H. f_equal. f_equal. f_equal.
  cbn [N' split_line edges]. fold N'. rewrite csum_app.
  set (F := fun e0 : edge => match e_type e0 with
                    | ELine g b1 =>
                        Cplus (if Nat.eqb (e_from e0) j then Cmult (g, b1) (voltage N (e_to e0) x) else RtoC 0)
                              (if Nat.eqb (e_to e0) j then Cmult (g, b1) (voltage N (e_from e0) x) else RtoC 0)
                    | _ => RtoC 0
                    end).
  set (F' := fun e0 : edge => match e_type e0 with
                    | ELine g b1 =>
                        Cplus (if Nat.eqb (e_from e0) j then Cmult (g, b1) (voltage N' (e_to e0) x) else RtoC 0)
                              (if Nat.eqb (e_to e0) j then Cmult (g, b1) (voltage N' (e_from e0) x) else RtoC 0)
                    | _ => RtoC 0
                    end).
  assert (FF : forall e0, (e_from e0 < length (nodes N))%nat /\ (e_to e0 < length (nodes N))%nat -> F' e0 = F e0).
  { intros e0 (I1 & I2). unfold F', F. rewrite !split_voltage by assumption. reflexivity. }
  assert (Gen : forall l s k, nth_error l k = Some e -> i = (s + k)%nat -> (forall e0, In e0 l -> In e0 (edges N)) ->
    csum F' (map (fun ie : nat * edge => if Nat.eqb (fst ie) i then thinner G B (snd ie) else snd ie) (combine (seq s (length l)) l))
    = Cplus (csum F l) (Copp (F (mkEdge a b (ELine G B))))).
  { assert (Rest : forall l s, (i < s)%nat -> (forall e0, In e0 l -> In e0 (edges N)) ->
      csum F' (map (fun ie : nat * edge => if Nat.eqb (fst ie) i then thinner G B (snd ie) else snd ie) (combine (seq s (length l)) l)) = csum F l).
    { induction l as [|e0 l IH]; intros s Ls Il; [reflexivity|]. cbn [length seq combine map csum fold_right fst snd]. unfold csum in IH. rewrite IH by (auto; intros; apply Il; right; assumption).
      rewrite (proj2 (Nat.eqb_neq s i)) by lia. rewrite FF by (apply ends_small; apply Il; left; reflexivity). reflexivity. }
    induction l as [|e0 l IH]; intros s k Hk Is Il; [destruct k; discriminate|]. destruct k as [|k].
    - injection Hk as ->. rewrite Nat.add_0_r in Is. subst s. cbn [length seq combine map csum fold_right fst snd]. pose proof (Rest l (S i) ltac:(lia) ltac:(intros; apply Il; right; assumption)) as R0. unfold csum in R0. rewrite R0.
      rewrite Nat.eqb_refl. assert (Es : F' (thinner G B e) = Cplus (F e) (Copp (F (mkEdge a b (ELine G B))))).
      { rewrite FF.
        - unfold F, thinner. unfold is_line in Hl. destruct (e_type e) as [| | | | |g b1]; try contradiction. cbn [e_type e_from e_to].
          destruct Hab as [(-> & ->)|(-> & ->)]; destruct (Nat.eqb (e_from e) j), (Nat.eqb (e_to e) j); unfold Cplus, Cmult, Copp, RtoC; cbn [fst snd]; f_equal; ring.
        - unfold thinner. destruct (ends_small e (nth_error_In _ _ He)) as (I1 & I2). destruct (e_type e); auto. }
      rewrite Es. rewrite <- !Cplus_assoc. f_equal. apply Cplus_comm.
    - cbn in Hk. cbn [length seq combine map csum fold_right fst snd]. unfold csum in IH. rewrite (IH (S s) k Hk ltac:(lia)) by (intros; apply Il; right; assumption).
      rewrite (proj2 (Nat.eqb_neq s i)) by lia. rewrite FF by (apply ends_small; apply Il; left; reflexivity). apply Cplus_assoc. }
  unfold numbered. rewrite (Gen (edges N) 0%nat i He eq_refl) by auto.
  assert (Fn : csum F' [mkEdge a b (ELine G B)] = F (mkEdge a b (ELine G B))).
  { cbn [csum fold_right]. rewrite Cplus_0_r. apply FF. cbn. destruct (ends_small e (nth_error_In _ _ He)). destruct Hab as [(-> & ->)|(-> & ->)]; auto. }
  rewrite Fn, <- Cplus_assoc, (Cplus_comm (Copp _)), Cplus_opp_r, Cplus_0_r. reflexivity.
Qed.

Theorem split_equations t0 t1 last x c : network_equations N' t0 t1 last x c <-> network_equations N t0 t1 last x c.
Proof.
  assert (Nd : forall j t, nth_error (nodes N) j = Some t -> node_equation N' j t t1 x <-> node_equation N j t t1 x).
  { intros j t Ht. assert (L : (j < length (nodes N))%nat) by (apply nth_error_Some; congruence). destruct t as [|sink b0|b0|k ext g0 h0 b0]; cbn [node_equation].
    - rewrite split_outflow, split_has. setoid_rewrite split_equal. reflexivity.
    - rewrite split_outflow, split_has. setoid_rewrite split_equal. reflexivity.
    - rewrite split_has. setoid_rewrite split_equal. reflexivity.
    - rewrite split_power, split_node_block by exact L. reflexivity. }
  assert (Ed : forall i0 e0, nth_error (edges N) i0 = Some e0 -> edge_equation N' i0 e0 t0 t1 last x c <-> edge_equation N i0 e0 t0 t1 last x c).
  { intros i0 e0 H. assert (L : (i0 < m)%nat) by (apply nth_error_Some; congruence). unfold edge_equation. rewrite split_edge_block, split_control_block by exact L.
    destruct (e_type e0); try reflexivity. cbn [N' split_line nodes]. destruct (nth_error (nodes N) (e_to e0)) as [[| | |]|]; try reflexivity. fold N'.
    setoid_rewrite (split_power (e_to e0)); [reflexivity|]. apply (ends_small e0 (nth_error_In _ _ H)). }
  assert (Tr : forall M i0 e0, is_line e0 -> edge_equation M i0 e0 t0 t1 last x c).
  { intros M i0 e0 L. unfold edge_equation, is_line in *. destruct (e_type e0); try contradiction. exact Logic.I. }
  assert (Dec : forall e0, {is_line e0} + {is_line e0 -> False}).
  { intro e0. unfold is_line. destruct (e_type e0); auto. }
  split; intros (A & D); split.
  - intros j t Ht. apply Nd; [exact Ht|]. apply A. exact Ht.
  - intros i0 e0 H. destruct (Dec e0) as [L|L]; [apply Tr; exact L|]. apply Ed; [exact H|]. apply D. apply split_gas; assumption.
  - intros j t Ht. apply Nd; [exact Ht|]. apply A. exact Ht.
  - intros i0 e0 H. destruct (Dec e0) as [L|L]; [apply Tr; exact L|]. apply split_gas in H; [|exact L]. apply Ed; [exact H|]. apply D. exact H.
Qed.

Lemma split_well_formed : well_formed N'.
Proof.
  unfold well_formed. apply Forall_forall. intros e0 I. apply In_nth_error in I. destruct I as (i0 & H).
  assert (K := proj1 (Forall_forall _ _) W).
  assert (Ke := K e (nth_error_In _ _ He)). unfold edge_ok in Ke. pose proof Hl as Hl'. unfold is_line in Hl'. destruct (e_type e) as [| | | | |g b1] eqn:T; try contradiction.
  assert (Li : (i0 < S m)%nat) by (rewrite <- split_number; apply nth_error_Some; congruence).
  destruct (Nat.eq_dec i0 m) as [->|Nm].
  - rewrite split_new in H. injection H as <-. unfold edge_ok. cbn. destruct Hab as [(-> & ->)|(-> & ->)]; intuition auto.
  - rewrite split_old in H by lia. destruct (nth_error (edges N) i0) as [e1|] eqn:E; [|discriminate]. cbn in H. injection H as <-.
    destruct (Nat.eqb_spec i0 i) as [->|]; [|exact (K e1 (nth_error_In _ _ E))]. assert (e1 = e) by congruence. subst e1.
    unfold thinner, edge_ok. rewrite T. cbn. exact Ke.
Qed.
Lemma split_pipes : pipes_ok N -> pipes_ok N'.
Proof.
  unfold pipes_ok. rewrite !Forall_forall. intros P e0 I. apply In_nth_error in I. destruct I as (i0 & H). destruct (e_type e0) eqn:T; auto.
  apply split_gas in H; [|unfold is_line; rewrite T; auto]. specialize (P e0 (nth_error_In _ _ H)). rewrite T in P. exact P.
Qed.
End Split.
