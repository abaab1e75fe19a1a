(** A pipe that is cut at one of its grid points. *)
From Coq Require Import Reals ZArith Lra Lia List Arith Bool.
From Coquelicot Require Import Complex.
From Verif Require Import Base Calc Euler_Model Euler_Spec Euler_Proofs Box_Model Net_Model Net_Spec Net_Proofs5 Net_Proofs8 Level_Spec Level_Proofs
  Level_Proofs2 Mass_Proofs Grid_Proofs2 Part_Proofs Part_Proofs2 Insert_Proofs.
From Verif Require Import Cut_Spec.
Import ListNotations.
Local Open Scope R_scope.

Lemma sizes_sum q : forall n, snd (assign_indices n q) = (n + list_sum q)%nat.
Proof. induction q as [|s q IH]; intro n; cbn; [lia|]. specialize (IH (n + s)%nat). destruct (assign_indices (n + s) q). cbn [snd] in *. rewrite IH. unfold list_sum. lia. Qed.

Section Cut.
Variables (N : network) (i : nat) (a z : nat) (dm ro dx : R) (np l : nat).
Let e := mkEdge a z (EPipe dm ro dx np).
Hypothesis W : well_formed N.
Hypothesis He : nth_error (edges N) i = Some e.
Hypothesis Hl : (1 <= l)%nat.
Hypothesis Hn : (l + 1 < np)%nat.
Let k := length (nodes N).
Let m := length (edges N).
Let e1 := mkEdge a k (EPipe dm ro dx (l + 1)).
Let e2 := mkEdge k z (EPipe dm ro dx (np - l)).
Let N' := cut_pipe N i e l.

(** ** Nodes and edges *)
Lemma cut_i : (i < m)%nat.
Proof. apply nth_error_Some. rewrite He. discriminate. Qed.
Lemma cut_number_edges : length (edges N') = S m.
Proof. cbn. unfold numbered. rewrite app_length, map_length, combine_length, seq_length. cbn. unfold m. lia. Qed.
Lemma cut_number_nodes : length (nodes N') = S k.
Proof. cbn. rewrite app_length. cbn. unfold k. lia. Qed.
Lemma cut_new_edge : nth_error (edges N') m = Some e2.
Proof.
  cbn [N' cut_pipe edges]. unfold numbered. rewrite nth_error_app2; rewrite map_length, combine_length, seq_length, Nat.min_id; fold m; [|lia].
  rewrite Nat.sub_diag. reflexivity.
Qed.
Lemma cut_old_edge i0 : (i0 < m)%nat ->
  nth_error (edges N') i0 = option_map (fun e0 => if Nat.eqb i0 i then first_part l k e0 else e0) (nth_error (edges N) i0).
Proof.
  intro H. cbn [N' cut_pipe edges]. unfold numbered. rewrite nth_error_app1; [|rewrite map_length, combine_length, seq_length, Nat.min_id; exact H].
  rewrite nth_error_map, nth_error_numbered. destruct (nth_error (edges N) i0); reflexivity.
Qed.
Lemma cut_other_edge i0 e0 : nth_error (edges N) i0 = Some e0 -> i0 <> i -> nth_error (edges N') i0 = Some e0.
Proof.
  intros H Ne. rewrite cut_old_edge by (apply nth_error_Some; congruence). rewrite H. cbn. destruct (Nat.eqb_spec i0 i); [contradiction|reflexivity].
Qed.
Lemma cut_first_edge : nth_error (edges N') i = Some e1.
Proof. rewrite cut_old_edge by apply cut_i. rewrite He. cbn. rewrite Nat.eqb_refl. reflexivity. Qed.
Lemma cut_edge_cases i0 e0 : nth_error (edges N') i0 = Some e0 ->
  i0 = m /\ e0 = e2 \/ i0 = i /\ e0 = e1 \/ i0 <> i /\ (i0 < m)%nat /\ nth_error (edges N) i0 = Some e0.
Proof.
  intro H. assert (L : (i0 < S m)%nat) by (rewrite <- cut_number_edges; apply nth_error_Some; congruence).
  destruct (Nat.eq_dec i0 m) as [->|Nm]; [left; rewrite cut_new_edge in H; injection H as <-; auto|]. right.
  destruct (Nat.eq_dec i0 i) as [->|Ni]; [left; rewrite cut_first_edge in H; injection H as <-; auto|]. right.
  rewrite cut_old_edge in H by lia. split; [exact Ni|]. split; [lia|]. destruct (nth_error (edges N) i0); [|discriminate]. cbn in H.
  destruct (Nat.eqb_spec i0 i); [contradiction|exact H].
Qed.
Lemma cut_old_node j0 : (j0 < k)%nat -> nth_error (nodes N') j0 = nth_error (nodes N) j0.
Proof. intro H. cbn. apply nth_error_app1. exact H. Qed.
Lemma cut_inside i0 e0 : nth_error (edges N) i0 = Some e0 -> (e_from e0 < k)%nat /\ (e_to e0 < k)%nat.
Proof. exact (edge_inside N W i0 e0). Qed.
Lemma cut_az : (a < k)%nat /\ (z < k)%nat /\ a <> z /\ is_gas_node N a /\ is_gas_node N z.
Proof.
  assert (K := proj1 (Forall_forall _ _) W e (nth_error_In _ _ He)). destruct K as (Nz & _ & Ga & Gz). destruct (cut_inside i e He) as (A & B). auto.
Qed.

Section State.
Variables (x x' : vec).
Hypothesis V : cut_state N i e l x x'.

(** ** Values at the ends *)
Lemma cut_other i0 e0 d0 c : nth_error (edges N) i0 = Some e0 -> i0 <> i -> carries_gas e0 = true -> (c < 2)%nat ->
  x' (end_position N' i0 d0 + c)%nat = x (end_position N i0 d0 + c)%nat.
Proof.
  intros H Ne Ca Hc. destruct V as (_ & V2 & _ & _). fold N' in V2. destruct (block_after N i0 e0 H) as (B & _). destruct (block_after N' i0 e0 (cut_other_edge i0 e0 H Ne)) as (B' & _).
  assert (L : (2 <= edge_states (e_type e0))%nat).
  { assert (K := proj1 (Forall_forall _ _) W e0 (nth_error_In _ _ H)). destruct K as (_ & K). unfold carries_gas in Ca. destruct (e_type e0); cbn; try lia; discriminate. }
  unfold end_position. destruct d0; [apply (V2 i0 e0 c H Ne); lia|].
  rewrite B, B'. replace (fst (edge_block N' i0) + edge_states (e_type e0) - 2 + c)%nat with (fst (edge_block N' i0) + (edge_states (e_type e0) - 2 + c))%nat by lia.
  rewrite (V2 i0 e0 _ H Ne) by lia. f_equal. lia.
Qed.
Lemma cut_start c : (c < 2)%nat -> x' (end_position N' i dstart + c)%nat = x (end_position N i dstart + c)%nat.
Proof. intro Hc. destruct V as (_ & _ & V3 & _). specialize (V3 0%nat c ltac:(lia) Hc). rewrite !Nat.mul_0_r, !Nat.add_0_r in V3. exact V3. Qed.
Lemma cut_end c : (c < 2)%nat -> x' (end_position N' m dend + c)%nat = x (end_position N i dend + c)%nat.
Proof.
  intro Hc. destruct V as (_ & _ & _ & V4). fold N' m in V4. specialize (V4 (np - 1)%nat c). cbn [e e_type] in V4. specialize (V4 ltac:(lia) Hc).
  destruct (block_after N i e He) as (B & _). destruct (block_after N' m e2 cut_new_edge) as (B' & _). cbn [e e2 e_type edge_states] in B, B'.
  unfold end_position. rewrite B, B'.
  replace (fst (edge_block N' m) + 2 * (np - l) - 2 + c)%nat with (fst (edge_block N' m) + 2 * (np - 1 - l) + c)%nat by lia. rewrite V4. f_equal. lia.
Qed.
Lemma cut_first_value c : (c < 2)%nat -> x' (end_position N' i dend + c)%nat = x (fst (edge_block N i) + 2 * l + c)%nat.
Proof.
  intro Hc. destruct V as (_ & _ & V3 & _). fold N' in V3. destruct (block_after N' i e1 cut_first_edge) as (B' & _). cbn [e1 e_type edge_states] in B'.
  unfold end_position. rewrite B'. rewrite <- V3 by lia. f_equal. lia.
Qed.
Lemma cut_second_value c : (c < 2)%nat -> x' (end_position N' m dstart + c)%nat = x (fst (edge_block N i) + 2 * l + c)%nat.
Proof.
  intro Hc. destruct V as (_ & _ & _ & V4). fold N' m in V4. specialize (V4 l c). cbn [e e_type] in V4. specialize (V4 ltac:(lia) Hc).
  rewrite Nat.sub_diag, Nat.mul_0_r, Nat.add_0_r in V4. exact V4.
Qed.
Lemma at0 (y : vec) n : y n = y (n + 0)%nat.
Proof. rewrite Nat.add_0_r. reflexivity. Qed.
Lemma pressure_other i0 e0 d0 : nth_error (edges N) i0 = Some e0 -> i0 <> i -> carries_gas e0 = true -> pressure_at N' i0 e0 d0 x' = pressure_at N i0 e0 d0 x.
Proof. intros H Ne Ca. unfold pressure_at. rewrite (at0 x'), (at0 x), (cut_other i0 e0 d0 0 H Ne Ca) by lia. reflexivity. Qed.
Lemma pressure_start : pressure_at N' i e1 dstart x' = pressure_at N i e dstart x.
Proof. unfold pressure_at. cbn [e e1 e_type]. rewrite (at0 x'), (at0 x), cut_start by lia. reflexivity. Qed.
Lemma pressure_end : pressure_at N' m e2 dend x' = pressure_at N i e dend x.
Proof. unfold pressure_at. cbn [e e2 e_type]. rewrite (at0 x'), (at0 x), cut_end by lia. reflexivity. Qed.

(** ** Nodes *)
Lemma cut_pressures j0 pr : (j0 < k)%nat -> equal_pressures N' j0 x' pr <-> equal_pressures N j0 x pr.
Proof.
  intro H. destruct cut_az as (La & Lz & _). split; intros E i0 e0 d0 H0 C0 T0.
  - destruct (Nat.eq_dec i0 i) as [->|Ne].
    + assert (e0 = e) by congruence. subst e0. destruct d0.
      * rewrite <- pressure_start. apply E; [apply cut_first_edge|reflexivity|exact T0].
      * rewrite <- pressure_end. apply E; [apply cut_new_edge|reflexivity|exact T0].
    + rewrite <- (pressure_other i0 e0 d0 H0 Ne C0). apply E; [apply cut_other_edge; assumption|exact C0|exact T0].
  - destruct (cut_edge_cases i0 e0 H0) as [(-> & ->)|[(-> & ->)|(Ne & L & O)]].
    + destruct d0; cbn in T0; [lia|]. rewrite pressure_end. exact (E i e dend He eq_refl T0).
    + destruct d0; cbn in T0; [|lia]. rewrite pressure_start. exact (E i e dstart He eq_refl T0).
    + rewrite (pressure_other i0 e0 d0 O Ne C0). exact (E i0 e0 d0 O C0 T0).
Qed.
Lemma cut_has j0 : (j0 < k)%nat -> has_gas_edge N' j0 <-> has_gas_edge N j0.
Proof.
  intro H. split; intros (i0 & e0 & d0 & H0 & C0 & T0).
  - destruct (cut_edge_cases i0 e0 H0) as [(-> & ->)|[(-> & ->)|(Ne & L & O)]].
    + destruct d0; cbn in T0; [lia|]. exists i, e, dend. repeat split; [exact He|exact T0].
    + destruct d0; cbn in T0; [|lia]. exists i, e, dstart. repeat split; [exact He|exact T0].
    + exists i0, e0, d0. auto.
  - destruct (Nat.eq_dec i0 i) as [->|Ne].
    + assert (e0 = e) by congruence. subst e0. destruct d0.
      * exists i, e1, dstart. repeat split; [apply cut_first_edge|exact T0].
      * exists m, e2, dend. repeat split; [apply cut_new_edge|exact T0].
    + exists i0, e0, d0. repeat split; [apply cut_other_edge; assumption|exact C0|exact T0].
Qed.
Lemma cut_outflow_term (j0 : nat) (y : vec) (F : nat * edge -> R) :
  F = (fun ie => if carries_gas (snd ie)
                  then (if Nat.eqb (e_from (snd ie)) j0 then flow_at N' (fst ie) dstart y else 0)
                       - (if Nat.eqb (e_to (snd ie)) j0 then flow_at N' (fst ie) dend y else 0)
                  else 0) ->
  net_outflow N' j0 y = rsum (fun ie => F (fst ie, if Nat.eqb (fst ie) i then first_part l k (snd ie) else snd ie)) (numbered N) + F (m, e2).
Proof.
  intros ->. unfold net_outflow. unfold numbered at 1. rewrite cut_number_edges. cbn [N' cut_pipe edges]. fold N' k.
  rewrite seq_S, Nat.add_0_l.
  assert (Co : forall (a b : list nat) (u v : list edge), length a = length u -> combine (a ++ b) (u ++ v) = combine a u ++ combine b v).
  { induction a0 as [|x0 a0 IH]; intros b [|y0 u] v HL; try discriminate; [reflexivity|]. cbn. rewrite IH by (injection HL; auto). reflexivity. }
  rewrite Co by (unfold numbered; rewrite map_length, combine_length, !seq_length; fold m; lia).
  rewrite rsum_app. f_equal.
  - unfold numbered, m. rewrite combine_numbered, rsum_map. reflexivity.
  - cbn. ring.
Qed.
Lemma cut_outflow j0 : (j0 < k)%nat -> net_outflow N' j0 x' = net_outflow N j0 x.
Proof.
  intro H. rewrite (cut_outflow_term j0 x' _ eq_refl). cbn [fst snd e2 carries_gas e_type e_from e_to].
  assert (Kj : Nat.eqb k j0 = false) by (apply Nat.eqb_neq; lia). rewrite Kj.
  unfold net_outflow. unfold numbered.
  match goal with |- rsum ?f ?s + ?u = rsum ?g _ => assert (S : rsum f s - rsum g s = - u); [|lra] end.
  rewrite <- rsum_minus.
  rewrite (rsum_single _ (edges N) i e He).
  2:{ intros i0 e0 H0 Ne. cbn [fst snd]. destruct (Nat.eqb_spec i0 i); [contradiction|]. destruct (carries_gas e0) eqn:C0; [|ring].
      unfold flow_at. rewrite !(cut_other i0 e0 _ 1 H0 Ne C0) by lia. ring. }
  cbn [fst snd]. rewrite Nat.eqb_refl. cbn [first_part e e_type e_from e_to carries_gas]. rewrite Kj.
  unfold flow_at. rewrite cut_start, cut_end by lia.
  destruct (Nat.eqb a j0), (Nat.eqb z j0); ring.
Qed.
Lemma cut_voltage j0 : is_power_node N j0 -> voltage N' j0 x' = voltage N j0 x.
Proof.
  intro H. destruct V as (V1 & _). fold N' in V1. unfold voltage. rewrite (at0 x'), (at0 x (fst (node_block N j0))), !(V1 j0 _ H) by lia. reflexivity.
Qed.
Lemma cut_power j0 G B : is_power_node N j0 -> power N' j0 G B x' = power N j0 G B x.
Proof.
  intro H. unfold power, current. rewrite cut_voltage by exact H. f_equal. f_equal. f_equal.
  cbn [N' cut_pipe edges]. fold N'. rewrite csum_app. cbn [csum fold_right e_type e second_part].
  match goal with |- Cplus ?u (Cplus (RtoC 0) (RtoC 0)) = _ => transitivity u; [rewrite !Cplus_0_r; reflexivity|] end.
  unfold numbered.
  assert (Gen : forall es s, (forall i0 e0, nth_error es i0 = Some e0 -> nth_error (edges N) (s + i0) = Some e0) ->
    csum (fun e0 => match e_type e0 with
                    | ELine g b =>
                        Cplus (if Nat.eqb (e_from e0) j0 then Cmult (g, b) (voltage N' (e_to e0) x') else RtoC 0)
                              (if Nat.eqb (e_to e0) j0 then Cmult (g, b) (voltage N' (e_from e0) x') else RtoC 0)
                    | _ => RtoC 0
                    end) (map (fun ie : nat * edge => if Nat.eqb (fst ie) i then first_part l (length (nodes N)) (snd ie) else snd ie) (combine (seq s (length es)) es))
    = csum (fun e0 => match e_type e0 with
                    | ELine g b =>
                        Cplus (if Nat.eqb (e_from e0) j0 then Cmult (g, b) (voltage N (e_to e0) x) else RtoC 0)
                              (if Nat.eqb (e_to e0) j0 then Cmult (g, b) (voltage N (e_from e0) x) else RtoC 0)
                    | _ => RtoC 0
                    end) es).
  { induction es as [|e0 es IH]; intros s Hs; [reflexivity|]. cbn [length seq combine map csum fold_right fst snd].
    unfold csum in IH. rewrite IH; [|intros i0 e3 H1; replace (S s + i0)%nat with (s + S i0)%nat by lia; apply Hs; exact H1]. f_equal.
    assert (E0 : nth_error (edges N) s = Some e0) by (rewrite <- (Nat.add_0_r s); apply Hs; reflexivity).
    destruct (Nat.eqb_spec s i) as [->|Ne].
    - assert (e0 = e) by congruence. subst e0. reflexivity.
    - assert (K := proj1 (Forall_forall _ _) W e0 (nth_error_In _ _ E0)). destruct K as (_ & K). destruct (e_type e0); try reflexivity. destruct K as (K1 & K2).
      rewrite !cut_voltage by assumption. reflexivity. }
  apply Gen. intros; assumption.
Qed.
Lemma cut_node j0 t t1 : nth_error (nodes N) j0 = Some t -> node_equation N' j0 t t1 x' <-> node_equation N j0 t t1 x.
Proof.
  intro Ht. assert (H : (j0 < k)%nat) by (apply nth_error_Some; congruence). unfold node_equation. rewrite (cut_outflow j0 H). pose proof (cut_has j0 H) as HE.
  assert (EP : forall pr, equal_pressures N' j0 x' pr <-> equal_pressures N j0 x pr) by (intro; apply cut_pressures; exact H).
  destruct t as [|sink b|b|kd ext G B b].
  - rewrite HE. setoid_rewrite EP. reflexivity.
  - rewrite HE. setoid_rewrite EP. reflexivity.
  - rewrite HE. setoid_rewrite EP. reflexivity.
  - assert (P : is_power_node N j0) by (unfold is_power_node; rewrite Ht; exact Logic.I). rewrite cut_power by exact P.
    destruct V as (V1 & _). fold N' in V1. rewrite (at0 x'), (at0 x (fst (node_block N j0))), !(V1 j0 _ P) by lia. reflexivity.
Qed.
Lemma cut_new_outflow (y : vec) : net_outflow N' k y = flow_at N' m dstart y - flow_at N' i dend y.
Proof.
  destruct cut_az as (La & Lz & _).
  rewrite (cut_outflow_term k y _ eq_refl). cbn [fst snd e2 carries_gas e_type e_from e_to].
  rewrite Nat.eqb_refl, (proj2 (Nat.eqb_neq z k)) by lia.
  unfold numbered. rewrite (rsum_single _ (edges N) i e He).
  2:{ intros i0 e0 H0 Ne. cbn [fst snd]. destruct (Nat.eqb_spec i0 i); [contradiction|].
      destruct (cut_inside i0 e0 H0) as (A & B). rewrite (proj2 (Nat.eqb_neq (e_from e0) k)), (proj2 (Nat.eqb_neq (e_to e0) k)) by lia.
      destruct (carries_gas e0); ring. }
  cbn [fst snd]. rewrite Nat.eqb_refl. cbn [first_part e e_type e_from e_to carries_gas]. rewrite Nat.eqb_refl, (proj2 (Nat.eqb_neq a k)) by lia. ring.
Qed.
Lemma cut_new_node t1 : node_equation N' k Innode t1 x'.
Proof.
  intros _. destruct cut_az as (La & Lz & _). split.
  - exists (p (x (fst (edge_block N i) + 2 * l + 0)%nat) / bar). intros i0 e0 d0 H0 C0 T0.
    destruct (cut_edge_cases i0 e0 H0) as [(-> & ->)|[(-> & ->)|(Ne & L & O)]].
    + destruct d0; cbn in T0; [|lia]. unfold pressure_at. cbn [e2 e_type]. rewrite (at0 x'), cut_second_value by lia. reflexivity.
    + destruct d0; cbn in T0; [lia|]. unfold pressure_at. cbn [e1 e_type]. rewrite (at0 x'), cut_first_value by lia. reflexivity.
    + destruct (cut_inside i0 e0 O) as (A & B). unfold touches in T0. destruct d0; lia.
  - rewrite cut_new_outflow. unfold flow_at. rewrite cut_first_value, cut_second_value by lia. ring.
Qed.
End State.

(** ** Edges *)
Lemma cell_same d k0 dx0 t0 t1 u1 u2 v1 v2 u1' u2' v1' v2' :
  (forall c, (c < 2)%nat -> u1' c = u1 c) -> (forall c, (c < 2)%nat -> u2' c = u2 c) -> (forall c, (c < 2)%nat -> v1' c = v1 c) -> (forall c, (c < 2)%nat -> v2' c = v2 c) ->
  cell_balanced d k0 dx0 t0 t1 u1 u2 v1 v2 -> cell_balanced d k0 dx0 t0 t1 u1' u2' v1' v2'.
Proof.
  intros E1 E2 E3 E4. assert (F : forall (w w' : vec), (forall c, (c < 2)%nat -> w' c = w c) -> source d k0 w' = source d k0 w /\ flux d w' = flux d w).
  { intros w w' H. unfold source, flux. rewrite (H 0%nat), (H 1%nat) by lia. auto. }
  destruct (F v1 v1' E3) as (S1 & F1). destruct (F v2 v2' E4) as (S2 & F2).
  intros (sl & sr & A & B & C). exists sl, sr. rewrite S1, S2. split; [exact A|]. split; [exact B|]. intros c Hc. rewrite F1, F2, E1, E2, E3, E4 by exact Hc. apply C. exact Hc.
Qed.
Section Edges.
Variables (t0 t1 : R) (last last' x x' c : vec).
Hypothesis Vl : cut_state N i e l last last'.
Hypothesis V : cut_state N i e l x x'.
Let s := fst (edge_block N i).

Lemma seg_first (y y' : vec) : cut_state N i e l y y' -> forall g q, (g <= l)%nat -> (q < 2)%nat -> seg y' (fst (edge_block N' i) + 2 * g) q = seg y (s + 2 * g) q.
Proof. intros (_ & _ & V3 & _) g q Hg Hq. apply V3; assumption. Qed.
Lemma seg_second (y y' : vec) : cut_state N i e l y y' -> forall g q, (g < np - l)%nat -> (q < 2)%nat -> seg y' (fst (edge_block N' m) + 2 * g) q = seg y (s + 2 * (l + g)) q.
Proof.
  intros (_ & _ & _ & V4) g q Hg Hq. fold N' m s in V4. specialize (V4 (l + g)%nat q). cbn [e e_type] in V4. specialize (V4 ltac:(lia) Hq).
  replace (l + g - l)%nat with g in V4 by lia. exact V4.
Qed.
Lemma pipe_cut : edge_equation N i e t0 t1 last x c <-> edge_equation N' i e1 t0 t1 last' x' c /\ edge_equation N' m e2 t0 t1 last' x' c.
Proof.
  unfold edge_equation. cbn [e e1 e2 e_type]. fold s. split.
  - intro H. split; intros g Hg.
    + eapply cell_same; [| | | |apply (H g); lia]; intros q Hq; first [apply (seg_first last last' Vl); lia|apply (seg_first x x' V); lia].
    + eapply cell_same; [| | | |apply (H (l + g)%nat); lia]; intros q Hq; (first [rewrite (seg_second last last' Vl) by lia|rewrite (seg_second x x' V) by lia]); try reflexivity;
        replace (l + (g + 1))%nat with (l + g + 1)%nat by lia; reflexivity.
  - intros (H1 & H2) g Hg. destruct (le_lt_dec l g) as [L|L].
    + eapply cell_same; [| | | |apply (H2 (g - l)%nat); lia]; intros q Hq; (first [rewrite (seg_second last last' Vl) by lia|rewrite (seg_second x x' V) by lia]);
        [replace (l + (g - l))%nat with g by lia|replace (l + (g - l + 1))%nat with (g + 1)%nat by lia|replace (l + (g - l))%nat with g by lia|replace (l + (g - l + 1))%nat with (g + 1)%nat by lia]; reflexivity.
    + eapply cell_same; [| | | |apply (H1 g); lia]; intros q Hq; symmetry; first [apply (seg_first last last' Vl); lia|apply (seg_first x x' V); lia].
Qed.
Lemma other_same i0 e0 : nth_error (edges N) i0 = Some e0 -> i0 <> i -> control_block N' i0 = control_block N i0 ->
  edge_equation N' i0 e0 t0 t1 last' x' c <-> edge_equation N i0 e0 t0 t1 last x c.
Proof.
  intros H Ne Cb.
  assert (R : forall q, (q < edge_states (e_type e0))%nat -> x' (fst (edge_block N' i0) + q)%nat = x (fst (edge_block N i0) + q)%nat)
    by (intros q Hq; destruct V as (_ & V2 & _); apply (V2 i0 e0 q H Ne Hq)).
  assert (Rl : forall q, (q < edge_states (e_type e0))%nat -> last' (fst (edge_block N' i0) + q)%nat = last (fst (edge_block N i0) + q)%nat)
    by (intros q Hq; destruct Vl as (_ & V2 & _); apply (V2 i0 e0 q H Ne Hq)).
  unfold edge_equation. rewrite Cb. destruct (e_type e0) as [d r w n| | | |g2p p2g|g b] eqn:T; cbn [edge_states] in R, Rl.
  - split; intros E g Hg; (eapply cell_same; [| | | |apply (E g Hg)]); intros q Hq; unfold seg;
      rewrite <- !Nat.add_assoc; first [apply R; lia|apply Rl; lia|symmetry; apply R; lia|symmetry; apply Rl; lia].
  - pose proof (R 0%nat) as R0. rewrite !Nat.add_0_r in R0. rewrite R0, !R by lia. reflexivity.
  - pose proof (R 0%nat) as R0. rewrite !Nat.add_0_r in R0. rewrite R0, !R by lia. reflexivity.
  - pose proof (R 0%nat) as R0. rewrite !Nat.add_0_r in R0. rewrite R0, !R by lia. reflexivity.
  - rewrite R by lia. destruct (cut_inside i0 e0 H) as (_ & B). rewrite cut_old_node by exact B.
    assert (K := proj1 (Forall_forall _ _) W e0 (nth_error_In _ _ H)). destruct K as (_ & K). rewrite T in K. destruct K as (_ & K).
    destruct (nth_error (nodes N) (e_to e0)) as [[| | |]|]; try reflexivity. setoid_rewrite (cut_power x x' V (e_to e0)); [reflexivity|exact K].
  - reflexivity.
Qed.
End Edges.

(** ** Blocks *)
Let D := (2 * (np - l - 1))%nat.
Lemma cut_sizes_list (f : edge -> nat) : map f (edges N') = firstn i (map f (edges N)) ++ f e1 :: skipn (S i) (map f (edges N)) ++ [f e2].
Proof.
  cbn [N' cut_pipe edges]. rewrite map_app. unfold numbered. rewrite map_map. cbn [map].
  assert (G : forall es s, nth_error es (i - s) = Some e -> (s <= i)%nat ->
    map (fun ie : nat * edge => f (if Nat.eqb (fst ie) i then first_part l (length (nodes N)) (snd ie) else snd ie)) (combine (seq s (length es)) es)
    = firstn (i - s) (map f es) ++ f e1 :: skipn (S (i - s)) (map f es)).
  { assert (R : forall es s, (i < s)%nat -> map (fun ie : nat * edge => f (if Nat.eqb (fst ie) i then first_part l (length (nodes N)) (snd ie) else snd ie)) (combine (seq s (length es)) es) = map f es).
    { induction es as [|e0 es IH]; intros s Hs; [reflexivity|]. cbn. rewrite IH by lia. rewrite (proj2 (Nat.eqb_neq s i)) by lia. reflexivity. }
    induction es as [|e0 es IH]; intros s Hs Ls; [destruct (i - s)%nat; discriminate|]. cbn [length seq combine map fst snd].
    destruct (Nat.eqb_spec s i) as [->|Ne].
    - rewrite Nat.sub_diag in *. cbn in Hs. injection Hs as ->. rewrite R by lia. reflexivity.
    - replace (i - s)%nat with (S (i - S s)) in * by lia. cbn in Hs. rewrite IH by (auto; lia). reflexivity. }
  rewrite (G (edges N) 0%nat); [|rewrite Nat.sub_0_r; exact He|lia]. rewrite Nat.sub_0_r. rewrite <- app_assoc. reflexivity.
Qed.
Lemma cut_control i0 : (i0 < m)%nat -> control_block N' i0 = control_block N i0.
Proof.
  intro H. assert (Cs : control_sizes N' = control_sizes N ++ [0%nat]).
  { unfold control_sizes. rewrite cut_sizes_list. cbn [e1 e2 e_type edge_controls].
    assert (E : nth_error (map (fun e0 => edge_controls (e_type e0)) (edges N)) i = Some 0%nat) by (rewrite nth_error_map, He; reflexivity).
    revert E. generalize (map (fun e0 => edge_controls (e_type e0)) (edges N)) as q. intros q E.
    rewrite <- (firstn_skipn i q) at 3. rewrite <- app_assoc. f_equal. clear - E. revert q E. induction i as [|u IH]; intros [|w q] E; try discriminate; [injection E as ->; reflexivity|]. exact (IH q E). }
  unfold control_block, control_blocks. rewrite Cs.
  destruct (nth_error (control_sizes N) i0) as [s|] eqn:E; [|apply nth_error_None in E; unfold control_sizes in E; rewrite map_length in E; fold m in E; lia].
  assert (L : (i0 < length (control_sizes N))%nat) by (unfold control_sizes; rewrite map_length; exact H).
  rewrite !(block_of _ i0 s) by (rewrite ?nth_error_app1; assumption).
  rewrite !firstn_app. replace (i0 - length (control_sizes N))%nat with 0%nat by lia. cbn [firstn]. rewrite app_nil_r. reflexivity.
Qed.

Theorem cut_equations t0 t1 last last' x x' c : cut_state N i e l last last' -> cut_state N i e l x x' ->
  network_equations N' t0 t1 last' x' c <-> network_equations N t0 t1 last x c.
Proof.
  intros Vl V. pose proof (pipe_cut t0 t1 last last' x x' c Vl V) as PC. split; intros (A & B); split.
  - intros j0 t H. apply (cut_node x x' V j0 t t1 H). apply A. rewrite cut_old_node by (apply nth_error_Some; congruence). exact H.
  - intros i0 e0 H. destruct (Nat.eq_dec i0 i) as [->|Ne].
    + assert (e0 = e) by congruence. subst e0. apply PC. split; [exact (B i e1 cut_first_edge)|exact (B m e2 cut_new_edge)].
    + apply (other_same t0 t1 last last' x x' c Vl V i0 e0 H Ne); [apply cut_control; apply nth_error_Some; congruence|]. apply B. apply cut_other_edge; assumption.
  - intros j0 t H. destruct (lt_dec j0 k) as [L|L].
    + rewrite cut_old_node in H by exact L. apply (cut_node x x' V j0 t t1 H). apply A. exact H.
    + assert (j0 < S k)%nat by (rewrite <- cut_number_nodes; apply nth_error_Some; congruence). assert (j0 = k) by lia. subst j0.
      cbn in H. rewrite nth_error_app2 in H by (unfold k; lia). unfold k in H. rewrite Nat.sub_diag in H. injection H as <-. apply (cut_new_node x x' V).
  - intros i0 e0 H. destruct (cut_edge_cases i0 e0 H) as [(-> & ->)|[(-> & ->)|(Ne & L & O)]].
    + apply PC. exact (B i e He).
    + apply PC. exact (B i e He).
    + apply (other_same t0 t1 last last' x x' c Vl V i0 e0 O Ne); [apply cut_control; exact L|]. apply B. exact O.
Qed.

Lemma cut_sizes : state_sizes N' = map node_states (nodes N) ++ 0%nat ::
  firstn i (map (fun e0 => edge_states (e_type e0)) (edges N)) ++ (2 * (l + 1))%nat :: skipn (S i) (map (fun e0 => edge_states (e_type e0)) (edges N)) ++ [(2 * (np - l))%nat].
Proof. unfold state_sizes. rewrite cut_sizes_list. cbn [N' cut_pipe nodes]. rewrite map_app, <- app_assoc. reflexivity. Qed.
Lemma cut_node_block j0 : (j0 < k)%nat -> node_block N' j0 = node_block N j0.
Proof.
  intro H. unfold node_block, state_blocks. rewrite cut_sizes. unfold state_sizes.
  destruct (nth_error (map node_states (nodes N)) j0) as [s|] eqn:E; [|apply nth_error_None in E; rewrite map_length in E; fold k in E; lia].
  assert (L : (j0 < length (map node_states (nodes N)))%nat) by (rewrite map_length; exact H).
  rewrite !(block_of _ j0 s) by (rewrite nth_error_app1; assumption).
  rewrite !firstn_app. replace (j0 - length (map node_states (nodes N)))%nat with 0%nat by lia. reflexivity.
Qed.
(** Where a block begins. *)
Lemma block_start M i0 e0 : nth_error (edges M) i0 = Some e0 ->
  fst (edge_block M i0) = (list_sum (map node_states (nodes M)) + list_sum (firstn i0 (map (fun e0 => edge_states (e_type e0)) (edges M))))%nat.
Proof.
  intro H. unfold edge_block, state_blocks. rewrite (block_of _ _ _ (edge_size M i0 e0 H)). cbn [fst]. unfold state_sizes.
  rewrite firstn_app, firstn_all2 by (rewrite map_length; lia). rewrite map_length. replace (length (nodes M) + i0 - length (nodes M))%nat with i0 by lia. apply list_sum_app.
Qed.
Let es := map (fun e0 => edge_states (e_type e0)) (edges N).
Let ns := list_sum (map node_states (nodes N)).
Lemma es_i : nth_error es i = Some (2 * np)%nat.
Proof. unfold es. rewrite nth_error_map, He. reflexivity. Qed.
Lemma es_length : length es = m.
Proof. apply map_length. Qed.
Lemma ns_new : list_sum (map node_states (nodes N')) = ns.
Proof. cbn [N' cut_pipe nodes]. rewrite map_app, list_sum_app. cbn. lia. Qed.
Lemma split_sum i0 : (i < i0)%nat -> list_sum (firstn i0 es) = (list_sum (firstn i es) + 2 * np + list_sum (firstn (i0 - S i) (skipn (S i) es)))%nat.
Proof.
  intro H. pose proof es_i as E. revert E. generalize es as q. generalize (2 * np)%nat as w. intros w q E.
  assert (Q : q = firstn i q ++ w :: skipn (S i) q).
  { rewrite <- (firstn_skipn i q) at 1. f_equal. clear - E. revert q E. induction i as [|u IH]; intros [|v q] E; try discriminate; [injection E as ->; reflexivity|]. exact (IH q E). }
  assert (Lq : (i < length q)%nat) by (apply nth_error_Some; congruence).
  rewrite Q at 1. rewrite firstn_app, firstn_length_le by lia. rewrite firstn_all2 by (rewrite firstn_length_le; lia).
  replace (i0 - i)%nat with (S (i0 - S i)) by lia. cbn [firstn]. rewrite list_sum_app. cbn [list_sum fold_right]. unfold list_sum. lia.
Qed.
Lemma cut_before i0 : (i0 <= i)%nat -> fst (edge_block N' i0) = fst (edge_block N i0).
Proof.
  intro H. destruct (nth_error (edges N) i0) as [e0|] eqn:E0; [|apply nth_error_None in E0; pose proof cut_i; fold m in E0; lia].
  assert (E0' : exists e0', nth_error (edges N') i0 = Some e0').
  { destruct (nth_error (edges N') i0) as [e0'|] eqn:E; [exists e0'; reflexivity|]. apply nth_error_None in E. rewrite cut_number_edges in E. pose proof cut_i. lia. }
  destruct E0' as (e0' & E0'). rewrite (block_start N' i0 e0' E0'), (block_start N i0 e0 E0), ns_new. fold ns es. f_equal.
  rewrite cut_sizes_list. fold es. rewrite firstn_app, firstn_firstn, Nat.min_l by lia.
  rewrite firstn_length_le by (rewrite es_length; pose proof cut_i; lia). replace (i0 - i)%nat with 0%nat by lia. cbn [firstn]. rewrite app_nil_r. reflexivity.
Qed.
Lemma cut_after i0 : (i < i0)%nat -> (i0 < m)%nat -> (fst (edge_block N' i0) + D = fst (edge_block N i0))%nat.
Proof.
  intros H L. destruct (nth_error (edges N) i0) as [e0|] eqn:E0; [|apply nth_error_None in E0; fold m in E0; lia].
  rewrite (block_start N' i0 e0 (cut_other_edge i0 e0 E0 ltac:(lia))), (block_start N i0 e0 E0), ns_new. fold ns es.
  rewrite split_sum by exact H. rewrite cut_sizes_list. fold es. pose proof es_length as Le.
  rewrite firstn_app, firstn_firstn, Nat.min_r by lia. rewrite firstn_length_le by lia. replace (i0 - i)%nat with (S (i0 - S i)) by lia. cbn [firstn].
  rewrite firstn_app. assert (Ls : length (skipn (S i) es) = (m - S i)%nat) by (rewrite skipn_length, Le; reflexivity).
  replace (i0 - S i - length (skipn (S i) es))%nat with 0%nat by lia. cbn [firstn]. rewrite app_nil_r, list_sum_app. cbn [list_sum fold_right e1 e_type edge_states].
  unfold list_sum, D. lia.
Qed.
Lemma cut_states : number_of_states N' = (number_of_states N + 2)%nat.
Proof.
  unfold number_of_states. rewrite cut_sizes, !sizes_sum. unfold state_sizes. rewrite !list_sum_app. fold es ns.
  pose proof (split_sum m cut_i) as S0. rewrite <- es_length in S0 at 1. rewrite firstn_all in S0. rewrite S0.
  rewrite firstn_all2 with (n := (m - S i)%nat) by (rewrite skipn_length, es_length; lia).
  cbn [list_sum fold_right]. fold (list_sum (firstn i es ++ (2 * (l + 1))%nat :: skipn (S i) es ++ [(2 * (np - l))%nat])).
  rewrite list_sum_app. cbn [list_sum fold_right]. fold (list_sum (skipn (S i) es ++ [(2 * (np - l))%nat])). rewrite list_sum_app. cbn. lia.
Qed.
Lemma cut_last : (fst (edge_block N' m) + D = number_of_states N)%nat.
Proof.
  destruct (edge_block_spec N' m e2 cut_new_edge) as (s & B & _). 
  rewrite (block_start N' m e2 cut_new_edge), ns_new, cut_sizes_list. fold es.
  unfold number_of_states. rewrite sizes_sum. unfold state_sizes. rewrite list_sum_app. fold es ns.
  pose proof (split_sum m cut_i) as S0. rewrite <- es_length in S0 at 1. rewrite firstn_all in S0. rewrite S0. pose proof es_length as Le. pose proof cut_i.
  rewrite firstn_app, firstn_firstn, Nat.min_r by lia. rewrite firstn_length_le by lia. replace (m - i)%nat with (S (m - S i)) by lia. cbn [firstn].
  rewrite firstn_app. assert (Ls : length (skipn (S i) es) = (m - S i)%nat) by (rewrite skipn_length, Le; reflexivity).
  rewrite Ls, Nat.sub_diag. cbn [firstn]. rewrite app_nil_r, list_sum_app. cbn [list_sum fold_right e1 e_type edge_states].
  unfold list_sum, D. lia.
Qed.
End Cut.
