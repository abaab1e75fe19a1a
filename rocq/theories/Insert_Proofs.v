(** A short pipe between a node and one of its edges. *)
From Coq Require Import Reals ZArith Lra Lia List Arith Bool.
From Coquelicot Require Import Complex.
From Verif Require Import Base Calc Euler_Model Box_Model Net_Model Net_Spec Net_Proofs5 Net_Proofs8 Level_Spec Level_Proofs Level_Proofs2
  Mass_Proofs Grid_Proofs2 Part_Proofs Part_Proofs2.
From Verif Require Import Insert_Spec.
Import ListNotations.
Local Open Scope R_scope.

Lemma nth_error_numbered {A} (l : list A) i : nth_error (combine (seq 0 (length l)) l) i = option_map (fun a => (i, a)) (nth_error l i).
Proof.
  assert (G : forall s, nth_error (combine (seq s (length l)) l) i = option_map (fun a => (s + i, a)%nat) (nth_error l i)).
  { revert i. induction l as [|a l IH]; intros i s; [destruct i; reflexivity|]. destruct i as [|i]; cbn; [rewrite Nat.add_0_r; reflexivity|].
    rewrite IH. replace (S s + i)%nat with (s + S i)%nat by lia. reflexivity. }
  apply G.
Qed.

Lemma map_numbered {A B} (f : A -> B) (l : list A) : forall s, map (fun ia => f (snd ia)) (combine (seq s (length l)) l) = map f l.
Proof. induction l as [|b l IH]; intro s; [reflexivity|]. cbn. rewrite IH. reflexivity. Qed.
Lemma combine_numbered {A B} (f : nat * A -> B) (l : list A) : forall s,
  combine (seq s (length l)) (map f (combine (seq s (length l)) l)) = map (fun ia => (fst ia, f ia)) (combine (seq s (length l)) l).
Proof. induction l as [|b l IH]; intro s; [reflexivity|]. cbn. rewrite IH. reflexivity. Qed.

Section Insert.
Variables (N : network) (i : nat) (e : edge) (d : direction).
Hypothesis W : well_formed N.
Hypothesis He : nth_error (edges N) i = Some e.
Hypothesis Hd : gas_end e d.
Let j := end_node e d.
Let k := length (nodes N).
Let m := length (edges N).
Let N' := insert_shortpipe N i d j.

(** ** Nodes and edges *)
Lemma i_small : (i < m)%nat.
Proof. apply nth_error_Some. rewrite He. discriminate. Qed.
Lemma number_edges : length (edges N') = S m.
Proof. cbn. unfold numbered. rewrite app_length, map_length, combine_length, seq_length. cbn. unfold m. lia. Qed.
Lemma number_nodes : length (nodes N') = S k.
Proof. cbn. rewrite app_length. cbn. unfold k. lia. Qed.
Lemma new_edge : nth_error (edges N') m = Some (mkEdge j k EShortpipe).
Proof.
  cbn [N' insert_shortpipe edges]. unfold numbered. rewrite nth_error_app2; rewrite map_length, combine_length, seq_length, Nat.min_id; fold m; [|lia].
  rewrite Nat.sub_diag. reflexivity.
Qed.
Lemma old_edge i0 : (i0 < m)%nat ->
  nth_error (edges N') i0 = option_map (fun e0 => if Nat.eqb i0 i then moved d k e0 else e0) (nth_error (edges N) i0).
Proof.
  intro H. cbn [N' insert_shortpipe edges]. unfold numbered. rewrite nth_error_app1; [|rewrite map_length, combine_length, seq_length, Nat.min_id; exact H].
  rewrite nth_error_map, nth_error_numbered. destruct (nth_error (edges N) i0); reflexivity.
Qed.
Lemma other_edge i0 e0 : nth_error (edges N) i0 = Some e0 -> i0 <> i -> nth_error (edges N') i0 = Some e0.
Proof.
  intros H Ne. rewrite old_edge by (apply nth_error_Some; congruence). rewrite H. cbn. destruct (Nat.eqb_spec i0 i); [contradiction|reflexivity].
Qed.
Lemma moved_edge : nth_error (edges N') i = Some (moved d k e).
Proof. rewrite old_edge by apply i_small. rewrite He. cbn. rewrite Nat.eqb_refl. reflexivity. Qed.
Lemma edge_cases i0 e0 : nth_error (edges N') i0 = Some e0 ->
  i0 = m /\ e0 = mkEdge j k EShortpipe \/ i0 = i /\ e0 = moved d k e \/ i0 <> i /\ (i0 < m)%nat /\ nth_error (edges N) i0 = Some e0.
Proof.
  intro H. assert (L : (i0 < S m)%nat) by (rewrite <- number_edges; apply nth_error_Some; congruence).
  destruct (Nat.eq_dec i0 m) as [->|Nm]; [left; rewrite new_edge in H; injection H as <-; auto|]. right.
  destruct (Nat.eq_dec i0 i) as [->|Ni]; [left; rewrite moved_edge in H; injection H as <-; auto|]. right.
  rewrite old_edge in H by lia. split; [exact Ni|]. split; [lia|]. destruct (nth_error (edges N) i0); [|discriminate]. cbn in H.
  destruct (Nat.eqb_spec i0 i); [contradiction|exact H].
Qed.
Lemma old_node j0 : (j0 < k)%nat -> nth_error (nodes N') j0 = nth_error (nodes N) j0.
Proof. intro H. cbn. apply nth_error_app1. exact H. Qed.
Lemma moved_type e0 : e_type (moved d k e0) = e_type e0.
Proof. destruct d; reflexivity. Qed.

Lemma edge_inside i0 e0 : nth_error (edges N) i0 = Some e0 -> (e_from e0 < k)%nat /\ (e_to e0 < k)%nat.
Proof.
  intro H. assert (K := proj1 (Forall_forall _ _) W e0 (nth_error_In _ _ H)). destruct K as (_ & K). unfold k.
  assert (G : forall j0, is_gas_node N j0 -> (j0 < length (nodes N))%nat)
    by (intros j0 G; apply nth_error_Some; unfold is_gas_node in G; destruct (nth_error (nodes N) j0); [discriminate|destruct G]).
  assert (P : forall j0, is_power_node N j0 -> (j0 < length (nodes N))%nat)
    by (intros j0 P; apply nth_error_Some; unfold is_power_node in P; destruct (nth_error (nodes N) j0); [discriminate|destruct P]).
  destruct (e_type e0); intuition auto.
Qed.
Lemma j_small : (j < k)%nat.
Proof. destruct (edge_inside i e He) as (A & B). unfold j, end_node. destruct d; assumption. Qed.
Lemma gas_j : is_gas_node N j.
Proof.
  assert (K := proj1 (Forall_forall _ _) W e (nth_error_In _ _ He)). destruct K as (_ & K). unfold gas_end in Hd. unfold j, end_node.
  destruct d, (e_type e); intuition auto; contradiction.
Qed.

(** ** Blocks *)
Lemma edge_types : map (fun e0 => e_type e0) (edges N') = map (fun e0 => e_type e0) (edges N) ++ [EShortpipe].
Proof.
  cbn [N' insert_shortpipe edges]. rewrite map_app. unfold numbered. rewrite map_map. cbn [map e_type]. f_equal.
  transitivity (map (fun ie : nat * edge => e_type (snd ie)) (combine (seq 0 (length (edges N))) (edges N))).
  - apply map_ext. intros (a, b). cbn. destruct (Nat.eqb a i); [apply moved_type|reflexivity].
  - apply map_numbered.
Qed.
Lemma inserted_sizes : state_sizes N' = map node_states (nodes N) ++ 0%nat :: map (fun e0 => edge_states (e_type e0)) (edges N) ++ [4%nat].
Proof.
  unfold state_sizes. rewrite <- (map_map (fun e0 => e_type e0) edge_states (edges N')), edge_types, map_app, map_map.
  cbn [N' insert_shortpipe nodes]. rewrite map_app, <- app_assoc. reflexivity.
Qed.
Lemma inserted_controls : control_sizes N' = control_sizes N ++ [0%nat].
Proof. unfold control_sizes. rewrite <- (map_map (fun e0 => e_type e0) edge_controls (edges N')), edge_types, map_app, map_map. reflexivity. Qed.
Lemma block_of sizes a s : nth_error sizes a = Some s ->
  nth a (fst (assign_indices 0 sizes)) (0, 0)%nat = (list_sum (firstn a sizes), (list_sum (firstn a sizes) + s)%nat).
Proof. intro H. apply nth_error_nth. rewrite (assign_start sizes 0 a s H). reflexivity. Qed.
Lemma same_node_block j0 : (j0 < k)%nat -> node_block N' j0 = node_block N j0.
Proof.
  intro H. unfold node_block, state_blocks. rewrite inserted_sizes. unfold state_sizes.
  destruct (nth_error (map node_states (nodes N)) j0) as [s|] eqn:E; [|apply nth_error_None in E; rewrite map_length in E; fold k in E; lia].
  assert (L : (j0 < length (map node_states (nodes N)))%nat) by (rewrite map_length; exact H).
  rewrite !(block_of _ j0 s) by (rewrite nth_error_app1; assumption).
  rewrite !firstn_app. replace (j0 - length (map node_states (nodes N)))%nat with 0%nat by lia. reflexivity.
Qed.
Lemma same_edge_block i0 : (i0 < m)%nat -> edge_block N' i0 = edge_block N i0.
Proof.
  intro H. unfold edge_block, state_blocks. rewrite inserted_sizes, number_nodes. unfold state_sizes. fold k.
  set (ns := map node_states (nodes N)). set (es := map (fun e0 => edge_states (e_type e0)) (edges N)).
  assert (Ln : length ns = k) by apply map_length. assert (Le : length es = m) by apply map_length.
  destruct (nth_error es i0) as [s|] eqn:E; [|apply nth_error_None in E; lia].
  rewrite (block_of _ (S k + i0) s).
  2:{ rewrite nth_error_app2 by lia. replace (S k + i0 - length ns)%nat with (S i0) by lia. cbn [nth_error]. rewrite nth_error_app1 by lia. exact E. }
  rewrite (block_of _ (k + i0) s).
  2:{ rewrite nth_error_app2 by lia. replace (k + i0 - length ns)%nat with i0 by lia. exact E. }
  rewrite !firstn_app. replace (S k + i0 - length ns)%nat with (S i0) by lia. replace (k + i0 - length ns)%nat with i0 by lia.
  rewrite !firstn_all2 with (l := ns) by lia. cbn [firstn]. rewrite firstn_app. replace (i0 - length es)%nat with 0%nat by lia.
  cbn [firstn]. rewrite app_nil_r, !list_sum_app. reflexivity.
Qed.
Lemma states_sum l : forall a, snd (assign_indices a l) = (a + list_sum l)%nat.
Proof. induction l as [|s l IH]; intro a; cbn; [lia|]. specialize (IH (a + s)%nat). destruct (assign_indices (a + s) l). cbn [snd] in *. rewrite IH. unfold list_sum. lia. Qed.
Lemma new_edge_block : edge_block N' m = (number_of_states N, (number_of_states N + 4)%nat).
Proof.
  unfold edge_block, state_blocks, number_of_states. rewrite inserted_sizes, number_nodes, states_sum. unfold state_sizes.
  set (ns := map node_states (nodes N)). set (es := map (fun e0 => edge_states (e_type e0)) (edges N)).
  assert (Ln : length ns = k) by apply map_length. assert (Le : length es = m) by apply map_length.
  rewrite (block_of _ (S k + m) 4%nat).
  2:{ rewrite nth_error_app2 by lia. replace (S k + m - length ns)%nat with (S m) by lia. cbn [nth_error]. rewrite nth_error_app2 by (rewrite Le; apply le_n). rewrite Le, Nat.sub_diag. reflexivity. }
  rewrite firstn_app, firstn_all2 with (l := ns) by lia. replace (S k + m - length ns)%nat with (S m) by lia. cbn [firstn].
  rewrite firstn_app, firstn_all2 by lia. rewrite Le, Nat.sub_diag. cbn [firstn]. rewrite app_nil_r, !list_sum_app. reflexivity.
Qed.
Lemma inserted_states : number_of_states N' = (number_of_states N + 4)%nat.
Proof. unfold number_of_states. rewrite inserted_sizes, !states_sum. unfold state_sizes. rewrite !list_sum_app. cbn. rewrite list_sum_app. cbn. lia. Qed.
Lemma same_control_block i0 : (i0 < m)%nat -> control_block N' i0 = control_block N i0.
Proof.
  intro H. unfold control_block, control_blocks. rewrite inserted_controls.
  destruct (nth_error (control_sizes N) i0) as [s|] eqn:E; [|apply nth_error_None in E; unfold control_sizes in E; rewrite map_length in E; fold m in E; lia].
  assert (L : (i0 < length (control_sizes N))%nat) by (unfold control_sizes; rewrite map_length; exact H).
  rewrite !(block_of _ i0 s) by (rewrite ?nth_error_app1; assumption).
  rewrite !firstn_app. replace (i0 - length (control_sizes N))%nat with 0%nat by lia. cbn [firstn]. rewrite app_nil_r. reflexivity.
Qed.

(** ** Pressures and flows *)
Lemma same_position i0 d0 : (i0 < m)%nat -> end_position N' i0 d0 = end_position N i0 d0.
Proof. intro H. unfold end_position. rewrite same_edge_block by exact H. reflexivity. Qed.
Lemma same_flow i0 d0 x : (i0 < m)%nat -> flow_at N' i0 d0 x = flow_at N i0 d0 x.
Proof. intro H. unfold flow_at. rewrite same_position by exact H. reflexivity. Qed.
Lemma same_pressure i0 e0 e1 d0 x : (i0 < m)%nat -> e_type e1 = e_type e0 -> pressure_at N' i0 e1 d0 x = pressure_at N i0 e0 d0 x.
Proof. intros H T. unfold pressure_at. rewrite T, same_position by exact H. reflexivity. Qed.
Lemma short_position d0 : end_position N' m d0 = (number_of_states N + match d0 with dstart => 0 | dend => 2 end)%nat.
Proof. unfold end_position. rewrite new_edge_block. destruct d0; cbn; lia. Qed.

Lemma csum_app {A} (f : A -> C) l l' : csum f (l ++ l') = Cplus (csum f l) (csum f l').
Proof. induction l as [|a l IH]; cbn; [rewrite Cplus_0_l; reflexivity|]. unfold csum in *. rewrite IH. apply Cplus_assoc. Qed.
Lemma same_voltage j0 x : (j0 < k)%nat -> voltage N' j0 x = voltage N j0 x.
Proof. intro H. unfold voltage. rewrite same_node_block by exact H. reflexivity. Qed.
Lemma same_power j0 G B x : (j0 < k)%nat -> power N' j0 G B x = power N j0 G B x.
Proof.
  intro H. unfold power, current. rewrite same_voltage by exact H. f_equal. f_equal. f_equal.
  cbn [N' insert_shortpipe edges]. fold N'. rewrite csum_app. cbn [csum fold_right e_type].
  match goal with |- Cplus ?a (Cplus (RtoC 0) (RtoC 0)) = _ => transitivity a; [rewrite !Cplus_0_r; reflexivity|] end.
  assert (Ty : forall e0, carries_gas e0 = true -> match e_type e0 with ELine _ _ => False | _ => True end)
    by (intros e0; unfold carries_gas; destruct (e_type e0); auto; discriminate).
  assert (Ge : carries_gas e = true) by (unfold gas_end in Hd; unfold carries_gas; destruct d, (e_type e); auto; contradiction).
  unfold numbered.
  assert (Gen : forall l s, (forall i0 e0, nth_error l i0 = Some e0 -> nth_error (edges N) (s + i0) = Some e0) ->
    csum (fun e0 => match e_type e0 with
                    | ELine g b =>
                        Cplus (if Nat.eqb (e_from e0) j0 then Cmult (g, b) (voltage N' (e_to e0) x) else RtoC 0)
                              (if Nat.eqb (e_to e0) j0 then Cmult (g, b) (voltage N' (e_from e0) x) else RtoC 0)
                    | _ => RtoC 0
                    end) (map (fun ie : nat * edge => if Nat.eqb (fst ie) i then moved d (length (nodes N)) (snd ie) else snd ie) (combine (seq s (length l)) l))
    = csum (fun e0 => match e_type e0 with
                    | ELine g b =>
                        Cplus (if Nat.eqb (e_from e0) j0 then Cmult (g, b) (voltage N (e_to e0) x) else RtoC 0)
                              (if Nat.eqb (e_to e0) j0 then Cmult (g, b) (voltage N (e_from e0) x) else RtoC 0)
                    | _ => RtoC 0
                    end) l).
  { induction l as [|e0 l IH]; intros s Hl; [reflexivity|]. cbn [length seq combine map csum fold_right fst snd].
    unfold csum in IH. rewrite IH; [|intros i0 e1 H1; replace (S s + i0)%nat with (s + S i0)%nat by lia; apply Hl; exact H1]. f_equal.
    assert (E0 : nth_error (edges N) s = Some e0) by (rewrite <- (Nat.add_0_r s); apply Hl; reflexivity).
    destruct (Nat.eqb_spec s i) as [->|Ne].
    - assert (e0 = e) by congruence. subst e0. fold k. rewrite moved_type. specialize (Ty e Ge). destruct (e_type e); easy.
    - destruct (edge_inside s e0 E0) as (In1 & In2). rewrite !same_voltage by assumption. reflexivity. }
  apply Gen. intros; assumption.
Qed.

Lemma carries_e : carries_gas e = true.
Proof. unfold gas_end in Hd. unfold carries_gas. destruct d, (e_type e); auto; contradiction. Qed.

Definition from_i (x : vec) : R := match d with dstart => flow_at N i d x | dend => - flow_at N i d x end.
Lemma outflow_term (j0 : nat) (x : vec) (F : nat * edge -> R) :
  F = (fun ie => if carries_gas (snd ie)
                  then (if Nat.eqb (e_from (snd ie)) j0 then flow_at N' (fst ie) dstart x else 0)
                       - (if Nat.eqb (e_to (snd ie)) j0 then flow_at N' (fst ie) dend x else 0)
                  else 0) ->
  net_outflow N' j0 x = rsum (fun ie => F (fst ie, if Nat.eqb (fst ie) i then moved d k (snd ie) else snd ie)) (numbered N) + F (m, mkEdge j k EShortpipe).
Proof.
  intros ->. unfold net_outflow. unfold numbered at 1. rewrite number_edges. cbn [N' insert_shortpipe edges]. fold N' k.
  rewrite seq_S, Nat.add_0_l.
  assert (Co : forall (a b : list nat) (u v : list edge), length a = length u -> combine (a ++ b) (u ++ v) = combine a u ++ combine b v).
  { induction a as [|x0 a IH]; intros b [|y u] v HL; try discriminate; [reflexivity|]. cbn. rewrite IH by (injection HL; auto). reflexivity. }
  rewrite Co by (unfold numbered; rewrite map_length, combine_length, !seq_length; fold m; lia).
  rewrite rsum_app. f_equal.
  - unfold numbered, m. rewrite combine_numbered, rsum_map. reflexivity.
  - cbn. ring.
Qed.
Lemma outflow_old j0 x : (j0 < k)%nat ->
  net_outflow N' j0 x = net_outflow N j0 x + (if Nat.eqb j j0 then x (number_of_states N + 1)%nat - from_i x else 0).
Proof.
  intro H. rewrite (outflow_term j0 x _ eq_refl). cbn [fst snd carries_gas e_type e_from e_to].
  assert (Kj : Nat.eqb k j0 = false) by (apply Nat.eqb_neq; lia). rewrite Kj.
  assert (Sh : flow_at N' m dstart x = x (number_of_states N + 1)%nat) by (unfold flow_at; rewrite short_position; f_equal; lia). rewrite Sh.
  unfold net_outflow. unfold numbered.
  match goal with |- rsum ?f ?l + ?a = rsum ?g _ + ?b => assert (S : rsum f l - rsum g l = b - a); [|lra] end.
  rewrite <- rsum_minus.
  rewrite (rsum_single _ (edges N) i e He).
  2:{ intros i0 e0 H0 Ne. cbn [fst snd]. destruct (Nat.eqb_spec i0 i); [contradiction|].
      rewrite !same_flow by (apply nth_error_Some; congruence). ring. }
  cbn [fst snd]. rewrite Nat.eqb_refl. rewrite !same_flow by apply i_small.
  assert (Cm : carries_gas (moved d k e) = true) by (unfold carries_gas; rewrite moved_type; apply carries_e). rewrite Cm, carries_e.
  unfold from_i, j, end_node.
  destruct d; cbn [moved e_from e_to]; rewrite Kj.
  - destruct (Nat.eqb (e_from e) j0), (Nat.eqb (e_to e) j0); ring.
  - destruct (Nat.eqb (e_from e) j0), (Nat.eqb (e_to e) j0); ring.
Qed.
Lemma outflow_new x : net_outflow N' k x = from_i x - x (number_of_states N + 3)%nat.
Proof.
  rewrite (outflow_term k x _ eq_refl). cbn [fst snd carries_gas e_type e_from e_to].
  rewrite Nat.eqb_refl. assert (Jk : Nat.eqb j k = false) by (apply Nat.eqb_neq; pose proof j_small; lia). rewrite Jk.
  unfold numbered. rewrite (rsum_single _ (edges N) i e He).
  2:{ intros i0 e0 H0 Ne. cbn [fst snd]. destruct (Nat.eqb_spec i0 i); [contradiction|].
      destruct (edge_inside i0 e0 H0) as (A & B). rewrite (proj2 (Nat.eqb_neq (e_from e0) k)), (proj2 (Nat.eqb_neq (e_to e0) k)) by lia.
      destruct (carries_gas e0); ring. }
  cbn [fst snd]. rewrite Nat.eqb_refl. rewrite !same_flow by apply i_small.
  assert (Cm : carries_gas (moved d k e) = true) by (unfold carries_gas; rewrite moved_type; apply carries_e). rewrite Cm.
  assert (Sh : flow_at N' m dend x = x (number_of_states N + 3)%nat) by (unfold flow_at; rewrite short_position; f_equal; lia). rewrite Sh.
  destruct (edge_inside i e He) as (A & B). unfold from_i. destruct d; cbn [moved e_from e_to].
  - rewrite Nat.eqb_refl, (proj2 (Nat.eqb_neq (e_to e) k)) by lia. ring.
  - rewrite Nat.eqb_refl, (proj2 (Nat.eqb_neq (e_from e) k)) by lia. ring.
Qed.

Lemma touches_moved d0 j0 : (j0 < k)%nat -> touches (moved d k e) d0 j0 <-> touches e d0 j0 /\ d0 <> d.
Proof.
  intro H. unfold touches. destruct d, d0; cbn; split; intro T; try (destruct T as (T & T')); try (split; [|discriminate]); try lia; try congruence.
Qed.
Lemma touches_moved_new d0 : touches (moved d k e) d0 k <-> d0 = d.
Proof.
  destruct (edge_inside i e He) as (A & B). unfold touches. destruct d, d0; cbn; split; intro T; try reflexivity; try discriminate; lia.
Qed.
Lemma touches_j : touches e d j.
Proof. unfold touches, j, end_node. destruct d; reflexivity. Qed.
Lemma dir_dec (a b : direction) : {a = b} + {a <> b}.
Proof. decide equality. Qed.

(** ** Equations of nodes and edges *)
Section State.
Variables (t0 t1 : R) (last x c : vec).
Hypothesis V : shortpipe_values N i e d x.

Lemma pressures_old j0 pr : (j0 < k)%nat -> equal_pressures N' j0 x pr <-> equal_pressures N j0 x pr.
Proof.
  intro H. destruct V as (V0 & _ & _ & _). split; intros E i0 e0 d0 H0 C0 T0.
  - assert (L : (i0 < m)%nat) by (apply nth_error_Some; congruence).
    destruct (Nat.eq_dec i0 i) as [->|Ne].
    + assert (e0 = e) by congruence. subst e0. destruct (dir_dec d0 d) as [->|Nd].
      * assert (j0 = j) by (unfold touches in T0; unfold j, end_node; destruct d; congruence). subst j0.
        specialize (E m _ dstart new_edge eq_refl eq_refl). unfold pressure_at in E. cbn [e_type] in E. rewrite short_position, Nat.add_0_r in E. congruence.
      * rewrite <- (same_pressure i e (moved d k e) d0 x L (moved_type e)). apply E; [apply moved_edge| |apply touches_moved; auto].
        unfold carries_gas. rewrite moved_type. exact C0.
    + rewrite <- (same_pressure i0 e0 e0 d0 x L eq_refl). apply E; [apply other_edge; assumption|exact C0|exact T0].
  - destruct (edge_cases i0 e0 H0) as [(-> & ->)|[(-> & ->)|(Ne & L & O)]].
    + unfold pressure_at. cbn [e_type]. rewrite short_position. destruct d0; cbn in T0; [|lia]. subst j0.
      rewrite Nat.add_0_r, V0. exact (E i e d He carries_e touches_j).
    + apply touches_moved in T0; [|exact H]. destruct T0 as (T0 & Nd).
      rewrite (same_pressure i e (moved d k e) d0 x i_small (moved_type e)). exact (E i e d0 He carries_e T0).
    + rewrite (same_pressure i0 e0 e0 d0 x L eq_refl). exact (E i0 e0 d0 O C0 T0).
Qed.
Lemma has_edge_old j0 : (j0 < k)%nat -> has_gas_edge N' j0 <-> has_gas_edge N j0.
Proof.
  intro H. split; intros (i0 & e0 & d0 & H0 & C0 & T0).
  - destruct (edge_cases i0 e0 H0) as [(-> & ->)|[(-> & ->)|(Ne & L & O)]].
    + destruct d0; cbn in T0; [subst j0|lia]. exists i, e, d. repeat split; [exact He|exact carries_e|exact touches_j].
    + apply touches_moved in T0; [|exact H]. exists i, e, d0. repeat split; [exact He|exact carries_e|apply T0].
    + exists i0, e0, d0. auto.
  - destruct (Nat.eq_dec i0 i) as [->|Ne].
    + assert (e0 = e) by congruence. subst e0. destruct (dir_dec d0 d) as [->|Nd].
      * exists m, (mkEdge j k EShortpipe), dstart. repeat split; [apply new_edge|]. unfold touches in *. unfold j, end_node. cbn. destruct d; exact T0.
      * exists i, (moved d k e), d0. repeat split; [apply moved_edge|unfold carries_gas; rewrite moved_type; exact C0|apply touches_moved; auto].
    + exists i0, e0, d0. repeat split; [apply other_edge; assumption|exact C0|exact T0].
Qed.
Lemma outflow_same j0 : (j0 < k)%nat -> net_outflow N' j0 x = net_outflow N j0 x.
Proof.
  intro H. rewrite outflow_old by exact H. destruct V as (_ & V1 & _ & _). unfold from_i. destruct (Nat.eqb j j0); [|ring]. rewrite V1. destruct d; ring.
Qed.
Lemma node_same j0 t : (j0 < k)%nat -> node_equation N' j0 t t1 x <-> node_equation N j0 t t1 x.
Proof.
  intro H. unfold node_equation. rewrite (outflow_same j0 H). pose proof (has_edge_old j0 H) as HE.
  assert (EP : forall pr, equal_pressures N' j0 x pr <-> equal_pressures N j0 x pr) by (intro; apply pressures_old; exact H).
  destruct t as [|sink b|b|kd ext G B b].
  - rewrite HE. setoid_rewrite EP. reflexivity.
  - rewrite HE. setoid_rewrite EP. reflexivity.
  - rewrite HE. setoid_rewrite EP. reflexivity.
  - rewrite same_power, same_node_block by exact H. reflexivity.
Qed.
Lemma edge_same i0 e0 e1 : nth_error (edges N) i0 = Some e0 -> e_type e1 = e_type e0 ->
  (match e_type e0 with EGaspower _ _ => e_to e1 = e_to e0 | _ => True end) ->
  edge_equation N' i0 e1 t0 t1 last x c <-> edge_equation N i0 e0 t0 t1 last x c.
Proof.
  intros H T G. assert (L : (i0 < m)%nat) by (apply nth_error_Some; congruence). destruct (edge_inside i0 e0 H) as (A & B).
  unfold edge_equation. rewrite T, same_edge_block, same_control_block by exact L. destruct (e_type e0); try reflexivity.
  rewrite G, old_node by exact B. destruct (nth_error (nodes N) (e_to e0)) as [[| | |]|]; try reflexivity.
  setoid_rewrite (same_power (e_to e0)); [reflexivity|exact B].
Qed.
Lemma new_node_equation : node_equation N' k Innode t1 x.
Proof.
  intros _. destruct V as (V0 & V1 & V2 & V3). split.
  - exists (pressure_at N i e d x). intros i0 e0 d0 H0 C0 T0.
    destruct (edge_cases i0 e0 H0) as [(-> & ->)|[(-> & ->)|(Ne & L & O)]].
    + unfold pressure_at at 1. cbn [e_type]. rewrite short_position. destruct d0; cbn in T0; [pose proof j_small; lia|exact V2].
    + apply touches_moved_new in T0. subst d0. apply same_pressure; [apply i_small|apply moved_type].
    + destruct (edge_inside i0 e0 O) as (A & B). unfold touches in T0. destruct d0; lia.
  - rewrite outflow_new, V3. unfold from_i. destruct d; ring.
Qed.
End State.

Lemma values_needed t0 t1 last x c : network_equations N' t0 t1 last x c -> shortpipe_values N i e d x.
Proof.
  intros (A & B).
  assert (K : nth_error (nodes N') k = Some Innode) by (cbn; rewrite nth_error_app2 by (unfold k; lia); unfold k; rewrite Nat.sub_diag; reflexivity).
  specialize (A k Innode K). specialize (B m _ new_edge). unfold edge_equation in B. cbn [e_type] in B. rewrite new_edge_block in B. cbn [fst] in B.
  destruct A as ((pr & P) & Q).
  { exists m, (mkEdge j k EShortpipe), dend. repeat split. apply new_edge. }
  assert (P1 := P m _ dend new_edge eq_refl eq_refl). unfold pressure_at in P1. cbn [e_type] in P1. rewrite short_position in P1.
  assert (P2 := P i _ d moved_edge). rewrite (same_pressure i e (moved d k e) d x i_small (moved_type e)) in P2.
  specialize (P2 ltac:(unfold carries_gas; rewrite moved_type; apply carries_e) (proj2 (touches_moved_new d) eq_refl)).
  rewrite outflow_new in Q. unfold from_i in Q. destruct B as (B2 & B3).
  unfold shortpipe_values. cbv zeta. repeat split; [congruence| |congruence|]; destruct d; lra.
Qed.

Theorem inserted_equations t0 t1 last x c :
  network_equations N' t0 t1 last x c <-> network_equations N t0 t1 last x c /\ shortpipe_values N i e d x.
Proof.
  assert (Gp : match e_type e with EGaspower _ _ => e_to (moved d k e) = e_to e | _ => True end).
  { unfold gas_end in Hd. destruct (e_type e); auto. destruct d; [reflexivity|contradiction]. }
  split.
  - intro H. pose proof (values_needed t0 t1 last x c H) as V. split; [|exact V]. destruct H as (A & B). split.
    + intros j0 t H0. assert (L : (j0 < k)%nat) by (apply nth_error_Some; congruence). apply (node_same t1 x V j0 t L). apply A. rewrite old_node; assumption.
    + intros i0 e0 H0. destruct (Nat.eq_dec i0 i) as [->|Ne].
      * assert (e0 = e) by congruence. subst e0. apply (edge_same t0 t1 last x c i e (moved d k e) He (moved_type e) Gp). apply B. apply moved_edge.
      * apply (edge_same t0 t1 last x c i0 e0 e0 H0 eq_refl); [destruct (e_type e0); auto|]. apply B. apply other_edge; assumption.
  - intros ((A & B) & V). split.
    + intros j0 t H0. destruct (lt_dec j0 k) as [L|L].
      * rewrite old_node in H0 by exact L. apply (node_same t1 x V j0 t L). apply A. exact H0.
      * assert (j0 < S k)%nat by (rewrite <- number_nodes; apply nth_error_Some; congruence). assert (j0 = k) by lia. subst j0.
        cbn in H0. rewrite nth_error_app2 in H0 by (unfold k; lia). unfold k in H0. rewrite Nat.sub_diag in H0. injection H0 as <-.
        apply new_node_equation. exact V.
    + intros i0 e0 H0. destruct (edge_cases i0 e0 H0) as [(-> & ->)|[(-> & ->)|(Ne & L & O)]].
      * unfold edge_equation. cbn [e_type]. rewrite new_edge_block. cbn [fst]. destruct V as (V0 & V1 & V2 & V3). split; congruence.
      * apply (edge_same t0 t1 last x c i e (moved d k e) He (moved_type e) Gp). apply B. exact He.
      * apply (edge_same t0 t1 last x c i0 e0 e0 O eq_refl); [destruct (e_type e0); auto|]. apply B. exact O.
Qed.
End Insert.
