(** Index blocks and the rows of the network's equations. *)
From Coq Require Import Reals Lra Lia List Arith Permutation.
From Verif Require Import Base Interp_Model Calc Euler_Model Euler_Spec
  Box_Model Box_Spec Net_Model Net_Spec Net_Proofs Net_Proofs2 Net_Proofs3 Net_Proofs4.
Import ListNotations.

(** ** Lists *)
Lemma flat_map_map A B C (f : B -> list C) (g : A -> B) l :
  flat_map f (map g l) = flat_map (fun a => f (g a)) l.
Proof. rewrite !flat_map_concat_map, map_map. reflexivity. Qed.
Lemma flat_map_flat_map A B C (f : B -> list C) (g : A -> list B) l :
  flat_map f (flat_map g l) = flat_map (fun a => flat_map f (g a)) l.
Proof. induction l as [|a l IH]; cbn; [auto|]. rewrite flat_map_app, IH. auto. Qed.
Lemma flat_map_nil A B (l : list A) : flat_map (fun _ => @nil B) l = [].
Proof. induction l; cbn; auto. Qed.
Lemma flat_map_eq A B (f g : A -> list B) l :
  (forall a, In a l -> f a = g a) -> flat_map f l = flat_map g l.
Proof.
  induction l as [|a l IH]; intro H; cbn; [auto|]. rewrite H by (left; auto).
  rewrite IH; [auto|]. intros; apply H; right; auto.
Qed.
Lemma flat_map_perm A B (f g : A -> list B) l :
  (forall a, In a l -> Permutation (f a) (g a)) -> Permutation (flat_map f l) (flat_map g l).
Proof.
  induction l as [|a l IH]; intro H; cbn; [auto|]. apply Permutation_app; [apply H; left; auto|].
  apply IH. intros; apply H; right; auto.
Qed.
Lemma flat_map_split A B (f g : A -> list B) l :
  Permutation (flat_map (fun a => f a ++ g a) l) (flat_map f l ++ flat_map g l).
Proof.
  induction l as [|a l IH]; cbn; [auto|].
  rewrite <- !app_assoc. apply Permutation_app_head.
  etransitivity; [apply Permutation_app_head; exact IH|].
  rewrite !app_assoc. apply Permutation_app_tail. apply Permutation_app_comm.
Qed.
Lemma flat_map_single A (x : list A) k : forall m a, (a <= k < a + m)%nat ->
  flat_map (fun j => if Nat.eqb k j then x else []) (seq a m) = x.
Proof.
  induction m as [|m IH]; intros a H; [lia|]. cbn [seq flat_map].
  destruct (Nat.eqb_spec k a) as [->|Ne].
  - rewrite (flat_map_eq _ _ _ (fun _ => [])), flat_map_nil, app_nil_r; [auto|].
    intros j Hj. apply in_seq in Hj. destruct (Nat.eqb_spec a j); [lia|auto].
  - rewrite IH by lia. reflexivity.
Qed.
(** Grouping by a key. *)
Lemma group A B (key : A -> nat) (f : A -> list B) m L :
  (forall a, In a L -> (key a < m)%nat) ->
  Permutation (flat_map (fun j => flat_map f (filter (fun a => Nat.eqb (key a) j) L)) (seq 0 m)) (flat_map f L).
Proof.
  induction L as [|a L IH]; intro H; cbn [filter flat_map].
  - rewrite flat_map_nil. auto.
  - rewrite (flat_map_eq _ _ _ (fun j => (if Nat.eqb (key a) j then f a else []) ++
       flat_map f (filter (fun b => Nat.eqb (key b) j) L))).
    + rewrite flat_map_split, flat_map_single by (specialize (H a (or_introl eq_refl)); lia).
      apply Permutation_app_head. apply IH. intros; apply H; right; auto.
    + intros j _. destruct (Nat.eqb (key a) j); reflexivity.
Qed.
Lemma in_numbered_from {A} (l : list A) : forall a i x,
  In (i, x) (combine (seq a (length l)) l) <-> (a <= i)%nat /\ nth_error l (i - a) = Some x.
Proof.
  induction l as [|y l IH]; intros a i x; cbn [length seq combine].
  - split; [intros []|]. intros [_ H]. destruct (i - a)%nat; discriminate.
  - cbn [In]. rewrite IH. split.
    + intros [E|[H1 H2]].
      * injection E as -> ->. rewrite Nat.sub_diag. split; [lia|reflexivity].
      * split; [lia|]. replace (i - a)%nat with (S (i - S a)) by lia. exact H2.
    + intros [H1 H2]. destruct (Nat.eq_dec i a) as [->|Ne].
      * left. rewrite Nat.sub_diag in H2. cbn in H2. congruence.
      * right. split; [lia|]. replace (i - a)%nat with (S (i - S a)) in H2 by lia. exact H2.
Qed.
Lemma in_combine_seq {A} (l : list A) i x :
  In (i, x) (combine (seq 0 (length l)) l) <-> nth_error l i = Some x.
Proof. rewrite in_numbered_from, Nat.sub_0_r. split; [tauto|]. split; [lia|auto]. Qed.
Lemma in_numbered N i e : In (i, e) (numbered N) <-> nth_error (edges N) i = Some e.
Proof. apply in_combine_seq. Qed.
Lemma combine_fst {A} (l : list A) : forall a, map fst (combine (seq a (length l)) l) = seq a (length l).
Proof. induction l; intro b; cbn; [auto|]. rewrite IHl. auto. Qed.
Lemma map_nth_seq {A} (l : list A) d : map (fun i => nth i l d) (seq 0 (length l)) = l.
Proof.
  induction l as [|x l IH]; [reflexivity|]. cbn [length seq map nth]. f_equal.
  rewrite <- seq_shift, map_map. exact IH.
Qed.
Lemma seq_from a : forall b, seq a b = map (fun i => a + i)%nat (seq 0 b).
Proof.
  induction b as [|b IH]; [reflexivity|]. rewrite !seq_S, map_app, IH. reflexivity.
Qed.
Lemma split_nth {A} (l : list A) d a b : length l = (a + b)%nat ->
  l = map (fun i => nth i l d) (seq 0 a) ++ map (fun i => nth (a + i) l d) (seq 0 b).
Proof.
  intro H. rewrite <- (map_nth_seq l d) at 1. rewrite H, seq_app, map_app. f_equal.
  rewrite Nat.add_0_l, (seq_from a b), map_map. reflexivity.
Qed.

(** ** Blocks *)
Definition range (b : nat * nat) : list nat := seq (fst b) (snd b - fst b).
Lemma assign_tile sizes : forall next,
  flat_map range (fst (assign_indices next sizes)) = seq next (list_sum sizes) /\
  snd (assign_indices next sizes) = (next + list_sum sizes)%nat /\
  length (fst (assign_indices next sizes)) = length sizes.
Proof.
  induction sizes as [|s sizes IH]; intro next; [cbn; repeat split; lia|].
  cbn [assign_indices]. specialize (IH (next + s)%nat).
  destruct (assign_indices (next + s) sizes) as [blocks after]. cbn [fst snd] in *.
  destruct IH as [H1 [H2 H3]]. cbn [flat_map list_sum fold_right length]. fold (list_sum sizes).
  rewrite H1, H2, H3. split; [|split; [lia|auto]].
  unfold range at 1. cbn [fst snd]. replace (next + s - next)%nat with s by lia.
  rewrite <- seq_app. reflexivity.
Qed.
Lemma assign_nth sizes : forall next i s, nth_error sizes i = Some s ->
  exists a, nth_error (fst (assign_indices next sizes)) i = Some (a, (a + s)%nat) /\
    (next <= a)%nat /\ (a + s <= snd (assign_indices next sizes))%nat.
Proof.
  induction sizes as [|s0 sizes IH]; intros next i s H; [destruct i; discriminate|].
  cbn [assign_indices]. pose proof (proj1 (proj2 (assign_tile sizes (next + s0)))) as T.
  specialize (IH (next + s0)%nat).
  destruct (assign_indices (next + s0) sizes) as [blocks after]. cbn [fst snd] in *.
  destruct i as [|i].
  - cbn in H. injection H as ->. exists next. cbn. repeat split; lia.
  - cbn in H. destruct (IH i s H) as [a [H1 [H2 H3]]]. exists a. cbn. repeat split; auto; lia.
Qed.

Lemma number_of_states_sum N : number_of_states N = list_sum (state_sizes N).
Proof. unfold number_of_states. rewrite (proj1 (proj2 (assign_tile (state_sizes N) 0))). reflexivity. Qed.
Lemma state_blocks_length N : length (state_blocks N) = (length (nodes N) + length (edges N))%nat.
Proof.
  unfold state_blocks. rewrite (proj2 (proj2 (assign_tile (state_sizes N) 0))).
  unfold state_sizes. rewrite app_length, !map_length. reflexivity.
Qed.

Lemma node_block_spec N j t : nth_error (nodes N) j = Some t ->
  exists s, node_block N j = (s, (s + node_states t)%nat) /\ (s + node_states t <= number_of_states N)%nat.
Proof.
  intro H. assert (Hl : (j < length (nodes N))%nat) by (apply nth_error_Some; congruence).
  assert (E : nth_error (state_sizes N) j = Some (node_states t)).
  { unfold state_sizes. rewrite nth_error_app1 by (rewrite map_length; auto).
    apply map_nth_error. auto. }
  destruct (assign_nth _ 0 _ _ E) as [a [H1 [_ H3]]]. exists a. split; [|exact H3].
  unfold node_block. apply nth_error_nth. exact H1.
Qed.
Lemma edge_block_spec N i e : nth_error (edges N) i = Some e ->
  exists s, edge_block N i = (s, (s + edge_states (e_type e))%nat) /\
    (s + edge_states (e_type e) <= number_of_states N)%nat.
Proof.
  intro H.
  assert (E : nth_error (state_sizes N) (length (nodes N) + i) = Some (edge_states (e_type e))).
  { unfold state_sizes. rewrite nth_error_app2 by (rewrite map_length; lia).
    rewrite map_length. replace (length (nodes N) + i - length (nodes N))%nat with i by lia.
    apply (map_nth_error (fun e => edge_states (e_type e))). auto. }
  destruct (assign_nth _ 0 _ _ E) as [a [H1 [_ H3]]]. exists a. split; [|exact H3].
  unfold edge_block. apply nth_error_nth. exact H1.
Qed.
Lemma control_block_spec N i e : nth_error (edges N) i = Some e ->
  exists s, control_block N i = (s, (s + edge_controls (e_type e))%nat) /\
    (s + edge_controls (e_type e) <= number_of_controls N)%nat.
Proof.
  intro H.
  assert (E : nth_error (control_sizes N) i = Some (edge_controls (e_type e))).
  { unfold control_sizes. apply (map_nth_error (fun e => edge_controls (e_type e))). auto. }
  destruct (assign_nth _ 0 _ _ E) as [a [H1 [_ H3]]]. exists a. split; [|exact H3].
  unfold control_block. apply nth_error_nth. exact H1.
Qed.

Lemma blocks_tile N :
  flat_map (fun jt => range (node_block N (fst jt))) (combine (seq 0 (length (nodes N))) (nodes N)) ++
  flat_map (fun ie => range (edge_block N (fst ie))) (numbered N) = seq 0 (number_of_states N).
Proof.
  rewrite <- (flat_map_map _ _ _ (fun j => range (node_block N j)) fst).
  rewrite <- (flat_map_map _ _ _ (fun j => range (edge_block N j)) fst).
  unfold numbered. rewrite !combine_fst.
  rewrite number_of_states_sum, <- (proj1 (assign_tile (state_sizes N) 0)).
  fold (state_blocks N).
  rewrite (split_nth (state_blocks N) (0, 0)%nat _ _ (state_blocks_length N)) at 1.
  rewrite flat_map_app, !flat_map_map. reflexivity.
Qed.

(** ** Rows of the components *)
Definition node_rows (N : network) (j : nat) (t : nodetype) : list nat :=
  match t with
  | Innode | Flownode _ _ => flow_rows (attached_gas N j)
  | Pressurenode _ => map end_row (attached_gas N j)
  | Powernode _ _ _ _ _ => [fst (node_block N j); (fst (node_block N j) + 1)%nat]
  end.
Definition gases (N : network) (select : edge -> bool) : list gasedge :=
  flat_map (fun ie => if select (snd ie)
    then match gas_of N (fst ie) (snd ie) with Some g => [g] | None => [] end else []) (numbered N).
Lemma on_edges_gases A N sel (f : gasedge -> outcome (list A)) : on_edges N sel f = map f (gases N sel).
Proof.
  unfold on_edges, gases. induction (numbered N) as [|[i e] l IH]; cbn [flat_map]; [reflexivity|].
  rewrite IH, map_app. cbn [fst snd]. destruct (sel e); [|reflexivity].
  destruct (gas_of N i e); reflexivity.
Qed.

Lemma last_default {A} (l : list A) : forall a d d', last (a :: l) d = last (a :: l) d'.
Proof.
  induction l as [|b l IH]; intros a d d'; [reflexivity|].
  change (last (b :: l) d = last (b :: l) d'). apply IH.
Qed.
Lemma last_map {A B} (f : A -> B) (l : list A) d : last (map f l) (f d) = f (last l d).
Proof.
  induction l as [|a l IH]; [reflexivity|]. destruct l as [|b l]; [reflexivity|].
  change (last (map f (b :: l)) (f d) = f (last (b :: l) d)). exact IH.
Qed.
Lemma flow_rows_perm att : Permutation (flow_rows att) (map end_row att).
Proof.
  destruct att as [|de0 rest]; [constructor|]. unfold flow_rows.
  assert (Hne : map end_row (de0 :: rest) <> []) by (cbn; discriminate).
  rewrite (app_removelast_last 0%nat Hne) at 2.
  etransitivity; [|apply Permutation_cons_append].
  assert (E : last (map end_row (de0 :: rest)) 0%nat = end_row (last (de0 :: rest) de0)).
  { cbn [map]. rewrite (last_default (map end_row rest) (end_row de0) 0%nat (end_row de0)).
    change (end_row de0 :: map end_row rest) with (map end_row (de0 :: rest)). apply last_map. }
  rewrite E. reflexivity.
Qed.

Definition srow (N : network) (ie : nat * edge) : list nat :=
  match gas_of N (fst ie) (snd ie) with Some g => [end_row (dstart, g)] | None => [] end.
Definition erow_all (N : network) (ie : nat * edge) : list nat :=
  match gas_of N (fst ie) (snd ie) with Some g => [end_row (dend, g)] | None => [] end.
Definition erow (N : network) (ie : nat * edge) : list nat :=
  if is_gaspower (snd ie) then [] else erow_all N ie.
Definition irow (N : network) (ie : nat * edge) : list nat :=
  match gas_of N (fst ie) (snd ie) with Some g => edge_rows g | None => [] end.
Definition from_is (j : nat) (ie : nat * edge) : bool := Nat.eqb (e_from (snd ie)) j.
Definition to_is (j : nat) (ie : nat * edge) : bool := Nat.eqb (e_to (snd ie)) j.

Lemma attached_rows N j :
  map end_row (attached_gas N j) =
  flat_map (srow N) (filter (from_is j) (numbered N)) ++ flat_map (erow_all N) (filter (to_is j) (numbered N)).
Proof.
  unfold attached_gas. rewrite map_app. f_equal.
  - unfold gas_list, from_is. induction (filter (fun ie => Nat.eqb (e_from (snd ie)) j) (numbered N)) as [|[i e] l IH]; [reflexivity|].
    cbn [flat_map]. rewrite map_app, IH. unfold srow at 2. cbn [fst snd]. destruct (gas_of N i e); reflexivity.
  - unfold gas_list, to_is. induction (filter (fun ie => Nat.eqb (e_to (snd ie)) j) (numbered N)) as [|[i e] l IH]; [reflexivity|].
    cbn [flat_map]. rewrite map_app, IH. unfold erow_all at 2. cbn [fst snd]. destruct (gas_of N i e); reflexivity.
Qed.

Lemma wf_edge N i e : well_formed N -> In (i, e) (numbered N) -> edge_ok N e.
Proof.
  intros W H. apply in_numbered in H. unfold well_formed in W. rewrite Forall_forall in W.
  apply W. eapply nth_error_In; eauto.
Qed.
Lemma gas_not_power N j : is_gas_node N j -> is_power_node N j -> False.
Proof. unfold is_gas_node, is_power_node. destruct (nth_error (nodes N) j) as [[]|]; auto. Qed.

Definition pblock (N : network) (jt : nat * nodetype) : list nat :=
  match snd jt with Powernode _ _ _ _ _ => [fst (node_block N (fst jt)); (fst (node_block N (fst jt)) + 1)%nat] | _ => [] end.
Lemma node_rows_split N j t : well_formed N -> nth_error (nodes N) j = Some t ->
  Permutation (node_rows N j t)
    (pblock N (j, t) ++ flat_map (srow N) (filter (from_is j) (numbered N))
                     ++ flat_map (erow N) (filter (to_is j) (numbered N))).
Proof.
  intros W H.
  assert (G : is_gas_node N j -> flat_map (erow N) (filter (to_is j) (numbered N))
              = flat_map (erow_all N) (filter (to_is j) (numbered N))).
  { intro Hg. apply flat_map_eq. intros [i e] Hin. apply filter_In in Hin. destruct Hin as [Hin Ht].
    unfold to_is in Ht. cbn in Ht. apply Nat.eqb_eq in Ht. unfold erow. cbn [snd].
    destruct (is_gaspower e) eqn:E; [|reflexivity]. exfalso.
    pose proof (wf_edge N i e W Hin) as [_ K]. unfold is_gaspower in E.
    destruct (e_type e); try discriminate. destruct K as [_ K]. rewrite Ht in K.
    eapply gas_not_power; eauto. }
  assert (GN : is_gas_node N j -> Permutation (map end_row (attached_gas N j))
     (flat_map (srow N) (filter (from_is j) (numbered N)) ++ flat_map (erow N) (filter (to_is j) (numbered N)))).
  { intro Hg. rewrite (G Hg), attached_rows. auto. }
  assert (IG : is_gas_node N j \/ is_power_node N j) by (unfold is_gas_node, is_power_node; rewrite H; destruct t; auto).
  destruct t as [|sink b|b|k ext gg bb b]; cbn [node_rows pblock snd app].
  1,2: etransitivity; [apply flow_rows_perm|]; apply GN; unfold is_gas_node; rewrite H; exact I.
  1: apply GN; unfold is_gas_node; rewrite H; exact I.
  assert (Hp : is_power_node N j) by (unfold is_power_node; rewrite H; exact I).
  rewrite (flat_map_eq _ _ (srow N) (fun _ => [])), (flat_map_eq _ _ (erow N) (fun _ => [])).
  - rewrite !flat_map_nil. reflexivity.
  - intros [i e] Hin. apply filter_In in Hin. destruct Hin as [Hin Ht].
    unfold to_is in Ht. cbn in Ht. apply Nat.eqb_eq in Ht.
    pose proof (wf_edge N i e W Hin) as [_ K]. unfold erow, erow_all, gas_of, is_gaspower. cbn [fst snd].
    destruct (edge_block N i). destruct (e_type e); try reflexivity; exfalso;
    apply (gas_not_power N j); auto; rewrite <- Ht; tauto.
  - intros [i e] Hin. apply filter_In in Hin. destruct Hin as [Hin Ht].
    unfold from_is in Ht. cbn in Ht. apply Nat.eqb_eq in Ht.
    pose proof (wf_edge N i e W Hin) as [_ K]. unfold srow, gas_of. cbn [fst snd].
    destruct (edge_block N i). destruct (e_type e); try reflexivity; exfalso;
    apply (gas_not_power N j); auto; rewrite <- Ht; tauto.
Qed.

Lemma edge_rows_split N i e : well_formed N -> In (i, e) (numbered N) ->
  Permutation (srow N (i, e) ++ erow N (i, e) ++ irow N (i, e)) (range (edge_block N i)).
Proof.
  intros W Hin. pose proof (wf_edge N i e W Hin) as [_ K]. apply in_numbered in Hin.
  destruct (edge_block_spec N i e Hin) as [s [E _]].
  assert (T : forall k, (2 <= k)%nat -> Permutation ([s] ++ [(s + k - 1)%nat] ++ seq (s + 1) (k - 2)) (seq s (s + k - s))).
  { intros k Hk. replace (s + k - s)%nat with (1 + ((k - 2) + 1))%nat by lia. rewrite !seq_app.
    cbn [seq app]. apply perm_skip. replace (s + 1 + (k - 2))%nat with (s + k - 1)%nat by lia.
    apply Permutation_cons_append. }
  unfold srow, erow, erow_all, irow, gas_of, range, is_gaspower. cbn [fst snd]. rewrite E. cbn [fst snd].
  destruct (e_type e) as [d k dx np| | | |g2p p2g|G B]; cbn [edge_states] in *;
    unfold edge_rows, end_row; cbn [ge_kind ge_start ge_after fst snd].
  - replace (s + 2 * np - s - 2)%nat with (2 * np - 2)%nat by lia. apply T. lia.
  - replace (s + 4 - s - 2)%nat with (4 - 2)%nat by lia. apply T. lia.
  - replace (s + 4 - s - 2)%nat with (4 - 2)%nat by lia. apply T. lia.
  - replace (s + 4 - s - 2)%nat with (4 - 2)%nat by lia. apply T. lia.
  - replace (s + 2 - s)%nat with 2%nat by lia. cbn [seq app]. replace (s + 1)%nat with (S s) by lia. auto.
  - rewrite Nat.add_0_r, Nat.sub_diag. constructor.
Qed.

Lemma edge_nodes_lt N e : edge_ok N e -> (e_from e < length (nodes N))%nat /\ (e_to e < length (nodes N))%nat.
Proof.
  assert (G : forall j, is_gas_node N j -> (j < length (nodes N))%nat).
  { intros j H. unfold is_gas_node in H. apply nth_error_Some. destruct (nth_error (nodes N) j); [discriminate|tauto]. }
  assert (P : forall j, is_power_node N j -> (j < length (nodes N))%nat).
  { intros j H. unfold is_power_node in H. apply nth_error_Some. destruct (nth_error (nodes N) j); [discriminate|tauto]. }
  intros [_ K]. destruct (e_type e); destruct K as [K1 K2]; try destruct K2; auto.
Qed.

Definition all_rows (N : network) : list nat :=
  flat_map (fun jt => node_rows N (fst jt) (snd jt)) (combine (seq 0 (length (nodes N))) (nodes N)) ++
  flat_map edge_rows (gases N (fun e => negb (is_control e))) ++ flat_map edge_rows (gases N is_control).

Lemma gases_rows N sel : flat_map edge_rows (gases N sel) =
  flat_map (fun ie => if sel (snd ie) then irow N ie else []) (numbered N).
Proof.
  unfold gases. rewrite flat_map_flat_map. apply flat_map_eq. intros [i e] _. cbn [fst snd].
  destruct (sel e); [|reflexivity]. unfold irow. cbn [fst snd].
  destruct (gas_of N i e); cbn [flat_map]; [apply app_nil_r|reflexivity].
Qed.

Theorem rows_perm N : well_formed N -> Permutation (all_rows N) (seq 0 (number_of_states N)).
Proof.
  intro W. unfold all_rows. rewrite !gases_rows. rewrite <- blocks_tile.
  etransitivity.
  { apply Permutation_app; [apply (flat_map_perm _ _ _ (fun jt => pblock N jt ++
        (flat_map (srow N) (filter (from_is (fst jt)) (numbered N))
         ++ flat_map (erow N) (filter (to_is (fst jt)) (numbered N))))); intros [j t] Hin; cbn [fst snd];
      apply node_rows_split; [exact W|apply in_combine_seq; exact Hin]|].
    apply Permutation_sym. apply flat_map_split. }
  rewrite flat_map_split. rewrite <- app_assoc. apply Permutation_app.
  { apply Permutation_refl'. apply flat_map_eq. intros [j t] Hin. apply in_combine_seq in Hin.
    destruct (node_block_spec N j t Hin) as [s [E _]]. unfold pblock, range. cbn [fst snd]. rewrite E. cbn [fst snd].
    destruct t; cbn [node_states]; try (rewrite Nat.add_0_r, Nat.sub_diag; reflexivity).
    replace (s + 2 - s)%nat with 2%nat by lia. cbn [seq]. replace (s + 1)%nat with (S s) by lia. reflexivity. }
  rewrite flat_map_split.
  rewrite <- (flat_map_map _ _ _ (fun j => flat_map (srow N) (filter (from_is j) (numbered N))) fst).
  rewrite <- (flat_map_map _ _ _ (fun j => flat_map (erow N) (filter (to_is j) (numbered N))) fst).
  rewrite combine_fst.
  assert (K1 : forall ie, In ie (numbered N) -> (e_from (snd ie) < length (nodes N))%nat).
  { intros [i e] Hin. apply edge_nodes_lt. eapply wf_edge; eauto. }
  assert (K2 : forall ie, In ie (numbered N) -> (e_to (snd ie) < length (nodes N))%nat).
  { intros [i e] Hin. apply edge_nodes_lt. eapply wf_edge; eauto. }
  pose proof (group _ _ (fun ie : nat * edge => e_from (snd ie)) (srow N) (length (nodes N)) (numbered N) K1) as G1.
  pose proof (group _ _ (fun ie : nat * edge => e_to (snd ie)) (erow N) (length (nodes N)) (numbered N) K2) as G2.
  etransitivity.
  { apply Permutation_app; [apply Permutation_app; [exact G1|exact G2]|apply Permutation_refl]. }
  etransitivity; [apply Permutation_app; [apply Permutation_sym, flat_map_split|apply Permutation_refl]|].
  etransitivity; [apply Permutation_sym, flat_map_split|].
  apply flat_map_perm. intros [i e] Hin.
  etransitivity; [|apply (edge_rows_split N i e W Hin)]. cbn [fst snd].
  rewrite <- app_assoc. apply Permutation_app_head, Permutation_app_head.
  destruct (is_control e); cbn [negb]; rewrite ?app_nil_r; auto.
Qed.
