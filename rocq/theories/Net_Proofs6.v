(** The Jacobians of the whole network. *)
From Coq Require Import Reals Lra Lia List Arith Permutation.
From Coquelicot Require Import Coquelicot.
From Verif Require Import Base Interp_Model Calc Euler_Model Euler_Spec Euler_Proofs Euler_Proofs2
  Box_Model Box_Spec Box_Proofs Net_Model Net_Spec Net_Proofs Net_Proofs2 Net_Proofs3 Net_Proofs4 Net_Proofs5.
Import ListNotations.
Local Open Scope R_scope.

Lemma gas_of_kind N i e g : gas_of N i e = Some g ->
  ge_addr g = i /\ (ge_start g, ge_after g) = edge_block N i /\
  ge_kind g = match e_type e with
              | EPipe d k dx _ => Pipe d k dx
              | EShortpipe => Shortpipe
              | ECompressor _ => Compressorstation (fst (control_block N i))
              | EControlvalve => Controlvalve (fst (control_block N i))
              | EGaspower g2p p2g => Gaspowerconnection g2p p2g (power_of N (e_to e))
              | ELine _ _ => ge_kind g
              end /\ (forall G B, e_type e <> ELine G B).
Proof.
  unfold gas_of. destruct (edge_block N i) as [s a]. destruct (e_type e); intro H;
    try discriminate; injection H as <-; cbn; repeat split; congruence.
Qed.
Lemma gas_of_size N i e g : well_formed N -> nth_error (edges N) i = Some e -> gas_of N i e = Some g ->
  gas_size g /\ (ge_after g <= number_of_states N)%nat /\
  ge_after g = (ge_start g + edge_states (e_type e))%nat.
Proof.
  intros W H E. destruct (gas_of_kind N i e g E) as [_ [E2 [E3 E4]]].
  destruct (edge_block_spec N i e H) as [s [E5 L]]. rewrite E5 in E2.
  assert (ge_start g = s /\ ge_after g = (s + edge_states (e_type e))%nat) as [S1 S2] by (split; congruence).
  split; [|split; [lia|lia]].
  assert (K : edge_ok N e) by (eapply wf_edge; [exact W|apply in_numbered; exact H]). destruct K as [_ K].
  unfold gas_size. rewrite E3. destruct (e_type e) as [d k dx np| | | |g2p p2g|G B]; cbn [edge_states] in *.
  - exists np. split; [tauto|lia].
  - unfold short_size. lia.
  - unfold short_size. lia.
  - unfold short_size. lia.
  - lia.
  - exfalso. eapply E4; eauto.
Qed.

Lemma attached_in N j d g : In (d, g) (attached_gas N j) ->
  exists i e, nth_error (edges N) i = Some e /\ gas_of N i e = Some g /\
    match d with dstart => e_from e = j | dend => e_to e = j end.
Proof.
  unfold attached_gas. intro H. apply in_app_iff in H.
  destruct H as [H|H]; unfold gas_list in H; apply in_flat_map in H; destruct H as [[i e] [H1 H2]];
    cbn [fst snd] in H2; apply filter_In in H1; destruct H1 as [H1 H3]; cbn [snd] in H3;
    apply Nat.eqb_eq in H3; destruct (gas_of N i e) as [g'|] eqn:E; try (destruct H2; fail);
    destruct H2 as [H2|[]]; assert (d = dstart /\ g' = g \/ d = dend /\ g' = g) as K
      by (destruct d; [left|right]; split; congruence);
    exists i, e; apply in_numbered in H1; split; auto; destruct K as [[-> ->]|[-> ->]]; auto; discriminate.
Qed.

Lemma attached_facts N j : well_formed N -> is_gas_node N j ->
  List.Forall has_end (attached_gas N j) /\
  List.Forall (fun de => (end_index (fst de) (snd de) + 2 <= number_of_states N)%nat) (attached_gas N j).
Proof.
  intros W Hg. split; apply List.Forall_forall; intros [d g] Hin; apply attached_in in Hin;
    destruct Hin as [i [e [H1 [H2 H3]]]]; destruct (gas_of_size N i e g W H1 H2) as [_ [L S]];
    destruct (gas_of_kind N i e g H2) as [_ [_ [_ NL]]];
    assert (K : edge_ok N e) by (eapply wf_edge; [exact W|apply in_numbered; exact H1]);
    destruct K as [_ K].
  - destruct d; cbn; [exact I|]. rewrite S.
    destruct (e_type e) as [dd k dx np| | | |g2p p2g|G B]; cbn [edge_states]; try lia.
    + exfalso. apply (gas_not_power N j); auto. rewrite <- H3. tauto.
    + exfalso. eapply NL; eauto.
  - cbn [fst snd]. destruct d; cbn [end_index]; rewrite S in *.
    + destruct (e_type e) as [dd k dx np| | | |g2p p2g|G B]; cbn [edge_states] in *; try lia.
      exfalso. eapply NL; eauto.
    + destruct (e_type e) as [dd k dx np| | | |g2p p2g|G B]; cbn [edge_states] in *; try lia.
      exfalso. eapply NL; eauto.
Qed.

Lemma attached_regular N j u : well_formed N -> is_gas_node N j -> regular_state N u ->
  List.Forall (fun de => end_regular de u) (attached_gas N j).
Proof.
  intros W Hg HR. apply List.Forall_forall. intros [d g] Hin. apply attached_in in Hin.
  destruct Hin as [i [e [H1 [H2 H3]]]]. destruct (gas_of_size N i e g W H1 H2) as [Z [_ S]].
  destruct (gas_of_kind N i e g H2) as [_ [E2 [E3 NL]]].
  assert (K : edge_ok N e) by (eapply wf_edge; [exact W|apply in_numbered; exact H1]).
  destruct K as [_ K]. pose proof (HR i e H1) as HP.
  unfold end_regular. cbn [fst snd]. rewrite E3. destruct (e_type e) as [dd k dx np| | | |g2p p2g|G B]; auto.
  2:{ exfalso. eapply NL; eauto. }
  cbn [edge_states] in S. rewrite <- E2 in HP. cbn [fst] in HP. destruct K as [K _].
  destruct d; cbn [end_index].
  - destruct (HP 0%nat ltac:(lia)) as [Q _]. unfold seg in Q.
    replace (ge_start g + 2 * 0 + 0)%nat with (ge_start g) in Q by lia. apply nonneg_density_ok. lra.
  - destruct (HP (np - 1)%nat ltac:(lia)) as [Q _]. unfold seg in Q.
    replace (ge_start g + 2 * (np - 1) + 0)%nat with (ge_after g - 2)%nat in Q by lia. apply nonneg_density_ok. lra.
Qed.

Lemma gas_list_addr N d l :
  forall a, In a (map (fun de => ge_addr (snd de)) (gas_list N l d)) -> In a (map fst l).
Proof.
  intros a H. apply in_map_iff in H. destruct H as [[d' g] [H1 H2]]. cbn in H1.
  unfold gas_list in H2. apply in_flat_map in H2. destruct H2 as [[i e] [H2 H3]]. cbn [fst snd] in H3.
  destruct (gas_of N i e) as [g'|] eqn:E; [|destruct H3]. destruct H3 as [H3|[]].
  destruct (gas_of_kind N i e g' E) as [E1 _]. apply in_map_iff. exists (i, e). split; [|auto].
  cbn. congruence.
Qed.
Lemma gas_list_nodup N d l : NoDup (map fst l) -> NoDup (map (fun de => ge_addr (snd de)) (gas_list N l d)).
Proof.
  induction l as [|[i e] l IH]; intro H; [constructor|]. cbn [map fst] in H. inversion H as [|? ? H1 H2]; subst.
  unfold gas_list. cbn [flat_map fst snd]. destruct (gas_of N i e) as [g|] eqn:E; [|apply IH; auto].
  cbn [app map snd]. constructor; [|apply IH; auto].
  destruct (gas_of_kind N i e g E) as [E1 _]. rewrite E1. intro K. apply H1.
  apply (gas_list_addr N d l). exact K.
Qed.
Lemma filter_fst_nodup {A} (l : list (nat * A)) f : NoDup (map fst l) -> NoDup (map fst (filter f l)).
Proof.
  induction l as [|a l IH]; intro H; [constructor|]. cbn [map] in H. inversion H as [|? ? H1 H2]; subst.
  cbn [filter]. destruct (f a); [|apply IH; auto]. cbn [map]. constructor; [|apply IH; auto].
  intro K. apply H1. apply in_map_iff in K. destruct K as [b [K1 K2]]. apply filter_In in K2.
  apply in_map_iff. exists b. tauto.
Qed.
Lemma numbered_nodup N : NoDup (map fst (numbered N)).
Proof. unfold numbered. rewrite combine_fst. apply seq_NoDup. Qed.
Lemma attached_nodup N j : well_formed N -> NoDup (map (fun de => ge_addr (snd de)) (attached_gas N j)).
Proof.
  intro W. unfold attached_gas. rewrite map_app.
  assert (App : forall (a b : list nat), NoDup a -> NoDup b -> (forall x, In x a -> ~ In x b) -> NoDup (a ++ b)).
  { intro a. induction a as [|x a IH]; intros b Ha Hb D; [exact Hb|]. inversion Ha as [|? ? A1 A2]; subst.
    cbn. constructor.
    - intro K. apply in_app_iff in K. destruct K; [auto|]. apply (D x); [left; auto|auto].
    - apply IH; auto. intros y Hy. apply D. right. auto. }
  apply App.
  - apply gas_list_nodup, filter_fst_nodup, numbered_nodup.
  - apply gas_list_nodup, filter_fst_nodup, numbered_nodup.
  - intros i H1 H2. apply gas_list_addr in H1. apply gas_list_addr in H2.
    apply in_map_iff in H1. apply in_map_iff in H2. destruct H1 as [[i1 e1] [E1 H1]]. destruct H2 as [[i2 e2] [E2 H2]].
    cbn in E1, E2. subst i1 i2. apply filter_In in H1. apply filter_In in H2. cbn [snd] in H1, H2.
    destruct H1 as [H1 F1]. destruct H2 as [H2 F2]. apply Nat.eqb_eq in F1, F2.
    pose proof (wf_edge N i e1 W H1) as [K _]. apply in_numbered in H1, H2.
    assert (e1 = e2) by congruence. subst. congruence.
Qed.
Lemma nodup_ends att : NoDup (map (fun de => ge_addr (snd de)) att) -> ends_distinct att.
Proof.
  destruct att as [|de0 [|de1 rest]]; intro H; cbn [ends_distinct]; auto.
  cbn [map] in H. inversion H as [|? ? H1 _]; subst. intro K. apply H1. rewrite K.
  change (ge_addr (snd de1) :: map (fun de => ge_addr (snd de)) rest)
    with (map (fun de => ge_addr (snd de)) (de1 :: rest)).
  apply (in_map (fun de => ge_addr (snd de))).
  change (last (de0 :: de1 :: rest) de0) with (last (de1 :: rest) de0).
  rewrite (last_default rest de1 de0 de1). clear. revert de1.
  induction rest as [|a rest IH]; intro de1; [left; reflexivity|].
  change (last (de1 :: a :: rest) de1) with (last (a :: rest) de1).
  rewrite (last_default rest a de1 a). right. apply IH.
Qed.

(** ** Power nodes of the network *)
Lemma power_start_ok N j : is_power_node N j ->
  power_start N j = Some (fst (node_block N j)) /\ (fst (node_block N j) + 2 <= number_of_states N)%nat.
Proof.
  unfold is_power_node, power_start. destruct (nth_error (nodes N) j) as [t|] eqn:E; [|intros []].
  destruct (node_block_spec N j t E) as [s [E1 L]]. rewrite E1. cbn [fst].
  destruct t; try (intros []; fail). intros _. cbn [node_states] in L. auto.
Qed.
Lemma lines_ok N j : well_formed N ->
  exists l, lines_known (power_lines N j) l /\ known_in (number_of_states N) l.
Proof.
  intro W.
  assert (K : forall other, (other = e_to \/ other = e_from) -> forall es, (forall e, In e es -> edge_ok N e) ->
    exists l, lines_known (flat_map (line_of other N) es) l /\ known_in (number_of_states N) l).
  { intros other Ho es. induction es as [|e es IH]; intro H.
    - exists []. split; [reflexivity|intros t []].
    - destruct IH as [l [L1 L2]]; [intros; apply H; right; auto|].
      pose proof (H e (or_introl eq_refl)) as [_ Ke]. cbn [flat_map]. unfold line_of at 1.
      destruct (e_type e) as [d k dx np| | | |g2p p2g|G B]; try (exists l; cbn; auto; fail).
      assert (Hp : is_power_node N (other e)) by (destruct Ho as [->| ->]; tauto).
      destruct (power_start_ok N _ Hp) as [P1 P2].
      exists ((G, B, fst (node_block N (other e))) :: l). split.
      + unfold lines_known in *. cbn [map fst snd app]. rewrite P1, L1. reflexivity.
      + intros t [<-|Ht]; [exact P2|apply L2; auto]. }
  unfold well_formed in W. rewrite List.Forall_forall in W.
  destruct (K e_to (or_introl eq_refl) (filter (fun e => Nat.eqb (e_from e) j) (edges N))) as [l1 [A1 A2]].
  { intros e He. apply filter_In in He. apply W. tauto. }
  destruct (K e_from (or_intror eq_refl) (filter (fun e => Nat.eqb (e_to e) j) (edges N))) as [l2 [B1 B2]].
  { intros e He. apply filter_In in He. apply W. tauto. }
  exists (l1 ++ l2). split.
  - unfold lines_known, power_lines in *. rewrite A1, B1, map_app. reflexivity.
  - intros t Ht. apply in_app_iff in Ht. destruct Ht; auto.
Qed.
Lemma power_known N j : well_formed N -> is_power_node N j -> plant_known (number_of_states N) (power_of N j).
Proof.
  intros W H. destruct (power_start_ok N j H) as [_ L]. destruct (lines_ok N j W) as [l [L1 L2]].
  unfold plant_known, power_of. unfold is_power_node in H.
  destruct (nth_error (nodes N) j) as [t|]; [|destruct H]. destruct t; try (destruct H; fail).
  cbn [pn_start pn_lines]. split; [exact L|]. exists l. auto.
Qed.

(** ** Nodes *)
Definition has_boundary (t : nodetype) (time : R) : Prop :=
  match t with
  | Innode => True
  | Flownode _ b | Pressurenode b | Powernode _ _ _ _ b => exists v, b time = Ok v
  end.
Lemma node_new_jac N j t t1 u :
  well_formed N -> nth_error (nodes N) j = Some t -> has_boundary t t1 -> regular_state N u ->
  jac_ok (number_of_states N) (node_rows N j t) (fun x => node_evaluate N j t t1 x) u (node_d_new_state N j t u).
Proof.
  intros W H HB HR.
  assert (G : is_gas_node N j -> forall q,
    jac_ok (number_of_states N) (flow_rows (attached_gas N j)) (fun x => flow_balance (attached_gas N j) x q) u
      (flow_derivative (attached_gas N j) u)).
  { intros Hg q. destruct (attached_facts N j W Hg) as [F1 F2]. apply flow_jac; auto.
    - apply nodup_ends, attached_nodup, W.
    - apply attached_regular; auto. }
  destruct t as [|sink b|b|k ext gg bb b]; cbn [node_rows node_evaluate node_d_new_state has_boundary] in *.
  - apply G. unfold is_gas_node. rewrite H. exact I.
  - destruct HB as [v E]. rewrite E. cbn [obind].
    assert (Hg : is_gas_node N j) by (unfold is_gas_node; rewrite H; exact I).
    specialize (G Hg (if sink then - v 0%nat else v 0%nat)).
    destruct (attached_gas N j) as [|de rest]; [apply jac_ok_nil|exact G].
  - destruct HB as [v E]. rewrite E. cbn [obind].
    assert (Hg : is_gas_node N j) by (unfold is_gas_node; rewrite H; exact I).
    destruct (attached_facts N j W Hg) as [F1 F2]. pose proof (attached_regular N j u W Hg HR) as F3.
    pose proof (pressure_jac (number_of_states N) (attached_gas N j) (v 0%nat) u F1 F2 F3) as Q.
    destruct (attached_gas N j) as [|de rest]; [apply jac_ok_nil|exact Q].
  - destruct HB as [v E]. rewrite E. cbn [obind].
    assert (Hp : is_power_node N j) by (unfold is_power_node; rewrite H; exact I).
    destruct (power_known N j W Hp) as [K1 [l [K2 K3]]].
    eapply jac_ok_rows; [|apply (power_jac (number_of_states N) k (power_of N j) l (v 0%nat) (v 1%nat) u); auto].
    unfold power_of. rewrite H. reflexivity.
Qed.
(** Nodes do not depend on the last state nor on the control. *)
Lemma node_const N j t t1 new m u :
  well_formed N -> nth_error (nodes N) j = Some t -> has_boundary t t1 ->
  jac_ok m (node_rows N j t) (fun _ => node_evaluate N j t t1 new) u (Ok []).
Proof.
  intros W H HB.
  assert (G : is_gas_node N j -> forall q,
    jac_ok m (flow_rows (attached_gas N j)) (fun _ => flow_balance (attached_gas N j) new q) u (Ok [])).
  { intros Hg q. destruct (attached_facts N j W Hg) as [F1 F2].
    rewrite (flow_ok _ new q F1). apply jac_ok_const; apply pflow_rows. }
  destruct t as [|sink b|b|k ext gg bb b]; cbn [node_rows node_evaluate has_boundary] in *.
  - apply G. unfold is_gas_node. rewrite H. exact I.
  - destruct HB as [v E]. rewrite E. cbn [obind].
    assert (Hg : is_gas_node N j) by (unfold is_gas_node; rewrite H; exact I).
    specialize (G Hg (if sink then - v 0%nat else v 0%nat)).
    destruct (attached_gas N j) as [|de rest]; [apply jac_ok_nil|exact G].
  - destruct HB as [v E]. rewrite E. cbn [obind].
    assert (Hg : is_gas_node N j) by (unfold is_gas_node; rewrite H; exact I).
    destruct (attached_facts N j W Hg) as [F1 _].
    assert (Q : jac_ok m (map end_row (attached_gas N j)) (fun _ => pressure_evaluate (attached_gas N j) new (v 0%nat)) u (Ok [])).
    { clear -F1. induction (attached_gas N j) as [|[d e] l IH]; [apply jac_ok_nil|].
      inversion F1 as [|? ? A1 A2]; subst.
      pose proof (end_vec_ok (d, e) new A1) as Ev. cbn [fst snd] in Ev.
      unfold pressure_evaluate. cbn [map oconcat fold_right]. rewrite Ev. cbn [obind].
      apply (jac_ok_app m [end_row (d, e)] (map end_row l) _ _ u (Ok []) (Ok [])).
      - apply jac_ok_const; cbn; auto.
      - apply IH. exact A2. }
    destruct (attached_gas N j) as [|de rest]; [apply jac_ok_nil|exact Q].
  - destruct HB as [v E]. rewrite E. cbn [obind].
    assert (Hp : is_power_node N j) by (unfold is_power_node; rewrite H; exact I).
    destruct (power_known N j W Hp) as [K1 [l [K2 K3]]].
    assert (S : pn_start (power_of N j) = fst (node_block N j)) by (unfold power_of; rewrite H; reflexivity).
    rewrite <- S. destruct k; cbn [power_evaluate]; rewrite ?(P_ok _ l), ?(Q_ok _ l) by auto; cbn [obind];
      apply jac_ok_const; cbn; auto.
Qed.

(** ** Assembly *)
Lemma gases_in N sel g : In g (gases N sel) ->
  exists i e, nth_error (edges N) i = Some e /\ gas_of N i e = Some g /\ sel e = true.
Proof.
  unfold gases. intro H. apply in_flat_map in H. destruct H as [[i e] [H1 H2]]. cbn [fst snd] in H2.
  apply in_numbered in H1. exists i, e. destruct (sel e); [|destruct H2].
  destruct (gas_of N i e) as [g'|]; [|destruct H2]. destruct H2 as [->|[]]. auto.
Qed.
Lemma gas_data N i e g : well_formed N -> pipes_ok N ->
  nth_error (edges N) i = Some e -> gas_of N i e = Some g -> edge_data_ok (number_of_states N) g.
Proof.
  intros W HP H E. destruct (gas_of_kind N i e g E) as [_ [_ [E3 NL]]].
  unfold edge_data_ok. rewrite E3. unfold pipes_ok in HP. rewrite List.Forall_forall in HP.
  pose proof (HP e (nth_error_In _ _ H)) as Hp.
  assert (K : edge_ok N e) by (eapply wf_edge; [exact W|apply in_numbered; exact H]). destruct K as [_ K].
  destruct (e_type e) as [d k dx np| | | |g2p p2g|G B]; auto.
  - tauto.
  - apply power_known; tauto.
  - exfalso. eapply NL; eauto.
Qed.

Lemma oapp_nil_l {A} (b : outcome (list A)) : oapp (Ok []) b = b.
Proof. destruct b; reflexivity. Qed.
Lemma oapp_assoc {A} (a b c : outcome (list A)) : oapp (oapp a b) c = oapp a (oapp b c).
Proof. destruct a, b, c; cbn; try reflexivity. rewrite app_assoc. reflexivity. Qed.
Lemma oconcat_app {A} (a b : list (outcome (list A))) : oconcat (a ++ b) = oapp (oconcat a) (oconcat b).
Proof.
  induction a as [|x a IH].
  - symmetry. apply oapp_nil_l.
  - change (oconcat ((x :: a) ++ b)) with (oapp x (oconcat (a ++ b))).
    change (oconcat (x :: a)) with (oapp x (oconcat a)). rewrite IH, oapp_assoc. reflexivity.
Qed.
Lemma assemble N m (evn : nat -> nodetype -> vec -> outcome (list write))
    (eve : gasedge -> vec -> outcome (list write)) djn dje u :
  (forall j t, nth_error (nodes N) j = Some t -> jac_ok m (node_rows N j t) (evn j t) u (djn j t)) ->
  (forall i e g, nth_error (edges N) i = Some e -> gas_of N i e = Some g ->
     jac_ok m (edge_rows g) (eve g) u (dje g)) ->
  jac_ok m (all_rows N)
    (fun x => oconcat (on_nodes N (fun j t => evn j t x) ++ on_edges N (fun e => negb (is_control e)) (fun g => eve g x)
                       ++ on_edges N is_control (fun g => eve g x))) u
    (oconcat (on_nodes N djn ++ on_edges N (fun e => negb (is_control e)) dje ++ on_edges N is_control dje)).
Proof.
  intros Hn He.
  rewrite !oconcat_app.
  apply (jac_ok_ext m (all_rows N) (fun x => oapp (oconcat (on_nodes N (fun j t => evn j t x)))
     (oapp (oconcat (on_edges N (fun e => negb (is_control e)) (fun g => eve g x)))
           (oconcat (on_edges N is_control (fun g => eve g x)))))).
  { intro x. rewrite !oconcat_app. reflexivity. }
  unfold all_rows.
  assert (E : forall sel, jac_ok m (flat_map edge_rows (gases N sel)) (fun x => oconcat (on_edges N sel (fun g => eve g x))) u
     (oconcat (on_edges N sel dje))).
  { intro sel. rewrite on_edges_gases. 
    apply (jac_ok_ext m _ (fun x => oconcat (map (fun g => eve g x) (gases N sel)))).
    { intro x. rewrite on_edges_gases. reflexivity. }
    apply (jac_ok_concat m _ edge_rows eve dje).
    intros g Hg. apply gases_in in Hg. destruct Hg as [i [e [H1 [H2 _]]]]. eapply He; eauto. }
  apply jac_ok_app; [|apply jac_ok_app; apply E].
  unfold on_nodes.
  apply (jac_ok_concat m _ (fun jt => node_rows N (fst jt) (snd jt)) (fun jt x => evn (fst jt) (snd jt) x)
           (fun jt => djn (fst jt) (snd jt))).
  intros [j t] Hin. apply in_combine_seq in Hin. apply Hn. exact Hin.
Qed.

(** From contributions to the Jacobian matrix. *)
Definition finish (n : nat) (v : vec) (o : outcome (list write)) : outcome vec :=
  obind o (fun ws => if forallb (fun w => Nat.ltb (write_index w) n) ws then Ok (run_writes ws v) else UB).
Lemma finish_ok n v ws : adds_ok [] ws -> Permutation (assigned ws) (seq 0 n) ->
  finish n v (Ok ws) = Ok (run_writes ws v).
Proof.
  intros A HP. unfold finish. cbn [obind].
  replace (forallb (fun w => Nat.ltb (write_index w) n) ws) with true; [reflexivity|].
  symmetry. apply forallb_forall. intros w Hw. apply Nat.ltb_lt.
  destruct (adds_ok_index ws [] w A Hw) as [K|[]].
  apply (Permutation_in _ HP) in K. apply in_seq in K. lia.
Qed.
Lemma jac_finish n m rows ev u dj v :
  jac_ok m rows ev u dj -> Permutation rows (seq 0 n) ->
  exists ts, dj = Ok ts /\ is_jacobian n m (fun x => finish n v (ev x)) u (matrix_of ts).
Proof.
  intros [W [ts [d [Hd [E [Ed [C [A G]]]]]]]] HP. exists ts. split; [exact Ed|].
  exists (fun x => run_writes (W x) v). split.
  - intros i Hi.
    assert (ND : forall x, NoDup (assigned (W x))).
    { intro x. rewrite (proj1 (A x)). eapply Permutation_NoDup; [apply Permutation_sym; exact HP|apply seq_NoDup]. }
    assert (IN : forall x, In i (assigned (W x))).
    { intro x. rewrite (proj1 (A x)). eapply Permutation_in; [apply Permutation_sym; exact HP|]. apply in_seq. lia. }
    apply (gradient_ext m (fun x => wsum (W x) i)).
    { intro x. apply run_assigned; auto. apply A. }
    apply gradient_entries; [exact C|]. intros x s dx Hx. apply G. exact Hx.
  - exists d. split; [exact Hd|]. intros x Hx. rewrite E by exact Hx.
    apply finish_ok; [apply A|]. rewrite (proj1 (A x)). exact HP.
Qed.

Lemma boundary_has N j t time : boundary_defined N time -> nth_error (nodes N) j = Some t -> has_boundary t time.
Proof. intros B H. specialize (B j). rewrite H in B. destruct t; auto. Qed.

Lemma edge_regular_of N i e g u : well_formed N -> pipes_ok N -> regular_state N u ->
  nth_error (edges N) i = Some e -> gas_of N i e = Some g -> edge_regular (number_of_states N) g u.
Proof.
  intros W HP HR H E. pose proof (gas_data N i e g W HP H E) as D.
  destruct (gas_of_size N i e g W H E) as [_ [_ S]].
  destruct (gas_of_kind N i e g E) as [_ [E2 [E3 NL]]]. pose proof (HR i e H) as Q.
  unfold edge_regular, edge_data_ok in *. rewrite E3 in D |- *.
  destruct (e_type e) as [d k dx np| | | |g2p p2g|G B]; auto.
  - split; [exact D|]. intros j Hj. rewrite <- E2 in Q. cbn [fst] in Q. apply Q.
    cbn [edge_states] in S. lia.
  - exfalso. eapply NL; eauto.
Qed.

Theorem network_new_jac N t0 t1 last u c :
  well_formed N -> pipes_ok N -> boundary_defined N t1 -> regular_state N u ->
  jac_ok (number_of_states N) (all_rows N) (fun x => evaluate_writes N t0 t1 last x c) u
    (d_evaluate_d_new_state N t0 t1 last u c).
Proof.
  intros W HP HB HR. unfold evaluate_writes, d_evaluate_d_new_state. cbv zeta.
  apply (assemble N (number_of_states N) (fun j t x => node_evaluate N j t t1 x)
    (fun g x => edge_evaluate g t0 t1 last x c) (fun j t => node_d_new_state N j t u)
    (fun g => edge_d_new_state g t0 t1 last u c)).
  - intros j t H. apply node_new_jac; auto. eapply boundary_has; eauto.
  - intros i e g H E. destruct (gas_of_size N i e g W H E) as [S [L _]].
    apply edge_new_jac; auto. eapply edge_regular_of; eauto.
Qed.
Theorem network_last_jac N t0 t1 u new c :
  well_formed N -> pipes_ok N -> boundary_defined N t1 ->
  jac_ok (number_of_states N) (all_rows N) (fun x => evaluate_writes N t0 t1 x new c) u
    (d_evaluate_d_last_state N t0 t1 u new c).
Proof.
  intros W HP HB. unfold evaluate_writes, d_evaluate_d_last_state. cbv zeta.
  apply (assemble N (number_of_states N) (fun j t x => node_evaluate N j t t1 new)
    (fun g x => edge_evaluate g t0 t1 x new c) (fun j t => Ok [])
    (fun g => edge_d_last_state g t0 t1 u new c)).
  - intros j t H. apply node_const; auto. eapply boundary_has; eauto.
  - intros i e g H E. destruct (gas_of_size N i e g W H E) as [S [L _]].
    apply edge_last_jac; auto. eapply gas_data; eauto.
Qed.

Theorem network_control_jac N t0 t1 last new u :
  well_formed N -> pipes_ok N -> boundary_defined N t1 ->
  jac_ok (number_of_controls N) (all_rows N) (fun x => evaluate_writes N t0 t1 last new x) u
    (d_evaluate_d_control N t0 t1 last new u).
Proof.
  intros W HP HB.
  assert (J : jac_ok (number_of_controls N) (all_rows N) (fun x => evaluate_writes N t0 t1 last new x) u
    (oconcat (on_nodes N (fun _ _ => Ok []) ++ on_edges N (fun e => negb (is_control e)) edge_d_control
              ++ on_edges N is_control edge_d_control))).
  { unfold evaluate_writes. cbv zeta.
    apply (assemble N (number_of_controls N) (fun j t x => node_evaluate N j t t1 new)
      (fun g x => edge_evaluate g t0 t1 last new x) (fun j t => Ok []) edge_d_control).
    - intros j t H. apply node_const; auto. eapply boundary_has; eauto.
    - intros i e g H E. destruct (gas_of_size N i e g W H E) as [S [L _]].
      apply (edge_control_jac (number_of_controls N) (number_of_states N)); auto.
      + eapply gas_data; eauto.
      + destruct (gas_of_kind N i e g E) as [_ [_ [E3 NL]]].
        destruct (control_block_spec N i e H) as [s [E4 L4]]. rewrite E4 in E3. cbn [fst] in E3. rewrite E3.
        destruct (e_type e); auto; cbn [edge_controls] in L4; try lia.
        exfalso. eapply NL; eauto. }
  assert (Z : forall A (f : A -> outcome (list entry)) l, (forall a, In a l -> f a = Ok []) -> oconcat (map f l) = Ok []).
  { intros A f l. induction l as [|a l IH]; intro H; [reflexivity|].
    change (oconcat (map f (a :: l))) with (oapp (f a) (oconcat (map f l))).
    rewrite H by (left; auto). rewrite IH by (intros; apply H; right; auto). reflexivity. }
  rewrite !oconcat_app in J. unfold on_nodes in J. rewrite Z in J by auto. rewrite oapp_nil_l in J.
  rewrite (on_edges_gases _ N (fun e => negb (is_control e))) in J. rewrite Z in J.
  - rewrite oapp_nil_l in J. exact J.
  - intros g Hg. apply gases_in in Hg. destruct Hg as [i [e [H1 [H2 H3]]]].
    destruct (gas_of_kind N i e g H2) as [_ [_ [E3 NL]]]. unfold edge_d_control. rewrite E3.
    unfold is_control in H3. destruct (e_type e); auto; try discriminate. exfalso. eapply NL; eauto.
Qed.
