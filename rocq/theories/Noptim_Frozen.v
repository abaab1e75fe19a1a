(** * Networks that differ in the boundary values only; fixed drawn powers *)
From Coq Require Import Reals Lra Lia List Arith Bool String FunctionalExtensionality.
From Coquelicot Require Import Coquelicot.
From Verif Require Import Base Interp_Model Json_Model Calc Euler_Model Net_Model Net_Spec Cost_Model Cost_Spec Adjoint_Model Adjoint_Spec Interp_Spec Whole_Spec Sim_Spec
  Answer_Spec Input_Proofs3 Noise_Spec Noise_Proofs2 Noise_Proofs3 Noptim_Spec.
From Verif Require Whole_Model.
Import ListNotations.
Local Open Scope R_scope.

Section Shape.
Variables N N' : network.
Hypothesis Sh : same_shape N N'.
Lemma shape_count : List.length (Net_Model.nodes N) = List.length (Net_Model.nodes N').
Proof. destruct Sh as [F _]. induction F; cbn; congruence. Qed.
Lemma shape_edges : Net_Model.edges N = Net_Model.edges N'. Proof. apply Sh. Qed.
Lemma shape_blocks : state_blocks N = state_blocks N'.
Proof. unfold state_blocks. rewrite (shape_sizes _ _ Sh). reflexivity. Qed.
Lemma shape_node_block j : node_block N j = node_block N' j.
Proof. unfold node_block. rewrite shape_blocks. reflexivity. Qed.
Lemma shape_edge_block i : edge_block N i = edge_block N' i.
Proof. unfold edge_block. rewrite shape_blocks, shape_count. reflexivity. Qed.
Lemma shape_control_block i : control_block N i = control_block N' i.
Proof. unfold control_block, control_blocks, control_sizes. rewrite shape_edges. reflexivity. Qed.
Lemma shape_controls : number_of_controls N = number_of_controls N'.
Proof. unfold number_of_controls, control_sizes. rewrite shape_edges. reflexivity. Qed.
Lemma shape_numbered : numbered N = numbered N'.
Proof. unfold numbered. rewrite shape_edges. reflexivity. Qed.
Lemma shape_power_start j : power_start N j = power_start N' j.
Proof.
  unfold power_start. rewrite shape_node_block. pose proof (shape_nodes _ _ Sh j) as H.
  destruct (nth_error (Net_Model.nodes N) j) as [t|], (nth_error (Net_Model.nodes N') j) as [t'|]; try contradiction; [|reflexivity].
  destruct t, t'; try contradiction; reflexivity.
Qed.
Lemma shape_line other e : line_of other N e = line_of other N' e.
Proof. unfold line_of. destruct (e_type e); try reflexivity. rewrite shape_power_start. reflexivity. Qed.
Lemma shape_lines j : power_lines N j = power_lines N' j.
Proof. unfold power_lines. rewrite shape_edges. f_equal; apply flat_map_ext; intro; apply shape_line. Qed.
Lemma shape_power_of j : power_of N j = power_of N' j.
Proof.
  unfold power_of. rewrite shape_node_block, shape_lines. pose proof (shape_nodes _ _ Sh j) as H.
  destruct (nth_error (Net_Model.nodes N) j) as [t|], (nth_error (Net_Model.nodes N') j) as [t'|]; try contradiction; [|reflexivity].
  destruct t, t'; try contradiction; try reflexivity. destruct H as (_ & _ & -> & ->). reflexivity.
Qed.
Lemma shape_gas i e : gas_of N i e = gas_of N' i e.
Proof. unfold gas_of. rewrite shape_edge_block, shape_control_block, shape_power_of. reflexivity. Qed.
Lemma shape_attached j : attached_gas N j = attached_gas N' j.
Proof.
  unfold attached_gas, gas_list. rewrite shape_numbered. f_equal; apply flat_map_ext; intro; rewrite shape_gas; reflexivity.
Qed.
Lemma shape_on_edges {A} select (f : gasedge -> outcome (list A)) : on_edges N select f = on_edges N' select f.
Proof. unfold on_edges. rewrite shape_numbered. apply flat_map_ext. intro ie. rewrite shape_gas. reflexivity. Qed.
Lemma shape_on_nodes {A} (f f' : nat -> nodetype -> outcome (list A)) : (forall j t t', same_node t t' -> f j t = f' j t') -> on_nodes N f = on_nodes N' f'.
Proof.
  intro H. unfold on_nodes. destruct Sh as [F _]. generalize 0%nat. induction F as [|t t' l l' Q F IH]; intro k; [reflexivity|].
  cbn [List.length seq combine map fst snd]. rewrite (H k t t' Q), IH. reflexivity.
Qed.
Lemma shape_d_new t0 t1 a b c : d_evaluate_d_new_state N t0 t1 a b c = d_evaluate_d_new_state N' t0 t1 a b c.
Proof.
  unfold d_evaluate_d_new_state. rewrite !shape_on_edges. f_equal. f_equal. apply shape_on_nodes. intros j t t' Q. unfold node_d_new_state. rewrite shape_attached, shape_power_of.
  destruct t, t'; try contradiction; try reflexivity. destruct Q as (-> & _). reflexivity.
Qed.
Lemma shape_d_last t0 t1 a b c : d_evaluate_d_last_state N t0 t1 a b c = d_evaluate_d_last_state N' t0 t1 a b c.
Proof. unfold d_evaluate_d_last_state. rewrite !shape_on_edges. f_equal. f_equal. apply shape_on_nodes. reflexivity. Qed.
Lemma shape_d_control t0 t1 a b c : d_evaluate_d_control N t0 t1 a b c = d_evaluate_d_control N' t0 t1 a b c.
Proof. unfold d_evaluate_d_control. rewrite !shape_on_edges. reflexivity. Qed.
Lemma shape_cost_components : cost_components N = cost_components N'.
Proof. unfold cost_components. rewrite shape_numbered. apply flat_map_ext. intro ie. rewrite shape_control_block. reflexivity. Qed.

(** The derivatives do not see the boundary values. *)
Definition with_residual (p : problem) f : problem :=
  mk_problem (nx p) (nu p) (ng p) f (d_new p) (d_last p) (d_control p) (cost p) (cost_dx p) (cost_du p) (penalty p) (penalty_dx p) (penalty_du p) (constr p) (constr_dx p) (constr_du p).
Lemma shape_problem sinks : Whole_Model.network_problem N sinks = with_residual (Whole_Model.network_problem N' sinks) (residual (Whole_Model.network_problem N sinks)).
Proof.
  unfold with_residual, Whole_Model.network_problem. cbv zeta. cbn [nx nu ng residual d_new d_last d_control cost cost_dx cost_du penalty penalty_dx penalty_du constr constr_dx constr_du].
  rewrite (shape_number _ _ Sh), shape_controls.
  unfold evaluate_cost, d_evaluate_cost_d_state, d_evaluate_cost_d_control, evaluate_penalty, d_evaluate_penalty. rewrite shape_cost_components.
  f_equal.
  - do 5 (apply functional_extensionality; intro). rewrite shape_d_new. reflexivity.
  - do 5 (apply functional_extensionality; intro). rewrite shape_d_last. reflexivity.
  - do 5 (apply functional_extensionality; intro). rewrite shape_d_control. reflexivity.
  - do 4 (apply functional_extensionality; intro). unfold Whole_Model.constraint_value. destruct (nth_error sinks _); [|reflexivity]. rewrite shape_attached. reflexivity.
  - do 3 (apply functional_extensionality; intro). unfold Whole_Model.constraint_d_state. f_equal. f_equal. apply map_ext. intro. rewrite shape_attached. reflexivity.
Qed.
Lemma residual_unused p f solve l st ct cons controls states :
  compute_derivatives (with_residual p f) solve l st ct cons controls states = compute_derivatives p solve l st ct cons controls states.
Proof.
  unfold compute_derivatives. destruct (compute_index_lambda_vector ct st) as [pairs| |]; try reflexivity. cbn [obind]. f_equal.
  generalize (mk_sweep (fun _ => 0) (fun _ _ => 0) (List.length cons) false (fun _ _ => 0) (fun _ => 0)). generalize (List.length st - 1)%nat.
  induction n as [|n IH]; intro s; [reflexivity|]. cbn [sweep_loop].
  change (sweep_step (with_residual p f) solve l st ct cons pairs controls states (S n) s) with (sweep_step p solve l st ct cons pairs controls states (S n) s).
  destruct (sweep_step p solve l st ct cons pairs controls states (S n) s) as [[s'|]| |]; cbn [obind]; try reflexivity. apply IH.
Qed.
Lemma shape_derivatives sinks solve l st ct cons controls states :
  compute_derivatives (Whole_Model.network_problem N sinks) solve l st ct cons controls states
  = compute_derivatives (Whole_Model.network_problem N' sinks) solve l st ct cons controls states.
Proof. rewrite shape_problem. apply residual_unused. Qed.

(** ** The equations *)
Lemma shape_voltage j x : voltage N j x = voltage N' j x.
Proof. unfold voltage. rewrite shape_node_block. reflexivity. Qed.
Lemma shape_power j G B x : power N j G B x = power N' j G B x.
Proof.
  unfold power, current. rewrite shape_edges, !shape_voltage. f_equal. f_equal. f_equal. unfold csum. f_equal. apply functional_extensionality. intro e. apply functional_extensionality. intro z.
  destruct (e_type e); try reflexivity. rewrite !shape_voltage. reflexivity.
Qed.
Lemma shape_end i d : end_position N i d = end_position N' i d.
Proof. unfold end_position. rewrite shape_edge_block. reflexivity. Qed.
Lemma shape_equal_pressures j x pr : equal_pressures N j x pr <-> equal_pressures N' j x pr.
Proof.
  unfold equal_pressures. rewrite shape_edges. split; intros H i e d A B C; specialize (H i e d A B C); unfold pressure_at in *; [rewrite <- shape_end|rewrite shape_end]; exact H.
Qed.
Lemma shape_outflow j x : net_outflow N j x = net_outflow N' j x.
Proof. unfold net_outflow, flow_at. rewrite shape_numbered. f_equal. apply functional_extensionality. intro ie. rewrite !shape_end. reflexivity. Qed.
Lemma shape_has_gas j : has_gas_edge N j <-> has_gas_edge N' j.
Proof. unfold has_gas_edge. rewrite shape_edges. reflexivity. Qed.

(** The boundary values agree at time [t]. *)
Definition agree (t : R) : Prop := forall j, match nth_error (Net_Model.nodes N) j, nth_error (Net_Model.nodes N') j with
  | Some (Flownode _ b), Some (Flownode _ b') | Some (Pressurenode b), Some (Pressurenode b') | Some (Powernode _ _ _ _ b), Some (Powernode _ _ _ _ b') => b t = b' t
  | _, _ => True end.
Lemma shape_equations t0 t1 last x control : agree t1 -> network_equations N t0 t1 last x control -> network_equations N' t0 t1 last x control.
Proof.
  intros Ag [H1 H2]. split.
  - intros j t' E'. pose proof (shape_nodes _ _ Sh j) as Q. specialize (Ag j). rewrite E' in Q, Ag.
    destruct (nth_error (Net_Model.nodes N) j) as [t|] eqn:E; [|contradiction]. specialize (H1 j t E).
    destruct t, t'; try contradiction; cbn [same_node node_equation] in *; rewrite <- ?shape_has_gas, <- ?shape_outflow, <- ?shape_node_block.
    + intro G. destruct (H1 G) as [[pr P] F]. split; [exists pr; apply shape_equal_pressures, P|exact F].
    + subst. intro G. destruct (H1 G) as (v & V & [pr P] & F). exists v. split; [congruence|]. split; [exists pr; apply shape_equal_pressures, P|exact F].
    + intro G. destruct (H1 G) as (v & V & P). exists v. split; [congruence|]. apply shape_equal_pressures, P.
    + destruct Q as (-> & _ & -> & ->). destruct H1 as (v & V & P). exists v. split; [congruence|]. rewrite <- !shape_power. exact P.
  - intros i e E. rewrite <- shape_edges in E. specialize (H2 i e E). unfold edge_equation in *. rewrite <- shape_edge_block, <- shape_control_block.
    destruct (e_type e) as [| | | | |]; try exact H2. destruct H2 as (w & G & P). exists w. split; [exact G|].
    pose proof (shape_nodes _ _ Sh (e_to e)) as Q.
    destruct (nth_error (Net_Model.nodes N) (e_to e)) as [t|], (nth_error (Net_Model.nodes N') (e_to e)) as [t'|]; try contradiction.
    destruct t, t'; try contradiction. destruct Q as (_ & _ & <- & <-). rewrite <- shape_power. exact P.
Qed.
Lemma shape_regular x : regular_state N x -> regular_state N' x.
Proof. unfold regular_state. rewrite <- shape_edges. intros H i e E. specialize (H i e E). rewrite <- shape_edge_block. exact H. Qed.
Lemma shape_total_cost st U : total_cost N st U = total_cost N' st U.
Proof. unfold total_cost, compression_cost, controls_before. rewrite shape_edges. reflexivity. Qed.
Lemma shape_constrained sinks : constrained_nodes N sinks -> constrained_nodes N' sinks.
Proof.
  intros H j I. destruct (H j I) as [A B]. split; [|apply shape_has_gas, B]. revert A. unfold is_gas_node. pose proof (shape_nodes _ _ Sh j) as Q.
  destruct (nth_error (Net_Model.nodes N) j) as [t|], (nth_error (Net_Model.nodes N') j) as [t'|]; try contradiction; try tauto. destruct t, t'; cbn in Q; tauto.
Qed.
End Shape.

(** ** The drawn powers as functions of time *)
Fixpoint place (t : R) (l : list R) : nat := match l with [] => 0%nat | a :: l => if Req_EM_T a t then 0%nat else S (place t l) end.
Lemma place_nth l : increasing l -> forall i t, nth_error l i = Some t -> place t l = i.
Proof.
  induction l as [|a l IH]; intros H i t E; [destruct i; discriminate|]. apply Sorted.StronglySorted_inv in H. destruct H as [H F]. cbn [place]. destruct i as [|i].
  - injection E as ->. destruct (Req_EM_T t t); congruence.
  - cbn in E. rewrite (IH H i t E). rewrite Forall_forall in F. pose proof (F t (nth_error_In _ _ E)). destruct (Req_EM_T a t); [lra|reflexivity].
Qed.

Section Frozen.
Variables (ns : list (string * json)) (N : network) (st : list R).
Hypothesis Hst : increasing st.
Hypothesis Hns : List.length ns = List.length (Net_Model.nodes N).
Hypothesis Hpq : forall j entry k x G B b, nth_error ns j = Some entry -> fst entry = stochastic_type -> nth_error (Net_Model.nodes N) j = Some (Powernode k x G B b) -> k = PQ.

(** Other boundary values at the stochastic nodes. *)
Definition replaced (bd : nat -> boundary) : network :=
  mkNet (map (fun jet => match jet with
                         | (j, (entry, Powernode k external G B b)) =>
                             if String.eqb (fst entry) stochastic_type then Powernode k external G B (bd j) else Powernode k external G B b
                         | (_, (_, t)) => t
                         end) (combine (seq 0 (List.length ns)) (combine ns (Net_Model.nodes N))))
        (Net_Model.edges N).
Lemma powers_replaced powers : with_powers ns powers N = replaced (fun j _ => Ok (v2 (fst (powers j)) (snd (powers j)))).
Proof. reflexivity. Qed.
Lemma replaced_node bd j entry t : nth_error ns j = Some entry -> nth_error (Net_Model.nodes N) j = Some t ->
  nth_error (Net_Model.nodes (replaced bd)) j = Some (match t with
    | Powernode k external G B b => if String.eqb (fst entry) stochastic_type then Powernode k external G B (bd j) else Powernode k external G B b
    | t => t end).
Proof.
  intros A B. cbn [replaced Net_Model.nodes]. rewrite nth_error_map, (nth_combine _ _ j j (entry, t)); [destruct t; reflexivity| |apply nth_combine; assumption].
  assert (L : (j < List.length ns)%nat) by (apply nth_error_Some; congruence).
  rewrite nth_error_nth' with (d := 0%nat); [rewrite seq_nth; [reflexivity|exact L]|rewrite seq_length; exact L].
Qed.
Lemma replaced_shape bd : same_shape N (replaced bd).
Proof.
  split; [|reflexivity]. cbn [replaced Net_Model.nodes]. clear Hpq. generalize 0%nat. revert Hns. generalize (Net_Model.nodes N). induction ns as [|entry l IH]; intros [|t ts] L k; try discriminate; [constructor|].
  cbn [List.length seq combine map]. constructor; [|apply IH; cbn in L; congruence].
  destruct t; cbn; auto. destruct (String.eqb (fst entry) stochastic_type); cbn; auto.
Qed.
Lemma replaced_both bd bd' : same_shape (replaced bd) (replaced bd').
Proof.
  split; [|reflexivity]. cbn [replaced Net_Model.nodes]. clear Hpq. generalize 0%nat. revert Hns. generalize (Net_Model.nodes N). induction ns as [|entry l IH]; intros [|t ts] L k; try discriminate; [constructor|].
  cbn [List.length seq combine map]. constructor; [|apply IH; cbn in L; congruence].
  destruct t; cbn; auto. destruct (String.eqb (fst entry) stochastic_type); cbn; auto.
Qed.
Lemma entry_of_node j t : nth_error (Net_Model.nodes N) j = Some t -> exists entry, nth_error ns j = Some entry.
Proof.
  intro E. destruct (nth_error ns j) as [entry|] eqn:Ee; [eauto|]. apply nth_error_None in Ee. assert (j < List.length (Net_Model.nodes N))%nat by (apply nth_error_Some; congruence). lia.
Qed.
Lemma replaced_agree bd bd' t :
  (forall j entry k x G B b, nth_error ns j = Some entry -> fst entry = stochastic_type -> nth_error (Net_Model.nodes N) j = Some (Powernode k x G B b) -> bd j t = bd' j t) ->
  agree (replaced bd) (replaced bd') t.
Proof.
  intros H j. destruct (nth_error (Net_Model.nodes N) j) as [n|] eqn:En.
  - destruct (entry_of_node j n En) as [entry Ee]. rewrite (replaced_node bd j entry n Ee En), (replaced_node bd' j entry n Ee En).
    destruct n; auto. destruct (String.eqb_spec (fst entry) stochastic_type) as [S|S]; [|reflexivity]. apply (H j entry _ _ _ _ _ Ee S En).
  - pose proof (shape_nodes _ _ (replaced_shape bd) j) as Q. rewrite En in Q. destruct (nth_error (Net_Model.nodes (replaced bd)) j); [contradiction|exact Logic.I].
Qed.
Lemma replaced_defined bd t : (forall j, exists v, bd j t = Ok v) -> boundary_defined N t -> boundary_defined (replaced bd) t.
Proof.
  intros Hb H j. specialize (H j). destruct (nth_error (Net_Model.nodes N) j) as [n|] eqn:En.
  - destruct (entry_of_node j n En) as [entry Ee]. rewrite (replaced_node bd j entry n Ee En).
    destruct n; auto. destruct (String.eqb (fst entry) stochastic_type); [apply Hb|exact H].
  - pose proof (shape_nodes _ _ (replaced_shape bd) j) as Q. rewrite En in Q. destruct (nth_error (Net_Model.nodes (replaced bd)) j); [contradiction|exact Logic.I].
Qed.

(** [pw i j]: the powers of node [j] in step [i], that is, at time number [S i]. *)
Definition frozen (pw : nat -> nat -> R * R) : network :=
  replaced (fun j t => Ok (v2 (fst (pw (pred (place t st)) j)) (snd (pw (pred (place t st)) j)))).

Variables (ct c : list R) (states : list vec) (draw : nat -> nat -> R * R -> R * R) (W : R -> list R) (W' : nat -> nat -> R) (X : R -> list R).
Hypothesis HV : random_variation ns draw N st ct c states W W' X.
Hypothesis Hcov : forall s i t, nth_error st (S i) = Some t -> exists u, control_at ct (number_of_controls N) (W s) t u.
Let n := number_of_states N.
Definition drawn_along (i : nat) : nat -> R * R := powers_from N draw i (row (X 0) n i).

(** The drawn powers do not depend on the controls. *)
Lemma drawn_fixed s : (forall i t0 t1 u, nth_error st i = Some t0 -> nth_error st (S i) = Some t1 -> control_at ct (number_of_controls N) (W s) t1 u ->
    network_equations (with_powers ns (powers_from N draw i (row (X s) n i)) N) t0 t1 (row (X s) n i) (row (X s) n (S i)) u) ->
  (forall i t0 t1 u, nth_error st i = Some t0 -> nth_error st (S i) = Some t1 -> control_at ct (number_of_controls N) (W 0) t1 u ->
    network_equations (with_powers ns (powers_from N draw i (row (X 0) n i)) N) t0 t1 (row (X 0) n i) (row (X 0) n (S i)) u) ->
  forall i j entry k x G B b, (S i < List.length st)%nat -> nth_error ns j = Some entry -> fst entry = stochastic_type ->
    nth_error (Net_Model.nodes N) j = Some (Powernode k x G B b) -> powers_from N draw i (row (X s) n i) j = drawn_along i j.
Proof.
  intros Hs H0 i j entry k x G B b L Ee Es En. pose proof (Hpq j entry k x G B b Ee Es En) as ->.
  assert (P : forall z i, (S i < List.length st)%nat ->
    (forall i t0 t1 u, nth_error st i = Some t0 -> nth_error st (S i) = Some t1 -> control_at ct (number_of_controls N) (W z) t1 u ->
      network_equations (with_powers ns (powers_from N draw i (row (X z) n i)) N) t0 t1 (row (X z) n i) (row (X z) n (S i)) u) ->
    power N j G B (row (X z) n (S i)) = powers_from N draw i (row (X z) n i) j).
  { clear i L Hs H0. intros z i L H. destruct (nth_error st i) as [t0|] eqn:E0; [|apply nth_error_None in E0; lia].
    destruct (nth_error st (S i)) as [t1|] eqn:E1; [|apply nth_error_None in E1; lia].
    destruct (Hcov z i t1 E1) as [u Hu]. destruct (H i t0 t1 u E0 E1 Hu) as [Hn _]. rewrite powers_replaced in Hn.
    specialize (Hn j _ (replaced_node _ j entry _ Ee En)). rewrite Es, String.eqb_refl in Hn. cbn [node_equation] in Hn. destruct Hn as (v & V & Q).
    injection V as <-. cbn [v2] in Q. rewrite <- (shape_power _ _ (replaced_shape _)) in Q. rewrite Q. symmetry. apply surjective_pairing. }
  unfold drawn_along. induction i as [|i IH].
  - assert (Q : row (X s) n 0 = row (X 0) n 0).
    { destruct HV as (_ & _ & _ & _ & St & _). fold n in St. apply functional_extensionality. intro q. unfold row. destruct (Nat.ltb_spec q n); [apply St; assumption|reflexivity]. }
    rewrite Q. reflexivity.
  - unfold powers_from at 1 2. rewrite En. f_equal. rewrite (P s i), (P 0 i); [apply IH; lia|lia|exact H0|lia|exact Hs].
Qed.

Theorem frozen_variation : variation (frozen drawn_along) st ct c states W W' X.
Proof.
  pose proof HV as (V1 & V2 & V3 & V4 & V5 & V6 & V7 & V8 & V9). pose proof (replaced_shape (fun j t => Ok (v2 (fst (drawn_along (pred (place t st)) j)) (snd (drawn_along (pred (place t st)) j))))) as Sh. fold (frozen drawn_along) in Sh.
  unfold variation. rewrite <- (shape_number _ _ Sh). split; [|split; [|split; [exact V8|exact V9]]].
  - pose proof (shape_number _ _ Sh) as En. pose proof (shape_controls _ _ Sh) as Em.
    constructor; try rewrite <- En; try rewrite <- Em; [exact V1|exact V2|exact V3|exact V4|exact V5|]. clear En Em.
    pose proof (locally_singleton _ _ V6) as Z. eapply filter_imp; [|exact V6]. intros s Hs i t0 t1 u E0 E1 Hu. specialize (Hs i t0 t1 u E0 E1 Hu) as Eq.
    eapply shape_equations; [apply replaced_both| |exact Eq]. apply replaced_agree. intros j entry k x G B b Ee Es En.
    rewrite (place_nth st Hst _ _ E1). cbn [pred]. rewrite <- (drawn_fixed s Hs Z i j entry k x G B b); [reflexivity| |assumption..]. apply nth_error_Some. congruence.
  - destruct V7 as (R1 & R2 & R3). split; [apply (shape_well_formed _ _ Sh R1)|]. split; [apply (shape_pipes _ _ Sh R2)|].
    intros i t E. destruct (R3 i t E) as [B1 B2]. split; [apply replaced_defined; [intro; eexists; reflexivity|exact B1]|].
    rewrite <- (shape_number _ _ Sh). apply (shape_regular _ _ Sh), B2.
Qed.
End Frozen.
