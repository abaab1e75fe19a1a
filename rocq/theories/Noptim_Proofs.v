(** * Callbacks of a problem with stochastic nodes *)
From Coq Require Import Reals ZArith Lra Lia List Arith Bool String IndefiniteDescription.
From Coquelicot Require Import Coquelicot.
From Verif Require Import Base Interp_Model Interp_Spec Interp_Proofs Interp_Proofs2 Json_Model Calc Net_Model Net_Spec
  Ctimes_Model Adjoint_Model Adjoint_Spec Adjoint_Proofs Iface_Model Iface_Spec Iface_Proofs3 Whole_Spec Sim_Model Sim_Spec Sim_Proofs2 Input_Model Setup_Model Setup_Proofs
  Answer_Model Answer_Spec Answer_Proofs Answer_Proofs2 Stoch_Model Noise_Model Noise_Spec Noise_Proofs Noise_Proofs2 Noise_Proofs3 Noise_Proofs4 Noise_Proofs5
  Noptim_Model Noptim_Spec Noptim_Sources Noptim_Frozen.
From Verif Require Adjoint_Proofs3 Adjoint_Proofs4 Jac_Model Jac_Spec Jac_Proofs2 Whole_Props Newton_Model Evolve_Model Evolve_Spec Whole_Model Optim_Model Optim_Spec Optim_Proofs Optim_Props.
Import ListNotations.
Local Open Scope R_scope.

(** Between announcements the point stays the same. *)
Lemma same_point (B : Optim_Model.backend) : forall h c j cb c' new, Optim_Spec.announced B (Some c) h ->
  nth_error h j = Some cb -> Optim_Spec.asks B cb = Some (c', new) ->
  (forall k cb1 c1, (k <= j)%nat -> nth_error h k = Some cb1 -> Optim_Spec.asks B cb1 <> Some (c1, true)) -> c' = c.
Proof.
  induction h as [|cb0 h IH]; intros c j cb c' new Ha Hj Hc Hn; [destruct j; discriminate|]. cbn [Optim_Spec.announced] in Ha.
  destruct j as [|j].
  - cbn in Hj. injection Hj as ->. rewrite Hc in Ha. destruct Ha as [[->|[Q|Q]] _]; [|discriminate|congruence].
    exfalso. apply (Hn 0%nat cb c' ltac:(lia) eq_refl Hc).
  - cbn in Hj. assert (Hn' : forall k cb1 c1, (k <= j)%nat -> nth_error h k = Some cb1 -> Optim_Spec.asks B cb1 <> Some (c1, true))
      by (intros k cb1 c1 Lk; apply (Hn (S k) cb1 c1); lia).
    destruct (Optim_Spec.asks B cb0) as [[c0 new0]|] eqn:E0; [|apply (IH c j cb c' new Ha Hj Hc Hn')].
    destruct Ha as [[->|[Q|Q]] Ha]; [|discriminate|].
    + exfalso. apply (Hn 0%nat cb0 c0 ltac:(lia) eq_refl E0).
    + injection Q as ->. apply (IH c0 j cb c' new Ha Hj Hc Hn').
Qed.
Lemma same_point_from (B : Optim_Model.backend) : forall h cur i j cb c new cb' c' new', Optim_Spec.announced B cur h -> (i < j)%nat ->
  nth_error h i = Some cb -> Optim_Spec.asks B cb = Some (c, new) -> nth_error h j = Some cb' -> Optim_Spec.asks B cb' = Some (c', new') ->
  (forall k cb1 c1, (i < k <= j)%nat -> nth_error h k = Some cb1 -> Optim_Spec.asks B cb1 <> Some (c1, true)) -> c' = c.
Proof.
  induction h as [|cb0 h IH]; intros cur i j cb c new cb' c' new' Ha Lt Hi Ec Hj Ec' Hn; [destruct i; discriminate|].
  destruct j as [|j]; [lia|]. cbn in Hj. cbn [Optim_Spec.announced] in Ha. destruct i as [|i].
  - cbn in Hi. injection Hi as ->. rewrite Ec in Ha. destruct Ha as [_ Ha]. apply (same_point B h c j cb' c' new' Ha Hj Ec').
    intros k cb1 c1 Lk. apply (Hn (S k) cb1 c1). lia.
  - assert (Hn' : forall k cb1 c1, (i < k <= j)%nat -> nth_error h k = Some cb1 -> Optim_Spec.asks B cb1 <> Some (c1, true))
      by (intros k cb1 c1 Lk; apply (Hn (S k) cb1 c1); lia).
    destruct (Optim_Spec.asks B cb0) as [[c0 new0]|]; [destruct Ha as [_ Ha]|];
      apply (IH _ i j cb c new cb' c' new' Ha ltac:(lia) Hi Ec Hj Ec' Hn').
Qed.

Section Callbacks.
Context {G LU : Type}.
Variables (pcg : (nat -> list Z) -> G) (sampling : G -> stream) (entropy : nat -> list Z) (nan : R).
Variables (factor : list drawn -> R -> R -> vec -> list R -> vec -> option LU) (linsolve : LU -> vec -> vec) (solve : solver_type) (fuel sfuel : nat).
Variables (uninit : nat -> R) (ns es : list (string * json)) (nodes : list (noisy_node G)) (edges : list made_edge).
Hypothesis Hmade : construct_noisy pcg entropy uninit (ns, es) = Ok (nodes, edges).
Let N := network_of (map nn_node nodes) edges.
Let sinks := constraint_nodes (map nn_node nodes).
Let n := number_of_states N.
Let m := number_of_controls N.
Variables (cfg : Evolve_Model.tsettings) (st ct cons x0 : list R) (iv : init_values) (o : optimizer).
Hypothesis Ho : optimizer_ctor n m (List.length sinks) st ct cons x0 iv = Ok o.
Hypothesis HW : well_formed N.
Hypothesis HP : pipes_ok N.
Hypothesis HB : forall t, In t st -> boundary_defined N t.
Hypothesis Hst : increasing st.
Hypothesis Hlen : (2 <= List.length st)%nat.
Hypothesis Hct : increasing ct.
Hypothesis HS : constrained_nodes N sinks.
Hypothesis Hm : (0 < m)%nat.
Hypothesis Hmi : (0 <= Newton_Model.maximal_iterations (Evolve_Model.newton cfg))%Z.
Hypothesis Htol : Newton_Model.tolerance (Evolve_Model.newton cfg) < 1000000.
Let B := noisy_backend sampling nan factor linsolve solve fuel sfuel cfg nodes edges o.
Let eps := Newton_Model.tolerance (Evolve_Model.newton cfg).

Lemma parts : o_nx o = n /\ o_nu o = m /\ o_ng o = List.length sinks /\ state_timepoints o = st /\ control_timepoints o = ct /\ constraint_timepoints o = cons /\
  initial_state o = x0 /\ List.length x0 = n /\ Iface_Spec.controlled ct st /\ constraint_times_of st cons.
Proof.
  destruct (constructed _ _ _ _ _ _ _ _ _ Ho) as (Fi & pairs & l & _ & Eo). rewrite Eo. cbn. repeat (split; [reflexivity|]).
  split; [apply Fi|]. split; apply Fi.
Qed.
Lemma covers_times t : In t st -> exists ul, compute_index_lambda ct t = Ok ul.
Proof.
  intro I. destruct parts as (_ & _ & _ & _ & _ & _ & _ & _ & (N1 & _ & C) & _). specialize (C t I).
  destruct (index_lambda_full ct t (nth 0 ct 0) (List.last ct 0) Hct) as (u & la & E & _).
  - apply nth_error_nth'. destruct ct; [congruence|cbn; lia].
  - apply nth_error_last, N1.
  - exact C.
  - exists (u, la). exact E.
Qed.

(** The samples of node [j]. *)
Definition samples_of (j : nat) : stream :=
  match nth_error nodes j with
  | Some nd => match nn_noise nd with Some s => sampling (distribution s) | None => fun _ _ _ => 0 end
  | None => fun _ _ _ => 0
  end.

Section Point.
Variable c : list R.
Hypothesis Tc : table_of ct m c.
Notation U := (along N st ct c).
Lemma mapped_to : mapped_controls o c = mk_ivec ct m c.
Proof. destruct parts as (_ & E & _ & _ & E' & _). unfold mapped_controls. rewrite E, E'. reflexivity. Qed.

Section Solved.
Variables (e e' : list drawn) (states : list vec).
Hypothesis Hsim : noisy_simulation sampling nan factor linsolve fuel sfuel cfg nodes edges o e c = (Some (Ok states), e').
Let X := states_table n states.
Lemma random_solved : List.length states = List.length st /\ exists powers first next,
  random_trajectory ns samples_of N eps st ct x0 c states U powers first next /\
  forall k j, (S k < List.length st)%nat -> (j < List.length nodes)%nat ->
    (samples (nth j e (undrawn nan)) <= first k j)%nat /\ (next k j <= samples (nth j e' (undrawn nan)))%nat.
Proof.
  destruct parts as (Ex & _ & _ & Es & _ & _ & E0 & Li & _). unfold noisy_simulation in Hsim. rewrite mapped_to, Ex, Es, E0 in Hsim.
  destruct (simulate_chain (noisy_problem sampling nan factor linsolve nodes edges n) fuel sfuel cfg (mk_ivec ct m c)
    (grown nan nodes) (grown_refl nan nodes) (grown_trans nan nodes)
    (fun e t0 t1 x c e1 He => grown_prepare sampling nan nodes edges e t0 t1 x c e1 He) _ _ _ _ _ Hsim)
    as (S1 & S2 & S3 & before & after & S4 & S5 & S6 & S7).
  split; [exact S1|].
  exists (fun k => powers_in nan (after k)), (fun k j => samples (nth j (before k) (undrawn nan))), (fun k j => samples (nth j (after k) (undrawn nan))).
  assert (Step : forall k, (S k < List.length st)%nat -> grown nan nodes (before k) (after k)).
  { assert (S1' : @List.length vec states = List.length st) by exact S1.
    intros k Lk. destruct (nth_error st k) as [t0|] eqn:H0; [|apply nth_error_None in H0; lia]. destruct (nth_error st (S k)) as [t1|] eqn:H1; [|apply nth_error_None in H1; lia].
    destruct (nth_error states k) as [u|] eqn:H2; [|apply nth_error_None in H2; lia].
    destruct (nth_error states (S k)) as [v|] eqn:H3; [|apply nth_error_None in H3; lia].
    destruct (S7 k t0 t1 u v) as (c1 & full & sol & _ & Pr & _); [repeat split; assumption|]. apply (grown_prepare sampling nan nodes edges (before k) t0 t1 u c1 (after k) Pr). }
  assert (Up : forall k, (S k < List.length st)%nat -> grown nan nodes e (before k)).
  { induction k as [|k IH]; intro Lk; [exact S4|]. eapply grown_trans; [apply IH; lia|]. eapply grown_trans; [apply Step; lia|apply S6]. }
  assert (Down : forall d k, (k + d + 2 = List.length st)%nat -> grown nan nodes (after k) e').
  { induction d as [|d IH]; intros k Lk; [replace k with (List.length st - 2)%nat by lia; rewrite S5; apply grown_refl|].
    eapply grown_trans; [apply S6|]. eapply grown_trans; [apply Step; lia|apply (IH (S k)); lia]. }
  split; [|intros k j Lk Lj; split; [apply (Up k Lk j Lj)|apply (Down (List.length st - 2 - k)%nat k ltac:(lia) j Lj)]].
  split; [exact S1|]. split; [apply along_controls; auto; apply covers_times|]. split.
  { intros x Q k K. pose proof (eq_trans (eq_sym S3) Q) as Z. injection Z as <-. unfold vec_of. rewrite (nth_error_nth' _ 0) by (rewrite Li; exact K). reflexivity. }
  intros k t0 t1 u v H0 H1 H2 H3.
  assert (Cs : Evolve_Spec.consecutive (noisy_problem sampling nan factor linsolve nodes edges n) st states k t0 t1 u v) by (repeat split; assumption).
  pose proof (S7 k t0 t1 u v Cs) as Af. pose proof (accepted_again _ _ _ _ _ _ _ _ _ _ Af) as Ac.
  pose proof (noisy_same nan nodes edges (after k)) as Sh.
  destruct (network_step_within (list drawn) LU n (noisy_network nan nodes edges) (prepare_all sampling nan nodes edges) factor linsolve
    cfg (mk_ivec ct m c) fuel t0 t1 u v (after k)) as (_ & w & e0 & Hw & _ & Eq).
  - apply (shape_well_formed _ _ Sh HW).
  - apply (shape_pipes _ _ Sh HP).
  - rewrite <- (shape_number _ _ Sh). reflexivity.
  - apply noisy_boundary, HB. apply (nth_error_In _ _ H1).
  - exact Hmi.
  - exact Htol.
  - exact Ac.
  - split.
    + destruct Hw as [[Z _]|[_ Hw]]; [cbn [iinner] in Z; lia|].
      assert (Q : control_vector w = U (S k)).
      { unfold along. rewrite (nth_error_nth _ _ 0 H1). unfold Adjoint_Proofs3.row_of. fold m. rewrite Hw. reflexivity. }
      rewrite <- Q. cbv beta. unfold N. rewrite <- (noisy_is nan nodes edges ns (after k) (noisy_as_made pcg entropy uninit nodes edges ns es Hmade)). exact Eq.
    + intros j entry Gc Bc b Ee Te Eb.
      destruct (nth_error nodes j) as [nd|] eqn:Enn.
      2:{ exfalso. destruct (noisy_inv _ _ _ _ _ _ _ Hmade) as (_ & L & _). apply nth_error_None in Enn. assert (j < List.length ns)%nat by (apply nth_error_Some; congruence). lia. }
      destruct (nn_noise nd) as [s|] eqn:Es'.
      2:{ exfalso. destruct (noisy_inv _ _ _ _ _ _ _ Hmade) as (_ & _ & Mk). destruct (Mk j nd Enn) as (entry' & E1 & E2). assert (entry' = entry) by congruence. subst entry'.
          destruct (make_noisy_mean _ _ _ _ _ E2) as (_ & _ & _ & [(_ & b' & s' & _ & _ & _ & Z & _)|(Z & _)]); [congruence|contradiction]. }
      destruct (stochastic_made pcg entropy uninit nodes edges ns es Hmade j nd s Enn Es') as (entry' & Gc' & Bc' & iv' & E1 & E2 & E3 & E4 & E5 & E6 & o' & E7 & E8).
      assert (entry' = entry) by congruence. subst entry'.
      assert (Q1 : nth_error (Net_Model.nodes N) j = Some (Powernode PQ false Gc' Bc' (Input_Model.boundary_of iv'))).
      { unfold N. cbn. rewrite !nth_error_map, Enn. cbn. unfold nodetype_of. rewrite E5. reflexivity. }
      rewrite Eb in Q1. injection Q1 as -> -> ->.
      destruct Af as (c1 & full & sol & _ & Pr & _).
      split; [split; [apply (grown_prepare sampling nan nodes edges (before k) t0 t1 u c1 (after k) Pr)|apply (S6 k)]; apply nth_error_Some; congruence|].
      destruct (step_drawn sampling nan nodes edges (before k) t0 t1 u c1 (after k) j nd s PQ false Gc' Bc' iv' (snd entry) o' HW Pr Enn Es' E5 ltac:(eauto)) as (mean & M1 & M2).
      exists mean. split; [exact M1|]. unfold samples_of. rewrite Enn, Es'. exact M2.
Qed.

Lemma noisy_table : table_of st n X.
Proof. destruct random_solved as [L _]. unfold table_of, X. rewrite table_length, L. reflexivity. Qed.
Lemma noisy_cost : Optim_Model.b_cost B c X + Optim_Model.b_penalty B c X = total_cost N st U.
Proof.
  destruct parts as (Ex & _ & _ & Es & _). unfold B. cbn [Optim_Model.b_cost Optim_Model.b_penalty network_backend mean_backend noisy_backend pp_nodes pp_edges]. rewrite mapped_to, Ex, Es. fold sinks. fold N. unfold n, m.
  rewrite (cost_answer N sinks st ct Hst Hlen Hct covers_times c X Tc noisy_table), (penalty_answer N sinks st ct Hst Hlen Hct covers_times c X Tc noisy_table). cbn [number_or_zero]. ring.
Qed.
Lemma noisy_constraints variables : Forall2 (variable_at N) sinks variables -> constraints_right variables st cons states (Optim_Model.b_constr B c X).
Proof.
  intro V. destruct parts as (Ex & _ & Eg & Es & _ & Ec & _ & _ & _ & idx & Pos & [T1 T2]). pose proof (Answer_Proofs2.Forall2_length _ _ _ V) as LV.
  unfold B. cbn [Optim_Model.b_constr network_backend mean_backend noisy_backend pp_nodes pp_edges]. unfold constraint_values. cbn [pp_nodes pp_edges]. rewrite mapped_to, Ex, Eg, Es, Ec. fold sinks. fold N.
  set (f := fun q => match evaluate_constraint_row (Whole_Model.network_problem N sinks) cons (mk_ivec ct m c) (mk_ivec st n X) q with
                     | Ok g => map g (seq 0 (List.length sinks)) | _ => [] end).
  assert (Row : forall q i t, nth_error cons q = Some t -> nth_error st i = Some t -> exists g, f q = map g (seq 0 (List.length sinks)) /\
    forall r j position, nth_error sinks r = Some j -> nth_error variables r = Some position -> g r = Interp_Spec.entry X n i position).
  { intros q i t Hq Hi. destruct (constraint_row_exists N sinks st ct cons Hst Hct covers_times c X Tc noisy_table q i t Hq Hi) as [g E]. fold n m in E. exists g. unfold f. rewrite E. split; [reflexivity|].
    intros r j position Hr Hv. destruct (constraint_row N sinks st ct cons Hst Hct covers_times c X Tc noisy_table variables q r i j t position V Hq Hi Hr Hv) as (g' & E' & Gv).
    pose proof (eq_trans (eq_sym E) E') as Q. injection Q as <-. exact Gv. }
  assert (Len : forall q, (q < List.length cons)%nat -> List.length (f q) = List.length sinks).
  { intros q Hq. destruct (nth_error cons q) as [t|] eqn:Eq; [|apply nth_error_None in Eq; lia].
    assert (I : exists i, nth_error st i = Some t).
    { destruct (nth_error idx q) as [i|] eqn:Ei; [|apply nth_error_None in Ei; rewrite <- T1 in Ei; lia].
      exists i. rewrite <- (T2 q i Ei). exact Eq. }
    destruct I as [i Hi]. destruct (Row q i t Eq Hi) as (g & -> & _). rewrite map_length, seq_length. reflexivity. }
  unfold constraints_right. rewrite <- LV. split; [apply (blocks_length f (List.length sinks)), Len|].
  intros q r i t position x Hq Hi Hv Hx. assert (Lr : (r < List.length sinks)%nat) by (rewrite LV; apply nth_error_Some; congruence).
  rewrite (blocks_nth f (List.length sinks)); [|apply nth_error_Some; congruence|exact Lr|exact Len].
  destruct (Row q i t Hq Hi) as (g & -> & Gv). destruct (nth_error sinks r) as [j|] eqn:Ej; [|apply nth_error_None in Ej; lia].
  rewrite nth_error_map, (nth_error_nth' _ 0%nat) by (rewrite seq_length; exact Lr). rewrite seq_nth by exact Lr. cbn [option_map Nat.add].
  rewrite (Gv r j position Ej Hv). f_equal. apply table_entry; [exact Hx|].
  clear -V Ej Hv. revert r Ej Hv. induction V as [|a b l l' K V IH]; intros [|r] Ej Hv; try discriminate; [|apply (IH r Ej Hv)].
  cbn in Hv. injection Hv as <-. apply K.
Qed.
(** ** The derivatives *)
Section Derivatives.
Hypothesis Hsolve : solver_correct n solve.
Variables (Gr : nat -> vec) (J : nat -> R).
Hypothesis HD : snd (Optim_Model.derive B e c X) = (true, (Gr, J) : Optim_Model.Der B).
Lemma noisy_derivatives : compute_derivatives (Whole_Model.network_problem N sinks) solve (constraint_jacobian o) st ct cons (mk_ivec ct m c) (mk_ivec st n X) = Ok (Some (Gr, J)).
Proof.
  destruct parts as (Ex & _ & _ & Es & Ec & Eo & _). revert HD. unfold B. cbn. unfold derivatives. cbn [pp_nodes pp_edges]. rewrite mapped_to, Ex, Es, Ec, Eo. fold sinks. fold N.
  destruct (compute_derivatives _ _ _ _ _ _ _ _) as [[gj|]| |]; intro H; try discriminate. injection H as ->. reflexivity.
Qed.
Lemma checked : ctor_time_checks st ct cons = Ok tt /\ Jac_Model.make_data (List.length sinks) m cons ct = Some (Ok (constraint_jacobian o)) /\ Jac_Spec.nondecreasing cons /\ Jac_Spec.nondecreasing ct.
Proof.
  destruct (constructed _ _ _ _ _ _ _ _ _ Ho) as (Fi & pairs & l & Hl & Eo). split; [apply (ctor_checked _ _ _ _ _ _ _ _ _ Ho)|].
  split; [rewrite Hl, (f_equal constraint_jacobian Eo); reflexivity|split; apply Fi].
Qed.
Lemma entries_count : List.length ns = List.length (Net_Model.nodes N).
Proof. destruct (noisy_inv _ _ _ _ _ _ _ Hmade) as (_ & L & _). unfold N. cbn. rewrite !map_length. symmetry. exact L. Qed.
Lemma stochastic_pq j entry k x Gc Bc b : nth_error ns j = Some entry -> fst entry = stochastic_type -> nth_error (Net_Model.nodes N) j = Some (Powernode k x Gc Bc b) -> k = PQ.
Proof.
  intros Ee Te Eb. unfold N in Eb. cbn in Eb. rewrite !nth_error_map in Eb. destruct (nth_error nodes j) as [nd|] eqn:Enn; [|discriminate]. cbn in Eb.
  destruct (nn_noise nd) as [s|] eqn:Es'.
  - destruct (stochastic_made pcg entropy uninit nodes edges ns es Hmade j nd s Enn Es') as (entry' & Gc' & Bc' & iv' & E1 & E2 & E3 & E4 & E5 & _).
    unfold nodetype_of in Eb. rewrite E5 in Eb. congruence.
  - exfalso. destruct (noisy_inv _ _ _ _ _ _ _ Hmade) as (_ & _ & Mk). destruct (Mk j nd Enn) as (entry' & E1 & E2). assert (entry' = entry) by congruence. subst entry'.
    destruct (make_noisy_mean _ _ _ _ _ E2) as (_ & _ & _ & [(_ & b' & s' & _ & _ & _ & Z & _)|(Z & _)]); [congruence|contradiction].
Qed.
Lemma frozen_at draw W W' Y : random_variation ns draw N st ct c states W W' Y -> exists N', same_shape N N' /\ variation N' st ct c states W W' Y /\ W 0 = c /\ Y 0 = X.
Proof.
  intro V. pose proof V as (V1 & V2 & _ & _ & _ & _ & _ & V8 & V9).
  exists (frozen ns N st (drawn_along N draw Y)). split; [apply replaced_shape, entries_count|]. split; [|split; [exact V8|]].
  - apply frozen_variation with (draw := draw); [exact Hst|apply entries_count|apply stochastic_pq|exact V|]. intros s i t Ei.
    exists (along N st ct (W s) (S i)). apply (along_controls N st ct Hct covers_times (W s) (V1 s) i t Ei).
  - apply (table_unique n (List.length st)); [apply V2|apply noisy_table|].
    intros i k Hi Hk. destruct random_solved as [L _]. destruct (nth_error states i) as [x|] eqn:Ex; [|apply nth_error_None in Ex; lia].
    etransitivity; [exact (V9 i x k Ex Hk)|]. symmetry. apply table_entry; assumption.
Qed.
Lemma noisy_gradient : random_gradient_right ns N st ct c states (Optim_Model.gradient_of B ((Gr, J) : Optim_Model.Der B)).
Proof.
  destruct parts as (Ex & Eu & _ & Es & Ec & _). destruct checked as (Tk & Md & _). unfold B. cbn [Optim_Model.gradient_of network_backend mean_backend noisy_backend fst]. rewrite Ec, Eu.
  assert (Len : forall i, (i < List.length ct)%nat -> List.length (map (Gr i) (seq 0 m)) = m) by (intros; rewrite map_length, seq_length; reflexivity).
  split; [apply (blocks_length (fun j => map (Gr j) (seq 0 m)) m), Len|].
  intros draw W W' Y V0. destruct (frozen_at draw W W' Y V0) as (N' & Sh & (F & Rt & _) & E0 & E1). pose proof noisy_derivatives as D. rewrite (shape_derivatives _ _ Sh), <- E0, <- E1 in D.
  unfold n, m in D. rewrite (shape_number _ _ Sh), (shape_controls _ _ Sh) in D. pose proof Md as Md'. unfold m in Md'. rewrite (shape_controls _ _ Sh) in Md'.
  pose proof Hsolve as Sc. unfold n in Sc. rewrite (shape_number _ _ Sh) in Sc.
  destruct (Whole_Props.C84_objective _ _ _ _ _ _ _ _ _ _ _ _ Hst Hlen Hct Rt (shape_constrained _ _ Sh _ HS) F Md' Tk Sc D) as (V & V1 & _ & V2).
  rewrite <- (shape_controls _ _ Sh) in V1, V2.
  exists V. split; [intros s k t Hk; apply (V1 s _ _ Hk)|].
  apply (is_derive_ext (fun s => total_cost N' st (V s))); [intro s; symmetry; apply (shape_total_cost _ _ Sh)|].
  eapply is_derive_eq; [exact V2|]. apply Rsum_ext. intros j Hj. apply Rsum_ext. intros k Hk. f_equal. symmetry.
  unfold Interp_Spec.entry. apply nth_error_nth. fold m. rewrite (blocks_nth (fun j => map (Gr j) (seq 0 m)) m); auto. rewrite nth_error_map.
  rewrite (nth_error_nth' _ 0%nat) by (rewrite seq_length; exact Hk). rewrite seq_nth by exact Hk. reflexivity.
Qed.
Lemma noisy_jacobian variables : Forall2 (variable_at N) sinks variables ->
  random_jacobian_right ns N variables st ct cons c states (Jac_Model.supply_indices (constraint_jacobian o)) (Optim_Model.jacobian_of B ((Gr, J) : Optim_Model.Der B)).
Proof.
  intro Va. pose proof (Answer_Proofs2.Forall2_length _ _ _ Va) as LV. destruct parts as (_ & _ & _ & _ & _ & _ & _ & _ & (Nc & _) & _). destruct checked as (Tk & Md & S1 & S2).
  unfold B. cbn [Optim_Model.jacobian_of network_backend mean_backend noisy_backend snd]. split.
  - destruct (Jac_Proofs2.jacobian_pattern (List.length sinks) m cons ct S1 S2 Nc) as (l' & E & L & _). rewrite Md in E. injection E as <-. rewrite map_length, seq_length, L. reflexivity.
  - intros draw W W' Y V0 q r i t position Hq Hi Hr. destruct (frozen_at draw W W' Y V0) as (N' & Sh & (F & Rt & _) & E0 & E1). pose proof noisy_derivatives as D. rewrite (shape_derivatives _ _ Sh), <- E0, <- E1 in D.
    unfold n, m in D. rewrite (shape_number _ _ Sh), (shape_controls _ _ Sh) in D. pose proof Md as Md'. unfold m in Md'. rewrite (shape_controls _ _ Sh) in Md'.
    pose proof Hsolve as Sc. unfold n in Sc. rewrite (shape_number _ _ Sh) in Sc.
    assert (Lr : (r < List.length sinks)%nat) by (rewrite LV; apply nth_error_Some; congruence).
    destruct (nth_error sinks r) as [j|] eqn:Ej; [|apply nth_error_None in Ej; lia].
    assert (Va' : Forall2 (variable_at N') sinks variables).
    { assert (One : forall a b, variable_at N a b -> variable_at N' a b); [|clear -Va One; induction Va; constructor; auto].
      unfold variable_at. intros a b. rewrite (shape_number _ _ Sh), (shape_attached _ _ Sh), (shape_edges _ _ Sh).
      intros [(ie & e1 & d & P1 & P2 & P3 & P4) P5]. split; [|exact P5]. exists ie, e1, d. rewrite <- (shape_end _ _ Sh). auto. }
    destruct (Whole_Props.C84_constraint _ _ _ _ _ _ _ _ _ _ _ _ Hst Hlen Hct Rt (shape_constrained _ _ Sh _ HS) F Md' Tk Sc D q r i j t Hq Hi Ej) as (ie & e1 & d & _ & _ & _ & V1 & V2).
    assert (Eq : forall s, Interp_Spec.entry (Y s) (number_of_states N') i (end_position N' ie d) = Interp_Spec.entry (Y s) (number_of_states N) i position).
    { intro s. destruct (V1 s) as (g & Eg & Vg).
      destruct (constraint_row N' sinks st ct cons Hst Hct covers_times (W s) (Y s) (nf_W_table _ _ _ _ _ _ F s) (nf_X_table _ _ _ _ _ _ F s) variables q r i j t position Va' Hq Hi Ej Hr) as (g' & Eg' & Vg').
      pose proof (eq_trans (eq_sym Eg) Eg') as Q. injection Q as <-. rewrite (shape_number _ _ Sh). congruence. }
    apply (is_derive_ext _ _ _ _ Eq). rewrite <- (shape_controls _ _ Sh) in V2. eapply is_derive_eq; [exact V2|]. apply Rsum_ext. intros k Hk. apply Rsum_ext. intros k' Hk'. f_equal.
    rewrite <- LV. symmetry. apply (matrix_at_whole (List.length sinks) m cons ct); assumption.
Qed.
End Derivatives.
End Solved.

(** What belongs to a table of states that a simulation for [c] gave. *)
Lemma random_simulation e e' X variables : Forall2 (variable_at N) sinks variables -> Optim_Model.simulate B e c = (e', Some X) -> exists states powers first next,
  random_trajectory ns samples_of N eps st ct x0 c states U powers first next /\
  (forall k j, (S k < List.length st)%nat -> (j < List.length nodes)%nat ->
    (samples (nth j e (undrawn nan)) <= first k j)%nat /\ (next k j <= samples (nth j e' (undrawn nan)))%nat) /\
  Optim_Model.b_cost B c X + Optim_Model.b_penalty B c X = total_cost N st U /\
  constraints_right variables st cons states (Optim_Model.b_constr B c X) /\
  (solver_correct n solve -> forall d, Optim_Spec.derivatives_at B c X d ->
    random_gradient_right ns N st ct c states (Optim_Model.gradient_of B d) /\
    random_jacobian_right ns N variables st ct cons c states (Jac_Model.supply_indices (constraint_jacobian o)) (Optim_Model.jacobian_of B d)).
Proof.
  intros V H. destruct (noisy_simulation sampling nan factor linsolve fuel sfuel cfg nodes edges o e c) as [[[states| |]|] e''] eqn:E;
    unfold B in H; cbn in H; rewrite E in H; try discriminate.
  injection H as -> <-. destruct parts as (Ex & _). rewrite Ex. destruct (random_solved e e' states E) as (_ & powers & first & next & T1 & T2).
  exists states, powers, first, next. split; [exact T1|]. split; [exact T2|]. split; [apply (noisy_cost e e' states E)|].
  split; [apply (noisy_constraints e e' states E variables V)|]. intros Sc [Gr J] (e1 & e2 & D). apply (f_equal snd) in D.
  split; [apply (noisy_gradient e e' states E Sc Gr J D)|apply (noisy_jacobian e e' states E Sc Gr J D variables V)].
Qed.
End Point.

Section History.
Variables (st0 : list R) (d0 : (nat -> vec) * (nat -> R)) (e0 : list drawn) (h : list (Optim_Model.callback B)).
Hypothesis Hh : Optim_Spec.announced B None h.
Let replies := map snd (Optim_Model.run (Optim_Model.fresh (B:=B) st0 d0 e0) h).
Variable variables : list nat.
Hypothesis HV : Forall2 (variable_at N) sinks variables.

Lemma grown_simulation e c e' r : Optim_Model.simulate B e c = (e', r) -> grown nan nodes e e'.
Proof.
  unfold B. cbn. destruct (noisy_simulation sampling nan factor linsolve fuel sfuel cfg nodes edges o e c) as [rr e1] eqn:E.
  pose proof (simulate_grows (noisy_problem sampling nan factor linsolve nodes edges (o_nx o)) fuel sfuel cfg (mapped_controls o c)
    (grown nan nodes) (grown_refl nan nodes) (grown_trans nan nodes)
    (fun e t0 t1 x c e1 He => grown_prepare sampling nan nodes edges e t0 t1 x c e1 He) _ _ _ _ _ E) as Q.
  intro H. destruct rr as [[?| |]|]; injection H as <- _; exact Q.
Qed.
Lemma grown_derivative e c x e' r : Optim_Model.derive B e c x = (e', r) -> grown nan nodes e e'.
Proof. unfold B. cbn. intro H. injection H as <- _. apply grown_refl. Qed.

Theorem random_answers :
  exists (states : nat -> list vec) (powers : nat -> nat -> nat -> R * R) (first next : nat -> nat -> nat -> nat),
    (forall i cb c new r, nth_error h i = Some cb -> Optim_Spec.asks B cb = Some (c, new) -> table_of ct m c -> nth_error replies i = Some (Some r) ->
       exists U, random_trajectory ns samples_of N eps st ct x0 c (states i) U (powers i) (first i) (next i) /\
         (cb = Optim_Model.EvalF c new -> r = Optim_Model.Number (total_cost N st U)) /\
         (cb = Optim_Model.EvalG c new -> exists g, r = Optim_Model.Vector g /\ constraints_right variables st cons (states i) g) /\
         (cb = Optim_Model.EvalGradF c new -> exists g, r = Optim_Model.Vector g /\ (solver_correct n solve -> random_gradient_right ns N st ct c (states i) g)) /\
         (cb = Optim_Model.EvalJacG c new -> exists g, r = Optim_Model.Vector g /\
            (solver_correct n solve -> random_jacobian_right ns N variables st ct cons c (states i) (Jac_Model.supply_indices (constraint_jacobian o)) g))) /\
    (forall i j cb c new r cb' c' new', (i < j < List.length h)%nat -> nth_error h i = Some cb -> Optim_Spec.asks B cb = Some (c, new) ->
       nth_error replies i = Some (Some r) -> nth_error h j = Some cb' -> Optim_Spec.asks B cb' = Some (c', new') ->
       (forall k cb c, (i < k <= j)%nat -> nth_error h k = Some cb -> Optim_Spec.asks B cb <> Some (c, true)) ->
       c' = c /\ states j = states i /\ powers j = powers i /\ first j = first i /\ next j = next i) /\
    (forall i j cb c new r cb' c' new' r' k cb'' c'', (i < k <= j)%nat ->
       nth_error h i = Some cb -> Optim_Spec.asks B cb = Some (c, new) -> table_of ct m c -> nth_error replies i = Some (Some r) ->
       nth_error h j = Some cb' -> Optim_Spec.asks B cb' = Some (c', new') -> table_of ct m c' -> nth_error replies j = Some (Some r') ->
       nth_error h k = Some cb'' -> Optim_Spec.asks B cb'' = Some (c'', true) ->
       forall a b p, (S a < List.length st)%nat -> (S b < List.length st)%nat -> (p < List.length nodes)%nat -> (next i a p <= first j b p)%nat).
Proof.
  set (start := Optim_Model.fresh (B:=B) st0 d0 e0).
  set (s0 := ([], e0, e0) : origin B).
  assert (I0 : Optim_Proofs.inv B None start) by (apply Optim_Proofs.inv_none; reflexivity).
  assert (C0 : comes_from B (grown nan nodes) None s0 start) by (intro Q; discriminate).
  assert (Hrep : forall i r, nth_error replies i = Some r -> exists o', nth_error (Optim_Model.run start h) i = Some (o', r)).
  { intros i r H. unfold replies in H. rewrite nth_error_map in H. fold start in H.
    destruct (nth_error (Optim_Model.run start h) i) as [[o' r']|]; [|discriminate]. cbn in H. exists o'. congruence. }
  assert (Hsrc : forall i cb, nth_error h i = Some cb -> nth_error (sources B start s0 h) i = Some (nth i (sources B start s0 h) s0)).
  { intros i cb H. apply nth_error_nth'. rewrite sources_length. apply nth_error_Some. congruence. }
  pose (Good := fun (s : origin B) (T : list vec * (nat -> nat -> R * R) * (nat -> nat -> nat) * (nat -> nat -> nat)) (X : list R) =>
    random_trajectory ns samples_of N eps st ct x0 (fst (fst s)) (fst (fst (fst T))) (along N st ct (fst (fst s))) (snd (fst (fst T))) (snd (fst T)) (snd T) /\
    (forall k j, (S k < List.length st)%nat -> (j < List.length nodes)%nat ->
       (samples (nth j (before B s) (undrawn nan)) <= snd (fst T) k j)%nat /\ (snd T k j <= samples (nth j (behind B s) (undrawn nan)))%nat) /\
    Optim_Model.b_cost B (fst (fst s)) X + Optim_Model.b_penalty B (fst (fst s)) X = total_cost N st (along N st ct (fst (fst s))) /\
    constraints_right variables st cons (fst (fst (fst T))) (Optim_Model.b_constr B (fst (fst s)) X) /\
    (solver_correct n solve -> forall d, Optim_Spec.derivatives_at B (fst (fst s)) X d ->
      random_gradient_right ns N st ct (fst (fst s)) (fst (fst (fst T))) (Optim_Model.gradient_of B d) /\
      random_jacobian_right ns N variables st ct cons (fst (fst s)) (fst (fst (fst T))) (Jac_Model.supply_indices (constraint_jacobian o)) (Optim_Model.jacobian_of B d))).
  destruct (functional_choice (fun (s : origin B) T => table_of ct m (fst (fst s)) ->
    forall X, Optim_Model.simulate B (before B s) (fst (fst s)) = (behind B s, Some X) -> Good s T X)) as [F HF].
  { intros [[c e] e']. cbn [fst snd before behind]. destruct (Classical_Prop.classic (table_of ct m c /\ exists X, Optim_Model.simulate B e c = (e', Some X))) as [[Tc [X S]]|No].
    - destruct (random_simulation c Tc e e' X variables HV S) as (states & powers & first & next & R). exists (states, powers, first, next). intros _ X' S'.
      assert (EX : X' = X). { pose proof (eq_trans (eq_sym S') S) as Q. injection Q as Q. exact Q. } subst X'. exact R.
    - exists ([], fun _ _ => (0, 0), fun _ _ => 0%nat, fun _ _ => 0%nat). intros Tc X S. exfalso. apply No. eauto. }
  set (T := fun i => F (nth i (sources B start s0 h) s0)).
  assert (Got : forall i cb c new r, nth_error h i = Some cb -> Optim_Spec.asks B cb = Some (c, new) -> table_of ct m c -> nth_error replies i = Some (Some r) ->
    exists X, Optim_Spec.right_answer B cb X r /\ fst (fst (nth i (sources B start s0 h) s0)) = c /\ Good (nth i (sources B start s0 h) s0) (T i) X).
  { intros i cb c new r Hi Ha Tc Hr. destruct (Hrep i _ Hr) as [o' Hro].
    destruct (source_right B (grown nan nodes) (grown_refl nan nodes) (grown_trans nan nodes) grown_simulation grown_derivative h None start s0 I0 C0 Hh i cb c new o' r _ Hi Ha Hro (Hsrc i cb Hi)) as [E1 E2].
    exists (Optim_Model.cached_states o'). split; [apply (Optim_Proofs.run_right B None h start I0 Hh i cb o' (Some r) Hi Hro)|]. split; [exact E1|].
    apply (HF (nth i (sources B start s0 h) s0)); rewrite E1; [exact Tc|exact E2]. }
  exists (fun i => fst (fst (fst (T i)))), (fun i => snd (fst (fst (T i)))), (fun i => snd (fst (T i))), (fun i => snd (T i)). split; [|split].
  - intros i cb c new r Hi Ha Tc Hr. destruct (Got i cb c new r Hi Ha Tc Hr) as (X & A & Ec & R1 & _ & R2 & R3 & R4). rewrite Ec in R1, R2, R3, R4.
    exists (along N st ct c). split; [exact R1|]. split; [|split; [|split]].
    + intros ->. unfold Optim_Spec.right_answer in A. destruct r as [y|y|]; try contradiction. destruct A as [_ ->]. f_equal. exact R2.
    + intros ->. unfold Optim_Spec.right_answer in A. destruct r as [y|y|]; try contradiction. destruct A as [_ ->]. eexists. split; [reflexivity|exact R3].
    + intros ->. unfold Optim_Spec.right_answer in A. destruct r as [y|y|]; try contradiction. destruct A as (_ & d & D & ->). eexists. split; [reflexivity|]. intro Sc. apply (R4 Sc d D).
    + intros ->. unfold Optim_Spec.right_answer in A. destruct r as [y|y|]; try contradiction. destruct A as (_ & d & D & ->). eexists. split; [reflexivity|]. intro Sc. apply (R4 Sc d D).
  - intros i j cb c new r cb' c' new' L Hi Ha Hr Hj Ha' Hn.
    assert (Ec : c' = c) by (apply (same_point_from B h None i j cb c new cb' c' new' Hh (proj1 L) Hi Ha Hj Ha' Hn)). subst c'.
    destruct (Hrep i _ Hr) as [o' Hro].
    destruct (source_order B (grown nan nodes) (grown_refl nan nodes) (grown_trans nan nodes) grown_simulation grown_derivative h None start s0 I0 C0 Hh i j cb c new o' r _ _ (proj1 L) Hi Ha Hro (Hsrc i cb Hi) (Hsrc j cb' Hj)) as (_ & _ & Eq).
    assert (Q : T j = T i) by (unfold T; rewrite (Eq Hn); reflexivity). rewrite Q. auto.
  - intros i j cb c new r cb' c' new' r' k cb'' c'' L Hi Ha Tc Hr Hj Ha' Tc' Hr' Hk Ha'' a b p La Lb Lp.
    destruct (Hrep i _ Hr) as [o' Hro].
    destruct (source_order B (grown nan nodes) (grown_refl nan nodes) (grown_trans nan nodes) grown_simulation grown_derivative h None start s0 I0 C0 Hh i j cb c new o' r _ _ ltac:(lia) Hi Ha Hro (Hsrc i cb Hi) (Hsrc j cb' Hj)) as (_ & Le & _).
    specialize (Le k cb'' c'' L Hk Ha'' p Lp).
    destruct (Got i cb c new r Hi Ha Tc Hr) as (X & _ & _ & _ & Bi & _). destruct (Got j cb' c' new' r' Hj Ha' Tc' Hr') as (X' & _ & _ & _ & Bj & _).
    destruct (Bi a p La Lp) as [_ B1]. destruct (Bj b p Lb Lp) as [B2 _]. lia.
Qed.
End History.
End Callbacks.
