(** * Proofs: the powers drawn in a time step *)
From Coq Require Import Reals ZArith Lra Lia List Bool Arith String.
From Verif Require Import Base Interp_Model Json_Model Json_Spec Defaults_Model Controls_Model Calc Euler_Model Newton_Model Evolve_Model Evolve_Spec Evolve_Proofs
  Net_Model Net_Spec Net_Proofs Net_Proofs6 Net_Proofs8 States_Model States_Spec Factory_Proofs8 Sim_Model Sim_Spec Stoch_Model Input_Model Input_Spec
  Input_Proofs Input_Proofs2 Input_Proofs3 Noise_Model Noise_Spec Noise_Proofs Noise_Proofs2.
Import ListNotations.
Local Open Scope string_scope.
Local Open Scope list_scope.

(** ** Networks that differ only in boundary values *)
Definition same_node (t t' : nodetype) : Prop :=
  match t, t' with
  | Innode, Innode => True
  | Flownode s _, Flownode s' _ => s = s'
  | Pressurenode _, Pressurenode _ => True
  | Powernode k e G B _, Powernode k' e' G' B' _ => k = k' /\ e = e' /\ G = G' /\ B = B'
  | _, _ => False
  end.
Definition same_shape (N N' : network) : Prop := Forall2 same_node (Net_Model.nodes N) (Net_Model.nodes N') /\ Net_Model.edges N = Net_Model.edges N'.
Lemma same_self t : same_node t t.
Proof. destruct t; cbn; auto. Qed.
Lemma shape_nodes N N' : same_shape N N' -> forall j, match nth_error (Net_Model.nodes N) j, nth_error (Net_Model.nodes N') j with
  | Some t, Some t' => same_node t t' | None, None => True | _, _ => False end.
Proof. intros [F _]. induction F as [|t t' l l' Q F IH]; intros [|j]; [exact I|exact I|exact Q|apply IH]. Qed.
Lemma shape_sizes N N' : same_shape N N' -> state_sizes N = state_sizes N'.
Proof.
  intros [F E]. unfold state_sizes. rewrite E. f_equal. clear E. induction F as [|t t' l l' Q F IH]; [reflexivity|]. cbn [map]. rewrite IH. f_equal.
  destruct t, t'; try destruct Q; reflexivity.
Qed.
Lemma shape_well_formed N N' : same_shape N N' -> well_formed N -> well_formed N'.
Proof.
  intros S. pose proof (shape_nodes _ _ S) as H. destruct S as [_ E]. unfold well_formed. rewrite <- E. apply Forall_impl. intros e [A B]. split; [exact A|].
  assert (Gg : forall j, is_gas_node N j -> is_gas_node N' j).
  { intro j. unfold is_gas_node. specialize (H j). destruct (nth_error (Net_Model.nodes N) j) as [t|], (nth_error (Net_Model.nodes N') j) as [t'|]; try tauto. destruct t, t'; cbn in H; tauto. }
  assert (Gp : forall j, is_power_node N j -> is_power_node N' j).
  { intro j. unfold is_power_node. specialize (H j). destruct (nth_error (Net_Model.nodes N) j) as [t|], (nth_error (Net_Model.nodes N') j) as [t'|]; try tauto. destruct t, t'; cbn in H; tauto. }
  destruct (e_type e); intuition.
Qed.
Lemma shape_pipes N N' : same_shape N N' -> pipes_ok N -> pipes_ok N'.
Proof. intros [_ E]. unfold pipes_ok. rewrite E. auto. Qed.
Lemma shape_number N N' : same_shape N N' -> number_of_states N = number_of_states N'.
Proof. intro S. unfold number_of_states. rewrite (shape_sizes _ _ S). reflexivity. Qed.

Section Draws.
Context {G : Type}.
Variables (sampling : G -> stream) (nan : R) (nodes : list (noisy_node G)) (edges : list made_edge).
Notation N := (network_of (map nn_node nodes) edges).

Lemma noisy_same e : same_shape N (noisy_network nan nodes edges e).
Proof.
  split; [|reflexivity]. cbn [Net_Model.nodes network_of noisy_network]. unfold with_drawn. rewrite !map_map. cbn [fst snd].
  generalize 0%nat. clear. induction nodes as [|n l IH]; intro k; [constructor|]. cbn [List.length seq combine map fst snd]. constructor; [|apply IH].
  unfold noisy_type. destruct (nn_noise n); [|apply same_self]. destruct (nodetype_of (nn_node n)); cbn; auto.
Qed.
Lemma noisy_boundary e t : boundary_defined N t -> boundary_defined (noisy_network nan nodes edges e) t.
Proof.
  intros H j. specialize (H j). destruct (nth_error nodes j) as [n|] eqn:En.
  - rewrite (noisy_nodes nan nodes edges e j n En). cbn [Net_Model.nodes network_of] in H. rewrite !nth_error_map, En in H. cbn [option_map] in H.
    unfold noisy_type. destruct (nn_noise n); [|destruct (nodetype_of (nn_node n)); exact H].
    destruct (nodetype_of (nn_node n)); try exact H. eexists. reflexivity.
  - cbn. rewrite nth_error_map. assert (X : nth_error (with_drawn nan nodes e) j = None) by (apply nth_error_None; rewrite with_drawn_length; apply nth_error_None, En).
    rewrite X. exact I.
Qed.

(** Samples are never used twice. *)
Definition grown (e e' : list drawn) : Prop :=
  forall j, (j < List.length nodes)%nat -> (samples (nth j e (undrawn nan)) <= samples (nth j e' (undrawn nan)))%nat.
Lemma grown_refl e : grown e e.
Proof. intros j _. lia. Qed.
Lemma grown_trans a b c : grown a b -> grown b c -> grown a c.
Proof. intros H K j L. specialize (H j L). specialize (K j L). lia. Qed.
Lemma sample_more (s : stochastic_data G) draw k last th mean dt sg v k' : sample_path s draw k last th mean dt sg = Ok (v, k') -> (k <= k')%nat.
Proof. unfold sample_path. intro H. apply obind_Ok in H. destruct H as (n & _ & H). apply omap_Ok in H. destruct H as (w & _ & H). injection H as _ ->. lia. Qed.
Lemma prepared_node e t0 t1 x c e' j n : prepare_all sampling nan nodes edges e t0 t1 x c = Ok e' -> nth_error nodes j = Some n ->
  prepare_node sampling N t0 t1 x (j, (n, nth j e (undrawn nan))) = Ok (nth j e' (undrawn nan)).
Proof.
  unfold prepare_all. intros H En. destruct (omapM_nth _ _ _ j _ H (nth_with_drawn nan nodes e j n En)) as (d & Ed & Ej).
  rewrite Ed. f_equal. symmetry. apply nth_error_nth, Ej.
Qed.
Lemma grown_prepare e t0 t1 x c e' : prepare_all sampling nan nodes edges e t0 t1 x c = Ok e' -> grown e e'.
Proof.
  intros H j L. destruct (nth_error nodes j) as [n|] eqn:En; [|apply nth_error_None in En; lia]. pose proof (prepared_node _ _ _ _ _ _ _ _ H En) as Q.
  unfold prepare_node in Q. destruct (nn_noise n) as [s|]; [|injection Q as <-; lia]. destruct (mn_data (nn_node n)); try (injection Q as <-; lia).
  apply obind_Ok in Q. destruct Q as (lP & _ & Q). apply obind_Ok in Q. destruct Q as (mP & _ & Q). apply obind_Ok in Q. destruct Q as ([vP kP] & Q1 & Q).
  apply obind_Ok in Q. destruct Q as (lQ & _ & Q). apply obind_Ok in Q. destruct Q as (mQ & _ & Q). apply obind_Ok in Q. destruct Q as ([vQ kQ] & Q2 & Q).
  injection Q as <-. apply sample_more in Q1. apply sample_more in Q2. cbn [samples fst snd] in *. lia.
Qed.

(** The powers of node [j]. *)
Lemma node_powers j kd ext Gc B iv n x : well_formed N -> nth_error nodes j = Some n -> mn_data (nn_node n) = DPower kd ext Gc B iv ->
  P (power_of N j) x = Ok (fst (power N j Gc B x)) /\ Q (power_of N j) x = Ok (snd (power N j Gc B x)).
Proof.
  intros W En D. assert (E : nth_error (Net_Model.nodes N) j = Some (Powernode kd ext Gc B (Input_Model.boundary_of iv))).
  { cbn. rewrite !nth_error_map, En. cbn. unfold nodetype_of. rewrite D. reflexivity. }
  destruct (lines_ok N j W) as (l & L1 & _).
  assert (L2 : lines_known (pn_lines (power_of N j)) l) by (unfold power_of; rewrite E; exact L1).
  rewrite (power_value N j kd ext Gc B (Input_Model.boundary_of iv) l x W E L2). rewrite (P_ok _ l), (Q_ok _ l) by exact L2. auto.
Qed.
Lemma boundary_value iv t i y : boundary_at iv t i = Ok y -> exists v, Input_Model.boundary_of iv t = Ok v /\ y = v i.
Proof.
  intro H. unfold boundary_at in H. apply obind_Ok in H. destruct H as (row & Q1 & Q2). unfold Input_Model.boundary_of. rewrite Q1. eexists. split; [reflexivity|].
  unfold get in Q2. unfold vec_of. destruct (nth_error row i) eqn:En; [|discriminate]. injection Q2 as <-. symmetry. apply nth_error_nth, En.
Qed.
Lemma step_drawn e t0 t1 x c e' j n s kd ext Gc B iv data o : well_formed N ->
  prepare_all sampling nan nodes edges e t0 t1 x c = Ok e' -> nth_error nodes j = Some n -> nn_noise n = Some s ->
  mn_data (nn_node n) = DPower kd ext Gc B iv ->
  (exists pcg en, stochastic_ctor (G := G) pcg en data = Ok (s, o)) ->
  exists mean, Input_Model.boundary_of iv t1 = Ok mean /\
    powers_drawn data (sampling (distribution s)) (samples (nth j e (undrawn nan))) (samples (nth j e' (undrawn nan)))
      (power N j Gc B x) (mean 0%nat, mean 1%nat) (t1 - t0)%R (powers_in nan e' j).
Proof.
  intros W H En Es D (pcg & en & Cs). destruct (stochastic_inv _ _ _ _ _ Cs) as (D1 & D2 & _).
  pose proof (prepared_node _ _ _ _ _ _ _ _ H En) as Q0. destruct (node_powers j kd ext Gc B iv n x W En D) as [Pv Qv].
  unfold powers_in. cbv zeta. generalize dependent (nth j e' (undrawn nan)). intros d' Q0. generalize dependent (nth j e (undrawn nan)). intros d Q0.
  unfold prepare_node in Q0. rewrite Es, D, Pv, Qv in Q0. cbn [obind] in Q0.
  apply obind_Ok in Q0. destruct Q0 as (mP & M1 & Q0). apply obind_Ok in Q0. destruct Q0 as ([vP kP] & Q1 & Q0).
  apply obind_Ok in Q0. destruct Q0 as (mQ & M2 & Q0). apply obind_Ok in Q0. destruct Q0 as ([vQ kQ] & Q2 & Q0).
  injection Q0 as <-. cbn [fst snd current_P current_Q samples] in *.
  destruct (boundary_value _ _ _ _ M1) as (v & Ev & ->). destruct (boundary_value _ _ _ _ M2) as (v' & Ev' & ->). assert (v' = v) by congruence. subst v'.
  exists v. split; [exact Ev|]. exists (process_P s), (process_Q s), kP. split; [exact D1|]. split; [exact D2|]. cbn [fst snd].
  split; [apply (sample_end _ _ _ _ _ _ _ _ _ _ Q1)|apply (sample_end _ _ _ _ _ _ _ _ _ _ Q2)].
Qed.
End Draws.
