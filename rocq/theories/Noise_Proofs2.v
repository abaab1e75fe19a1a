(** * Proofs: preparing a simulation with stochastic nodes, and its time steps *)
From Coq Require Import Reals ZArith Lra Lia List Bool Arith String.
From Verif Require Import Base Interp_Model Json_Model Json_Spec Json_Proofs Defaults_Model Controls_Model Calc Euler_Model Newton_Model Evolve_Model Evolve_Spec Evolve_Proofs
  Net_Model Net_Spec States_Model States_Spec Factory_Model Factory_Spec Factory_Proofs8 Sim_Model Sim_Spec Stoch_Model Input_Model Input_Spec
  Input_Proofs Input_Proofs2 Input_Proofs3 Noise_Model Noise_Spec Noise_Proofs.
Import ListNotations.
Local Open Scope string_scope.
Local Open Scope list_scope.

(** ** Components whose types differ *)
Definition retyped (c d : state_component) : Prop :=
  sc_class c = sc_class d /\ sc_id c = sc_id d /\ sc_start c = sc_start d /\ sc_kind c = sc_kind d.
Lemma Forall2_flat {A B C D} (P : A -> B -> Prop) (Q : C -> D -> Prop) f g l m :
  (forall a b, P a b -> Forall2 Q (f a) (g b)) -> Forall2 P l m -> Forall2 Q (flat_map f l) (flat_map g m).
Proof. intros H F. induction F as [|a b l m X F IH]; [constructor|]. cbn. apply Forall2_app; auto. Qed.
Lemma Forall2_same {A} (P : A -> A -> Prop) l : (forall a, P a a) -> Forall2 P l l.
Proof. intro H. induction l; constructor; auto. Qed.
Lemma mean_components nodes edges : Forall2 retyped (state_components_of nodes edges) (state_components_of (map mean_node nodes) edges).
Proof.
  unfold state_components_of. rewrite mean_network, map_length. apply Forall2_app; [|apply Forall2_same; unfold retyped; auto].
  apply (Forall2_flat (fun a b => b = (fst a, mean_node (snd a)))).
  - intros [j m] b ->. cbn [fst snd]. unfold node_states_of. cbn [fst snd]. change (mn_data (mean_node m)) with (mn_data m).
    destruct (mn_data m); repeat constructor.
  - generalize 0%nat. induction nodes as [|m l IH]; intro k; [constructor|]. cbn [List.length seq combine map]. constructor; [reflexivity|apply IH].
Qed.
Lemma retyped_indices cs ds : Forall2 retyped cs ds -> forall k, Forall2 retyped (fst (set_state_indices k cs)) (fst (set_state_indices k ds)) /\
  snd (set_state_indices k cs) = snd (set_state_indices k ds).
Proof.
  induction 1 as [|c d cs ds (A & B & C & D) F IH]; intro k; [repeat constructor|]. cbn [set_state_indices fst snd]. rewrite D.
  destruct (IH (k + needed_number_of_states (sc_kind d))%nat) as [I1 I2]. split; [|exact I2]. constructor; [|exact I1]. unfold retyped. cbn. auto.
Qed.
Lemma retyped_initial uninit cs ds v j : Forall2 retyped cs ds -> set_initial_values uninit cs v j = set_initial_values uninit ds v j.
Proof.
  intro F. unfold set_initial_values.
  assert (E : map sc_id cs = map sc_id ds) by (induction F as [|c d cs ds (A & B & C & D) F IH]; [reflexivity|cbn; congruence]).
  rewrite E. destruct (distribute (map sc_id ds) j) as [calls| |]; try reflexivity. cbn [obind]. revert v.
  induction calls as [|[n jn] calls IH]; intro v; [reflexivity|]. cbn [ofold fst snd].
  assert (X : obind (get cs n) (fun c => component_initial uninit c v jn) = obind (get ds n) (fun c => component_initial uninit c v jn)).
  { clear -F. revert n. induction F as [|c d cs ds (A & B & C & D) F IH]; intros [|n]; try reflexivity.
    - cbn. unfold component_initial. rewrite C, D. reflexivity.
    - unfold get in *. cbn [nth_error]. apply IH. }
  rewrite X. destruct (obind (get ds n) _); try reflexivity. cbn [obind]. apply IH.
Qed.

Lemma noisy_prepared {G} (pcg : (nat -> list Z) -> G) entropy uninit read directory p nodes :
  prepare_noisy pcg entropy uninit read directory = Ok (p, nodes) ->
  exists all settings problem ns es t initial controls nc,
    read (directory ++ "/problem_data.json")%string = Ok all /\ entry_of all "simulation_settings" = Some settings /\
    problem_of all directory problem /\ build_net read (the_defaults (Some all)) problem = Ok (ns, es) /\
    construct_noisy pcg entropy uninit (ns, es) = Ok (nodes, pp_edges p) /\ pp_nodes p = map nn_node nodes /\
    set_state_indices 0 (state_components_of (pp_nodes p) (pp_edges p)) = (pp_states p, pp_number p) /\
    timedata_ctor settings = Ok t /\ points_of t = Ok (pp_points p) /\ timeevolver_ctor settings = Ok (pp_settings p) /\
    read (directory ++ "/initial.json")%string = Ok initial /\
    set_initial_values uninit (pp_states p) (map uninit (seq 0 (pp_number p))) initial = Ok (pp_initial p) /\
    set_control_indices 0 (control_components_of (pp_edges p)) = (controls, nc) /\
    setup_controls uninit controls nc t all (read (directory ++ "/control.json")%string) = Ok (pp_controls p).
Proof.
  unfold prepare_noisy. intro H. apply obind_Ok in H. destruct H as (all & Ha & H). apply obind_Ok in H. destruct H as ([all1 settings] & Hs & H).
  cbn [fst snd] in H. apply obind_Ok in H. destruct H as ([all2 pd] & Hp & H). cbn [fst snd] in H.
  apply obind_Ok in H. destruct H as (problem & Hg & H). apply obind_Ok in H. destruct H as (initial & Hi & H).
  apply obind_Ok in H. destruct H as (t & Ht & H). apply obind_Ok in H. destruct H as (cfg & Hc & H).
  apply obind_Ok in H. destruct H as (d & Hd & H). destruct (negb (is_object d)); [discriminate|].
  apply obind_Ok in H. destruct H as ([ns es] & Hb & H). apply obind_Ok in H. destruct H as ([noisy edges] & Hn & H).
  destruct (set_state_indices 0 (state_components_of (map nn_node noisy) edges)) as [states n] eqn:Si.
  destruct (set_control_indices 0 (control_components_of edges)) as [controls nc] eqn:Ci.
  destruct (negb (setup_ok (network_of (map nn_node noisy) edges))); [discriminate|].
  apply obind_Ok in H. destruct H as (x & Hx & H). apply obind_Ok in H. destruct H as (points & Hpt & H).
  apply obind_Ok in H. destruct H as (fc & Hfc & H). injection H as <- <-. cbn [pp_nodes pp_edges pp_states pp_number pp_points pp_settings pp_initial pp_controls].
  destruct (at_mut_cases _ _ _ _ Hs) as [[Es ->]|[_ ->]]; [|discriminate].
  destruct (assign_other _ _ _ _ Hg) as [Eg Eo].
  destruct (at_mut_cases _ _ _ _ Hp) as [[Ep ->]|[_ ->]].
  2: { exfalso. apply (build_needs_topology _ _ _ _ Hb). rewrite Eo by discriminate. reflexivity. }
  assert (Dd : d = the_defaults (Some all)).
  { rewrite (value_default pd problem d Eo Hd). unfold the_defaults. rewrite Ep. reflexivity. }
  rewrite Dd in Hb. exists all, settings, problem, ns, es, t, initial, controls, nc.
  split; [exact Ha|]. split; [exact Es|]. split; [exists pd; auto|]. auto 20.
Qed.
(** The same with the entries and components of the mean values. *)
Lemma mean_indices nodes edges comps n : set_state_indices 0 (state_components_of nodes edges) = (comps, n) ->
  exists comps', set_state_indices 0 (state_components_of (map mean_node nodes) edges) = (comps', n) /\ Forall2 retyped comps comps'.
Proof.
  intro H. destruct (retyped_indices _ _ (mean_components nodes edges) 0) as [A B]. rewrite H in A, B. cbn [fst snd] in A, B.
  exists (fst (set_state_indices 0 (state_components_of (map mean_node nodes) edges))). split; [|exact A].
  rewrite (surjective_pairing (set_state_indices 0 (state_components_of (map mean_node nodes) edges))) at 1. rewrite <- B. reflexivity.
Qed.

(** ** Steps of a simulation *)
Section Steps.
Variable P : problem.
Variables fuel sfuel : nat.
Variable cfg : tsettings.
Variable controls : ivec.
(** A relation that every preparation respects. *)
Variable le : pr_env P -> pr_env P -> Prop.
Hypothesis le_refl : forall e, le e e.
Hypothesis le_trans : forall a b c, le a b -> le b c -> le a c.
Hypothesis le_prepare : forall e t0 t1 x c e', pr_prepare P e t0 t1 x c = Ok e' -> le e e'.

(** [accepted] with the mutable parts before and after the preparation. *)
Definition accepted_from (t0 t1 : R) (x y : pr_vec P) (e0 e1 : pr_env P) : Prop :=
  exists c full sol,
    (iinner controls = 0%nat /\ c = [] \/ (0 < iinner controls)%nat /\ interp_at controls t1 = Ok c) /\
    pr_prepare P e0 t0 t1 x c = Ok e1 /\ solve (system_of P e1 t0 t1 x c) fuel (newton cfg) full x = Some (Ok (y, sol)) /\ success sol = true.
Lemma accepted_again t0 t1 x y e0 e1 : accepted_from t0 t1 x y e0 e1 -> accepted P (newton cfg) fuel controls t0 t1 x y e1.
Proof. intros (c & full & sol & H1 & H2 & H3 & H4). exists c, e0, full, sol. auto. Qed.

Lemma step_from t0 t1 x c e y sol e' log : time_step P fuel sfuel cfg t0 t1 x x c e = (Some (Ok (y, sol)), e', log) ->
  current_controls controls t1 = Ok c -> exists e0, le e e0 /\ accepted_from t0 t1 x y e0 e'.
Proof.
  intros H Hc. unfold time_step in H. apply make_one_step_spec in H. destruct H as [W [H _]]. destruct (H y sol eq_refl) as [Hs [a [Ha [Hb Hr]]]].
  destruct (wb_start _ _ _ _ _ _ _ W _ _ Ha) as [_ [_ Hsol]].
  assert (All : forall k b, nth_error log k = Some b -> exists e0, le e e0 /\ pr_prepare P e0 t0 t1 x c = Ok (at_env b)).
  { induction k as [|k IH]; intros b Eb.
    - exists e. split; [apply le_refl|]. apply (wb_first _ _ _ _ _ _ _ W b Eb).
    - destruct (nth_error log k) as [b0|] eqn:E0.
      + destruct (IH b0 eq_refl) as (e0 & L & Q). exists (at_env b0). split; [|apply (wb_next _ _ _ _ _ _ _ W k b0 b E0 Eb)].
        eapply le_trans; [exact L|]. eapply le_prepare, Q.
      + exfalso. apply nth_error_None in E0. assert (X : (S k < List.length log)%nat) by (apply nth_error_Some; congruence). lia. }
  destruct (All _ a Ha) as (e0 & L & Q). subst e'. exists e0. split; [exact L|]. exists c, (at_full a), sol.
  split; [|split; [exact Q|split; [|exact Hs]]].
  - unfold current_controls in Hc. destruct (Nat.ltb_spec 0 (iinner controls)); [right; auto|left; split; [lia|congruence]].
  - rewrite Hr in Hsol. symmetry. exact Hsol.
Qed.
Lemma loop_chain : forall times t0 x e rows e', simulate_loop P fuel sfuel cfg controls times t0 x x e = (Some (Ok rows), e') ->
  List.length rows = List.length times /\ exists (before after : nat -> pr_env P),
    le e (before 0%nat) /\ (times = [] -> e' = e) /\
    (forall k, S k = List.length times -> after k = e') /\
    (forall k, le (after k) (before (S k))) /\
    forall k a b u v, consecutive P (t0 :: times) (x :: rows) k a b u v -> accepted_from a b u v (before k) (after k).
Proof.
  induction times as [|t1 times IH]; intros t0 x e rows e' H; cbn [simulate_loop] in H.
  { injection H as <- <-. split; [reflexivity|]. exists (fun _ => e), (fun _ => e). split; [apply le_refl|]. split; [reflexivity|]. split; [intros k Q; discriminate|].
    split; [intro; apply le_refl|]. intros [|k] a b u v (_ & Q & _); [discriminate|destruct k; discriminate]. }
  destruct (current_controls controls t1) as [c| |] eqn:Ec; try discriminate.
  destruct (time_step P fuel sfuel cfg t0 t1 x x c e) as [[[[[y sol]| |]|] e1] log] eqn:Et; try discriminate.
  destruct (success sol); [|discriminate].
  destruct (simulate_loop P fuel sfuel cfg controls times t1 y y e1) as [[[rows1| |]|] e2] eqn:El; try discriminate.
  injection H as <- <-. destruct (IH _ _ _ _ _ El) as (Ln & before & after & B0 & Bn & Be & Bl & Bs).
  destruct (step_from _ _ _ _ _ _ _ _ _ Et Ec) as (e0 & L0 & A0). split; [cbn; congruence|].
  exists (fun k => match k with O => e0 | S k' => before k' end), (fun k => match k with O => e1 | S k' => after k' end).
  split; [exact L0|]. split; [discriminate|]. split; [|split].
  - intros [|k] Hk; cbn [List.length] in Hk; [|apply Be; lia]. symmetry. apply Bn. destruct times; [reflexivity|discriminate].
  - intros [|k]; [exact B0|apply Bl].
  - intros [|k] a b u v (Ha & Hb & Hu & Hv).
    + cbn in Ha, Hb, Hu, Hv. injection Ha as <-. injection Hb as <-. injection Hu as <-. injection Hv as <-. exact A0.
    + apply Bs. repeat split; assumption.
Qed.
Lemma simulate_chain points x e rows e' : simulate P fuel sfuel cfg controls points x e = (Some (Ok rows), e') ->
  List.length rows = List.length points /\ (2 <= List.length points)%nat /\ nth_error rows 0 = Some x /\ exists (before after : nat -> pr_env P),
    le e (before 0%nat) /\ after (List.length points - 2)%nat = e' /\ (forall k, le (after k) (before (S k))) /\
    forall k a b u v, consecutive P points rows k a b u v -> accepted_from a b u v (before k) (after k).
Proof.
  unfold simulate. destruct points as [|t0 [|t1 rest]]; try discriminate. destruct (current_controls controls t1); try discriminate.
  destruct (simulate_loop P fuel sfuel cfg controls (t1 :: rest) t0 x x e) as [[[rows1| |]|] e2] eqn:El; try discriminate.
  intro H; injection H as <- <-. destruct (loop_chain _ _ _ _ _ _ El) as (Ln & before & after & B0 & Bn & Be & Bl & Bs).
  split; [cbn [List.length] in *; congruence|]. split; [cbn; lia|]. split; [reflexivity|]. exists before, after. split; [exact B0|]. split; [|auto].
  apply Be. cbn [List.length]. lia.
Qed.
End Steps.

(** ** The network of a step *)
Section Network.
Context {G : Type}.
Variables (sampling : G -> stream) (nan : R) (nodes : list (noisy_node G)) (edges : list made_edge).
Notation N := (network_of (map nn_node nodes) edges).

Lemma nth_with_drawn e j n : nth_error nodes j = Some n -> nth_error (with_drawn nan nodes e) j = Some (j, (n, nth j e (undrawn nan))).
Proof. intro H. unfold with_drawn. rewrite nth_error_map, (nth_numbered nodes 0 j n H). reflexivity. Qed.
Lemma with_drawn_length e : List.length (with_drawn nan nodes e) = List.length nodes.
Proof. unfold with_drawn. rewrite map_length, combine_length, seq_length. apply Nat.min_id. Qed.
Lemma noisy_nodes e j n : nth_error nodes j = Some n ->
  nth_error (Net_Model.nodes (noisy_network nan nodes edges e)) j = Some (noisy_type (nth j e (undrawn nan)) n).
Proof. intro H. cbn. rewrite nth_error_map, (nth_with_drawn e j n H). reflexivity. Qed.

(** The current values of the nodes. *)
Definition powers_in (e : list drawn) (j : nat) : R * R := let d := nth j e (undrawn nan) in (current_P d, current_Q d).
(** Which nodes are stochastic. *)
Definition noisy_as (ns : list (string * json)) : Prop :=
  Forall2 (fun n entry => match nn_noise n with Some _ => fst entry = stochastic_type | None => fst entry <> stochastic_type end) nodes ns.
Lemma nth_ext_error {A} (l m : list A) : List.length l = List.length m -> (forall j a b, nth_error l j = Some a -> nth_error m j = Some b -> a = b) -> l = m.
Proof.
  revert m. induction l as [|a l IH]; intros [|b m] L H; try discriminate; [reflexivity|]. f_equal; [apply (H 0%nat); reflexivity|].
  apply IH; [cbn in L; lia|]. intros j x y. apply (H (S j)).
Qed.
Lemma noisy_is ns e : noisy_as ns -> noisy_network nan nodes edges e = with_powers ns (powers_in e) N.
Proof.
  intro H. pose proof (forall2_length _ _ _ H) as L. unfold with_powers, noisy_network. cbn [Net_Model.nodes Net_Model.edges network_of]. f_equal.
  apply nth_ext_error.
  - rewrite !map_length, with_drawn_length, combine_length, combine_length, seq_length, !map_length, L. lia.
  - intros j a b Ea Eb. rewrite nth_error_map in Ea, Eb.
    destruct (nth_error nodes j) as [n|] eqn:En.
    2:{ apply nth_error_None in En. rewrite (proj2 (nth_error_None (with_drawn nan nodes e) j)) in Ea by (rewrite with_drawn_length; lia). discriminate. }
    rewrite (nth_with_drawn e j n En) in Ea. cbn in Ea. injection Ea as <-.
    assert (X : exists entry, nth_error ns j = Some entry /\ match nn_noise n with Some _ => fst entry = stochastic_type | None => fst entry <> stochastic_type end).
    { clear -H En. revert j En. induction H as [|x y l m Q F IH]; intros [|j] E; try discriminate; cbn in *; [injection E as <-; eauto|]. apply IH, E. }
    destruct X as (entry & Ee & X).
    assert (Ec : nth_error (combine (seq 0 (List.length ns)) (combine ns (map nodetype_of (map nn_node nodes)))) j = Some (j, (entry, nodetype_of (nn_node n)))).
    { apply (nth_combine _ _ j j (entry, nodetype_of (nn_node n))).
      - rewrite nth_error_nth' with (d := 0%nat); [rewrite seq_nth; [reflexivity|]|rewrite seq_length]; rewrite <- L; apply nth_error_Some; congruence.
      - apply nth_combine; [exact Ee|]. rewrite !nth_error_map, En. reflexivity. }
    rewrite Ec in Eb. cbn [option_map] in Eb. injection Eb as <-. unfold noisy_type, powers_in.
    destruct (nn_noise n).
    + rewrite X. rewrite String.eqb_refl. destruct (nodetype_of (nn_node n)); reflexivity.
    + destruct (String.eqb_spec (fst entry) stochastic_type); [contradiction|]. destruct (nodetype_of (nn_node n)); reflexivity.
Qed.
End Network.
