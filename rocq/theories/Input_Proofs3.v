(** * Proofs: preparing and running a simulation *)
From Coq Require Import Reals ZArith Lra Lia List Bool Arith String.
From Verif Require Import Base Interp_Model Interp_Spec Interp_Props Json_Model Json_Spec Json_Proofs Defaults_Model Controls_Model Calc Euler_Model Newton_Model Evolve_Model
  Net_Model Net_Spec States_Model States_Spec Factory_Model Factory_Spec Factory_Props2 Factory_Proofs8 Sim_Model Sim_Spec Sim_Props
  Input_Model Input_Spec Input_Proofs Input_Proofs2.
From Verif Require Seed_Model Json_Proofs2.
Import ListNotations.
Local Open Scope string_scope.
Local Open Scope list_scope.

(** ** Settings *)
Lemma truncate_spec x : ((0 <= x)%R -> (IZR (Seed_Model.truncate x) <= x < IZR (Seed_Model.truncate x) + 1)%R) /\
  ((x < 0)%R -> (IZR (Seed_Model.truncate x) - 1 < x <= IZR (Seed_Model.truncate x))%R).
Proof.
  unfold Seed_Model.truncate. destruct (Rlt_dec x 0) as [H|H]; split; intro K; try lra.
  - destruct (archimed (- x)) as [A B]. rewrite opp_IZR, minus_IZR. lra.
  - destruct (archimed x) as [A B]. rewrite minus_IZR. lra.
Qed.
Lemma not_boolean f s ps fs k b : valid (S (S f)) s (JObj fs) = true -> keyword s "properties" = Some (JObj ps) ->
  field ps k = Some type_number -> field fs k = Some (JBool b) -> False.
Proof.
  intros V Kp Fp Ff. assert (I : In (k, JBool b) fs) by (apply Json_Proofs2.field_in, Ff).
  cbn [valid] in V. rewrite Kp in V.
  repeat (apply andb_true_iff in V; destruct V as [V ?]).
  match goal with H : forallb (fun kd => match field ps (fst kd) with _ => _ end) fs = true |- _ => rewrite forallb_forall in H; specialize (H _ I); cbn [fst snd] in H; rewrite Fp in H; cbn in H end.
  discriminate.
Qed.
Lemma timeevolver_of settings cfg : timeevolver_ctor settings = Ok cfg -> solver_of settings cfg.
Proof.
  unfold timeevolver_ctor. intro H. apply obind_Ok in H. destruct H as (schema & Hs & H). apply obind_Ok in H. destruct H as (u & Hv & H).
  apply obind_Ok in H. destruct H as (tol & Ht & H). apply obind_Ok in H. destruct H as (it & Hi & H). apply obind_Ok in H. destruct H as (re & Hr & H).
  apply obind_Ok in H. destruct H as (si & Hb & H). injection H as <-. cbn [newton tolerance maximal_iterations retries use_simplified_newton].
  vm_compute in Hs. injection Hs as <-. unfold validate_json in Hv.
  match type of Hv with context [valid ?d ?s ?j] => destruct (valid d s j) eqn:V; [|discriminate] end. clear Hv.
  assert (Nb : forall key, In key ["maximal_number_of_newton_iterations"; "retries"] -> forall b, entry_of settings key <> Some (JBool b)).
  { intros key I b E. destruct settings as [| | | | |fs]; try discriminate. cbn [entry_of] in E.
    match type of V with valid ?d _ _ = true => let d' := eval vm_compute in d in change d with d' in V end.
    eapply not_boolean; [exact V|reflexivity| |exact E]. destruct I as [<-|[<-|[]]]; reflexivity. }
  assert (In_ : forall key n, In key ["maximal_number_of_newton_iterations"; "retries"] -> int_at settings key = Ok n -> int_entry settings key n).
  { intros key n I Q. unfold int_at in Q. apply obind_Ok in Q. destruct Q as (v & E & Q). apply at_const_entry in E.
    destruct v as [|b|x| | |]; try discriminate.
    2: { cbn [get_int] in Q. destruct (_ && _)%bool in Q; [|discriminate]. injection Q as <-. exists x. split; [exact E|]. apply truncate_spec. }
    exfalso. apply (Nb key I b E). }
  unfold solver_of. cbn [newton tolerance maximal_iterations retries use_simplified_newton]. split; [apply number_at_entry, Ht|].
  split; [apply In_; cbn; auto|]. split; [apply In_; cbn; auto|].
  apply obind_Ok in Hb. destruct Hb as (v & E & Q). rewrite (at_const_entry _ _ _ E). destruct v; try discriminate. cbn in Q. congruence.
Qed.
Lemma points_grid settings t points : timedata_ctor settings = Ok t -> points_of t = Ok points -> times_of settings points.
Proof.
  unfold timedata_ctor. intros H P. apply obind_Ok in H. destruct H as (a & Ha & H). apply obind_Ok in H. destruct H as (b & Hb & H).
  apply obind_Ok in H. destruct H as (d & Hd & H). exists a, b, d. repeat (split; [apply number_at_entry; assumption|]).
  intros L D. apply omap_Ok in H. destruct H as (n & Hn & ->).
  assert (E : state_grid a b d = Ok points) by (unfold state_grid; rewrite Hn; exact P).
  destruct (C03_run_time_grid a b d L D) as (g & m & Eg & M0 & G & _ & _ & _ & S & Mi). assert (g = points) by congruence. subst g.
  exists m. auto.
Qed.

(** ** Preparation *)
Lemma at_mut_cases j k j' v : at_mut j k = Ok (j', v) -> (entry_of j k = Some v /\ j' = j) \/ (entry_of j k = None /\ v = JNull).
Proof.
  destruct j as [| | | | |fs]; try discriminate; cbn; intro H; [injection H as <- <-; auto|]. destruct (field fs k) eqn:E; injection H as <- <-; auto.
Qed.
Lemma assign_other j k v j' : assign j k v = Ok j' -> entry_of j' k = Some v /\ forall k', k' <> k -> entry_of j' k' = entry_of j k'.
Proof.
  destruct j as [| | | | |fs]; try discriminate; cbn; intro H; injection H as <-; cbn [entry_of].
  - cbn [field]. rewrite String.eqb_refl. split; [reflexivity|]. intros k' N. destruct (String.eqb_spec k k'); congruence.
  - rewrite field_set, String.eqb_refl. split; [reflexivity|]. intros k' N. rewrite field_set. destruct (String.eqb_spec k k'); congruence.
Qed.
Lemma build_needs_topology read d p r : build_net read d p = Ok r -> entry_of p "topology_json" <> None.
Proof.
  unfold build_net, full_topology. intro H. apply obind_Ok in H. destruct H as (t & H & _). apply obind_Ok in H. destruct H as (p1 & H & _).
  destruct (C80_files _ _ _ _ H) as (j & C & _). intro E. unfold content in C. rewrite E in C. exact C.
Qed.
Lemma value_default pd problem d : (forall k, k <> "GRAZER_file_directory" -> entry_of problem k = entry_of pd k) ->
  value_or problem "defaults" (JObj []) = Ok d -> d = match entry_of pd "defaults" with Some d => d | None => JObj [] end.
Proof.
  intros H Q. rewrite <- H by discriminate. destruct problem as [| | | | |fs]; try discriminate. cbn in Q |- *. congruence.
Qed.

Lemma prepare_inv uninit read directory p : prepare_run uninit read directory = Ok p ->
  exists all settings problem ns es t initial controls nc,
    read (directory ++ "/problem_data.json")%string = Ok all /\ entry_of all "simulation_settings" = Some settings /\
    problem_of all directory problem /\ build_net read (the_defaults (Some all)) problem = Ok (ns, es) /\
    construct uninit (ns, es) = Ok (pp_nodes p, pp_edges p) /\
    set_state_indices 0 (state_components_of (pp_nodes p) (pp_edges p)) = (pp_states p, pp_number p) /\
    Net_Model.setup_ok (network_of (pp_nodes p) (pp_edges p)) = true /\
    timedata_ctor settings = Ok t /\ points_of t = Ok (pp_points p) /\ timeevolver_ctor settings = Ok (pp_settings p) /\
    read (directory ++ "/initial.json")%string = Ok initial /\
    set_initial_values uninit (pp_states p) (map uninit (seq 0 (pp_number p))) initial = Ok (pp_initial p) /\
    set_control_indices 0 (control_components_of (pp_edges p)) = (controls, nc) /\
    setup_controls uninit controls nc t all (read (directory ++ "/control.json")%string) = Ok (pp_controls p).
Proof.
  unfold prepare_run. intro H. apply obind_Ok in H. destruct H as (all & Ha & H). apply obind_Ok in H. destruct H as ([all1 settings] & Hs & H).
  cbn [fst snd] in H. apply obind_Ok in H. destruct H as ([all2 pd] & Hp & H). cbn [fst snd] in H.
  apply obind_Ok in H. destruct H as (problem & Hg & H). apply obind_Ok in H. destruct H as (initial & Hi & H).
  apply obind_Ok in H. destruct H as (t & Ht & H). apply obind_Ok in H. destruct H as (cfg & Hc & H).
  apply obind_Ok in H. destruct H as (d & Hd & H). destruct (negb (is_object d)); [discriminate|].
  apply obind_Ok in H. destruct H as ([ns es] & Hb & H). apply obind_Ok in H. destruct H as ([nodes edges] & Hn & H).
  destruct (set_state_indices 0 (state_components_of nodes edges)) as [states n] eqn:Si.
  destruct (set_control_indices 0 (control_components_of edges)) as [controls nc] eqn:Ci.
  destruct (negb (setup_ok (network_of nodes edges))) eqn:So; [discriminate|]. apply negb_false_iff in So.
  apply obind_Ok in H. destruct H as (x & Hx & H). apply obind_Ok in H. destruct H as (points & Hpt & H).
  apply obind_Ok in H. destruct H as (fc & Hfc & H). injection H as <-. cbn [pp_nodes pp_edges pp_states pp_number pp_points pp_settings pp_initial pp_controls].
  destruct (at_mut_cases _ _ _ _ Hs) as [[Es ->]|[_ ->]]; [|discriminate].
  destruct (assign_other _ _ _ _ Hg) as [Eg Eo].
  destruct (at_mut_cases _ _ _ _ Hp) as [[Ep ->]|[_ ->]].
  2: { exfalso. apply (build_needs_topology _ _ _ _ Hb). rewrite Eo by discriminate. reflexivity. }
  assert (Dd : d = the_defaults (Some all)).
  { rewrite (value_default pd problem d Eo Hd). unfold the_defaults. rewrite Ep. reflexivity. }
  rewrite Dd in Hb. exists all, settings, problem, ns, es, t, initial, controls, nc.
  split; [exact Ha|]. split; [exact Es|]. split; [exists pd; auto|]. auto 20.
Qed.

(** ** Simulation *)
Lemma simulate_inv {LU} (factor : unit -> R -> R -> vec -> list R -> vec -> option LU) linsolve fuel sfuel p out :
  simulate_prepared factor linsolve fuel sfuel p = Some (Ok out) ->
  exists rows e', simulate (network_problem unit LU (pp_number p) (fun _ => network_of (pp_nodes p) (pp_edges p)) (fun e _ _ _ _ => Ok e) factor linsolve)
      fuel sfuel (pp_settings p) (pp_controls p) (pp_points p) (vec_of (pp_initial p)) tt = (Some (Ok rows), e') /\
    states_file (map (fun c => (c, JNull)) (pp_states p)) (combine (pp_points p) (map (row_of_state (pp_number p)) rows)) = Ok out.
Proof.
  unfold simulate_prepared. cbv zeta.
  destruct (simulate (network_problem unit LU (pp_number p) (fun _ => network_of (pp_nodes p) (pp_edges p)) (fun e _ _ _ _ => Ok e) factor linsolve)
      fuel sfuel (pp_settings p) (pp_controls p) (pp_points p) (vec_of (pp_initial p)) tt) as [[[rows| |]|] e']; cbn [fst]; try discriminate.
  intro H. exists rows, e'. split; [reflexivity|]. congruence.
Qed.

Lemma omapM_nth {A B} (f : A -> outcome B) l m k a : omapM f l = Ok m -> nth_error l k = Some a -> exists b, f a = Ok b /\ nth_error m k = Some b.
Proof.
  intro H. apply omapM_inv in H. revert k. induction H as [|x y l m Q F IH]; intros [|k] E; try discriminate; cbn in E.
  - injection E as <-. exists y. auto.
  - apply (IH k E).
Qed.
Lemma nth_combine {A B} (l : list A) (m : list B) : forall k a b, nth_error l k = Some a -> nth_error m k = Some b -> nth_error (combine l m) k = Some (a, b).
Proof. revert m. induction l as [|x l IH]; intros [|y m] [|k] a b Ea Eb; try discriminate; cbn in *; [congruence|]. apply IH; auto. Qed.
Lemma Forall2_nth {A B} (P : A -> B -> Prop) l m : Forall2 P l m -> forall k b, nth_error m k = Some b -> exists a, nth_error l k = Some a /\ P a b.
Proof. induction 1 as [|x y l m Q F IH]; intros [|k] b E; try discriminate; cbn in *; [injection E as <-; eauto|]. apply IH, E. Qed.

Lemma no_output (comps : list state_component) : forall c, In c (map (fun c => (c, JNull)) comps) -> snd c = JNull.
Proof. intros c I. apply in_map_iff in I. destruct I as (d & <- & _). reflexivity. Qed.
(** A component with its results. *)
Lemma component_reported comps points n rows out c k t x : states_file (map (fun c => (c, JNull)) comps) (combine points (map (row_of_state n) rows)) = Ok out ->
  In c comps -> nth_error points k = Some t -> nth_error rows k = Some x ->
  exists e, saved_entry c t (row_of_state n x) = Ok e /\ result_of out (sc_class c) (sc_type c) (sc_id c) k e.
Proof.
  intros H I Et Ex. destruct (file_inv _ _ _ (no_output comps) H) as [F _].
  destruct (F (c, JNull)) as (es & Qs & r & Ir & R1 & R2); [apply in_map_iff; eauto|]. cbn [fst] in *.
  destruct (omapM_nth _ _ _ k (t, row_of_state n x) Qs) as (e & Qe & Ke).
  { apply nth_combine; [exact Et|]. apply map_nth_error, Ex. }
  exists e. split; [exact Qe|]. exists r, es. auto.
Qed.

Lemma prepared_described uninit ns es nodes edges : construct uninit (ns, es) = Ok (nodes, edges) ->
  (forall j m, nth_error nodes j = Some m -> exists entry, nth_error ns j = Some entry /\ mn_type m = fst entry /\ mn_id m = id (snd entry) /\
     describes_node (snd entry) (fst entry) (nodetype_of m)) /\
  (forall i m, nth_error edges i = Some m -> exists entry, nth_error es i = Some entry /\ me_type m = fst entry /\ me_id m = id (snd entry) /\
     describes_edge (map mn_id nodes) entry (me_edge m)).
Proof.
  intro H. destruct (construct_inv _ _ _ _ _ H) as [A B]. split.
  - intros j m E. destruct (Forall2_nth _ _ _ A j m E) as (entry & E1 & Q). destruct (node_described _ _ _ Q) as (Q1 & Q2 & Q3). exists entry. auto.
  - intros j m E. destruct (Forall2_nth _ _ _ B j m E) as (entry & E1 & Q). destruct (edge_described _ _ _ Q) as (Q1 & Q2 & Q3). exists entry. auto.
Qed.

Lemma all_reported uninit ns es nodes edges comps n points rows out k t x :
  construct uninit (ns, es) = Ok (nodes, edges) -> set_state_indices 0 (state_components_of nodes edges) = (comps, n) ->
  well_formed (network_of nodes edges) ->
  states_file (map (fun c => (c, JNull)) comps) (combine points (map (row_of_state n) rows)) = Ok out ->
  nth_error points k = Some t -> nth_error rows k = Some x -> state_reported ns es (network_of nodes edges) out k t x.
Proof.
  intros C Si W H Et Ex. destruct (components_placed _ _ _ _ Si) as (-> & Pn & Pe). destruct (prepared_described _ _ _ _ _ C) as [Dn De].
  set (N := network_of nodes edges) in *. split.
  - intros i entry e r Ee E Q.
    assert (M : exists m, nth_error edges i = Some m /\ me_edge m = e).
    { cbn in E. rewrite nth_error_map in E. destruct (nth_error edges i) as [m|]; [|discriminate]. exists m. split; [reflexivity|]. cbn in E. congruence. }
    destruct M as (m & Em & <-). destruct (De i m Em) as (entry' & Ee' & T & Id & D). assert (entry' = entry) by congruence. subst entry'.
    assert (Ic : exists c, In c (edge_states_of m) /\ sc_class c = "connections" /\ sc_type c = me_type m /\ sc_id c = me_id m).
    { unfold edge_result in Q. unfold edge_states_of. destruct (e_type (me_edge m)); try discriminate; eexists; (split; [left; reflexivity|]); auto. }
    destruct Ic as (c & Ic & C1 & C2 & C3). specialize (Pe i m c Em Ic).
    destruct (component_reported _ _ _ _ _ _ k t x H Pe Et Ex) as (r' & Sr & Rr).
    destruct (saved_edge N i _ m t x c E eq_refl) as (r2 & R2 & S2); [|exact Ic|].
    { destruct D as (_ & _ & D). destruct (e_type (me_edge m)); auto. inversion D; subst. lia. }
    unfold moved in Rr; cbn [sc_class sc_type sc_id] in Rr. rewrite C1, C2, C3, T, Id in Rr.
    assert (r' = r) by (rewrite S2 in Sr; congruence). subst r'. exact Rr.
  - intros j entry tn Ee E Q.
    assert (M : exists m, nth_error nodes j = Some m /\ nodetype_of m = tn).
    { cbn in E. rewrite nth_error_map in E. destruct (nth_error nodes j) as [m|]; [|discriminate]. exists m. split; [reflexivity|]. cbn in E. congruence. }
    destruct M as (m & Em & <-). destruct (Dn j m Em) as (entry' & Ee' & T & Id & D). assert (entry' = entry) by congruence. subst entry'.
    unfold is_power_node in Q. rewrite E in Q. destruct (mn_data m) as [|iv|iv|kd ext G B iv] eqn:Dm; unfold nodetype_of in Q; rewrite Dm in Q; try destruct Q.
    assert (Ic : In (mkState "nodes" (mn_type m) (mn_id m) 0 (KPower G B (power_lines N j) (power_values_of kd iv))) (node_states_of N (j, m))).
    { unfold node_states_of. cbn [snd fst]. rewrite Dm. left. reflexivity. }
    specialize (Pn j m _ Em Ic).
    destruct (component_reported _ _ _ _ _ _ k t x H Pn Et Ex) as (r' & Sr & Rr).
    unfold moved in Rr; cbn [sc_class sc_type sc_id] in Rr. rewrite T, Id in Rr. exists r'. split; [exact Rr|].
    apply (saved_node N j m kd ext G B iv t x r' W E Dm Sr).
Qed.

(** What is listed. *)
Lemma map_filter_labels (P : string * string * string -> bool) l : map label (filter (fun c => P (label c)) l) = filter P (map label l).
Proof. induction l as [|c l IH]; [reflexivity|]. cbn. destruct (P (label c)); cbn; rewrite IH; reflexivity. Qed.
Lemma filter_flat_map {A B} (P : B -> bool) (f : A -> list B) l : filter P (flat_map f l) = flat_map (fun a => filter P (f a)) l.
Proof. induction l as [|a l IH]; [reflexivity|]. cbn. rewrite filter_app, IH. reflexivity. Qed.
Definition keep (class type : string) (q : string * string * string) : bool := (String.eqb (fst (fst q)) class && String.eqb (snd (fst q)) type)%bool.
Lemma listed_ids class type comps0 comps n : set_state_indices 0 comps0 = (comps, n) ->
  map (fun c => sc_id (fst c)) (filter (of_kind class type) (map (fun c => (c, JNull)) comps)) = map snd (filter (keep class type) (map label comps0)).
Proof.
  intro H. assert (E : map label comps = map label comps0) by (rewrite <- (indices_labels comps0 0), H; reflexivity). rewrite <- E.
  clear. induction comps as [|c l IH]; [reflexivity|]. cbn. unfold of_kind, keep in *. cbn. destruct (_ && _)%bool; cbn; rewrite IH; reflexivity.
Qed.
Lemma all_listed uninit ns es nodes edges comps n saved out :
  construct uninit (ns, es) = Ok (nodes, edges) -> set_state_indices 0 (state_components_of nodes edges) = (comps, n) ->
  states_file (map (fun c => (c, JNull)) comps) saved = Ok out ->
  results_listed "nodes" node_with_states ns out /\ results_listed "connections" edge_with_states es out.
Proof.
  intros C Si H. destruct (file_inv _ _ _ (no_output comps) H) as [_ L].
  destruct (construct_inv _ _ _ _ _ C) as [A B]. set (N := network_of nodes edges) in *.
  assert (Hn : forall class type k, map snd (filter (keep class type) (map label (flat_map (node_states_of N) (combine (seq k (List.length nodes)) nodes))))
    = if String.eqb "nodes" class then map (fun entry => id (snd entry)) (filter (fun entry => (node_with_states (fst entry) && String.eqb (fst entry) type)%bool) ns) else []).
  { intros class type. clearbody N. clear -A. induction A as [|entry m l r Q F IH]; intro k; [destruct (String.eqb "nodes" class); reflexivity|].
    cbn [List.length seq combine flat_map]. rewrite map_app, filter_app, map_app. rewrite IH. destruct (node_described _ _ _ Q) as (T & I & D).
    unfold node_states_of. cbn [snd fst filter]. destruct (mn_data m) as [|iv|iv|kd ext G B iv] eqn:Dm; unfold nodetype_of in D; rewrite Dm in D.
    1-3: cbn [map filter app]; assert (X : node_with_states (fst entry) = false) by (inversion D; try reflexivity; destruct H0 as [<-|[<-|[]]]; reflexivity); rewrite X; reflexivity.
    cbn [map label sc_class sc_type sc_id filter]. unfold keep. cbn [fst snd]. rewrite T, <- I.
    assert (X : node_with_states (fst entry) = true).
    { inversion D as [| | | |type' k' ext' G' B' b' I']; subst. clear -I'. destruct I' as [E|[E|[E|[E|[]]]]]; injection E as <- _ _; reflexivity. }
    rewrite X. unfold label. cbn [fst snd sc_class sc_type sc_id]. destruct (String.eqb "nodes" class), (String.eqb (fst entry) type); reflexivity. }
  assert (He : forall class type, map snd (filter (keep class type) (map label (flat_map edge_states_of edges)))
    = if String.eqb "connections" class then map (fun entry => id (snd entry)) (filter (fun entry => (edge_with_states (fst entry) && String.eqb (fst entry) type)%bool) es) else []).
  { intros class type. clear -B. generalize dependent nodes. intros nodes B. induction B as [|entry m l r Q F IH]; [destruct (String.eqb "connections" class); reflexivity|].
    cbn [flat_map]. rewrite map_app, filter_app, map_app. rewrite IH. destruct (edge_described _ _ _ Q) as (T & I & (_ & _ & D)).
    assert (X : edge_with_states (fst entry) = match e_type (me_edge m) with ELine _ _ => false | _ => true end) by (inversion D; reflexivity).
    clear D. cbn [filter]. rewrite X. unfold edge_states_of.
    destruct (e_type (me_edge m)); cbn [map filter app andb]; unfold keep, label; cbn [fst snd sc_class sc_type sc_id]; rewrite ?T, <- ?I;
      try reflexivity; destruct (String.eqb "connections" class), (String.eqb (fst entry) type); reflexivity. }
  assert (Lt : forall class type, map id (of_type out class type) = map snd (filter (keep class type) (map label (flat_map (node_states_of N) (combine (seq 0 (List.length nodes)) nodes))))
     ++ map snd (filter (keep class type) (map label (flat_map edge_states_of edges)))).
  { intros class type. rewrite L, (listed_ids class type _ _ _ Si). unfold state_components_of. rewrite map_app, filter_app, map_app. reflexivity. }
  split; intro type; rewrite Lt, Hn, He; cbn; [apply app_nil_r|reflexivity].
Qed.
