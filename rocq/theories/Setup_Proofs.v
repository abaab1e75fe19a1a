(** * Proofs: the optimization problem of the input files *)
From Coq Require Import Reals ZArith Lra Lia List Bool Arith String Sorted.
From Verif Require Import Base Interp_Model Interp_Spec Interp_Proofs Interp_Props Json_Model Json_Spec Defaults_Model Controls_Model Controls_Spec Controls_Proofs Controls_Props
  Calc Newton_Model Evolve_Model Net_Model Net_Spec States_Model States_Spec Factory_Model Bounds_Model Ctimes_Model Ctimes_Spec Ctimes_Props Jac_Model Factory_Spec Interp_Model Iface_Model Iface_Spec Iface_Proofs3
  Input_Model Input_Spec Input_Proofs Input_Proofs2 Input_Proofs3 Input_Proofs4 Setup_Model Setup_Spec.
From Verif Require Seed_Model.
Import ListNotations.
Local Open Scope string_scope.
Local Open Scope list_scope.

(** ** The shape of vectors *)
Lemma loop_points start iv ts : forall i v w, set_loop start iv ts i v = Ok w -> ipoints w = ipoints v.
Proof.
  induction ts as [|t ts IH]; intros i v w H; cbn [set_loop] in H; [congruence|].
  apply obind_Ok in H. destruct H as (row & _ & H). apply obind_Ok in H. destruct H as (v' & E & H). rewrite (IH _ _ _ H).
  unfold set_segment in E. destruct (_ <? _)%nat in E; [discriminate|]. destruct (negb _) in E; [discriminate|]. injection E as <-. reflexivity.
Qed.
Lemma controls_points uninit comps v j w : set_initial_controls uninit comps v j = Ok w -> ipoints w = ipoints v.
Proof.
  unfold set_initial_controls. intro H. apply obind_Ok in H. destruct H as (calls & _ & H). revert v H.
  induction calls as [|[n e] calls IH]; intros v H; cbn [ofold] in H; [congruence|].
  apply obind_Ok in H. destruct H as (v' & E & H). rewrite (IH _ H). apply obind_Ok in E. destruct E as (c & _ & E).
  unfold component_controls, set_simple_control_values in E. apply obind_Ok in E. destruct E as (iv & _ & E). apply (loop_points _ _ _ _ _ _ E).
Qed.

(** ** Tables of controls *)
Lemma control_table uninit ns es nodes edges comps nc points w j :
  construct uninit (ns, es) = Ok (nodes, edges) -> set_control_indices 0 (control_components_of edges) = (comps, nc) ->
  set_initial_controls uninit comps (mk_ivec points nc (map uninit (seq 0 (nc * List.length points)))) j = Ok w ->
  let N := network_of nodes edges in controls_complete es N j points -> controls_tabulated es N j points (ivalues w).
Proof.
  cbv zeta. intros C Ci H (G & Na & Ne & Np & Ip & Hc).
  destruct (controls_placed nodes edges comps nc Ci) as (En & Pl & Back). destruct (prepared_described _ _ _ _ _ C) as [_ De].
  set (N := network_of nodes edges) in *.
  destruct (controls_file uninit _ comps nc (mk_ivec points nc (map uninit (seq 0 (nc * List.length points)))) w j Ci eq_refl) as (P & I & T & V); auto.
  { unfold table_of. cbn [ipoints iinner ivalues]. rewrite map_length, seq_length. lia. }
  { replace (map cc_id comps) with (map cc_id (flat_map controls_of_edge edges)).
    - apply (NoDup_flat _ _ me_id); [|destruct (constructed_ids _ _ _ _ _ C) as [_ ->]; exact Ne].
      intro a. unfold controls_of_edge. destruct (e_type (me_edge a)); auto; right; eexists; split; reflexivity.
    - destruct (C65_indices _ _ _ _ Ci) as (M & _). apply (f_equal (map (fun q => snd (fst q)))) in M. rewrite !map_map in M. cbn [fst snd] in M. symmetry. exact M. }
  { intros cc Ic. destruct (Back cc Ic) as (Cn & i' & m & Em & Ctm & Eid). destruct (De i' m Em) as (entry' & Ee' & _ & Eid' & _).
    destruct (Hc i' entry' (me_edge m) Ee' (made_edge_nth nodes edges _ _ Em) Ctm) as (rows' & I1 & I2 & I3 & I4 & I5).
    exists rows'. rewrite Eid, Eid'. split; [exact I1|]. unfold rows_good. rewrite Cn. auto. }
  cbn [ipoints iinner] in *. rewrite P, I in T. unfold controls_tabulated. rewrite <- En. split; [exact T|].
  intros i entry e rows m t E1 E2 Ct Id Et.
  destruct (edge_made _ _ _ _ E2) as (me & Em & <-). destruct (De i me Em) as (entry' & Ee' & _ & Eid' & _). assert (entry' = entry) by congruence. subst entry'.
  pose proof (Pl i me Em Ct) as Ic.
  specialize (V _ rows m t 0%nat Ic). cbn [cc_id cc_start cc_count] in V. rewrite Eid', Nat.add_0_r in V. apply V; auto.
Qed.

(** ** Tables of constraints: the code is that of controls *)
Definition as_control (k : constraint_component) : control_component := mkControl "nodes" "ConstraintSink" (kc_id k) (kc_start k) (kc_count k).
Lemma get_map {A B} (f : A -> B) l n : get (map f l) n = omap f (get l n).
Proof. unfold get. rewrite nth_error_map. destruct (nth_error l n); reflexivity. Qed.
Lemma lower_as_controls uninit comps v j : set_constraint_lower_bounds uninit comps v j = set_initial_controls uninit (map as_control comps) v j.
Proof.
  unfold set_constraint_lower_bounds, set_initial_controls. rewrite map_map. cbn [as_control cc_id].
  destruct (distribute (map kc_id comps) j) as [calls| |]; try reflexivity. cbn [obind]. revert v.
  induction calls as [|c calls IH]; intro v; [reflexivity|]. cbn [ofold]. rewrite get_map. destruct (get comps (fst c)) as [k| |]; try reflexivity.
  cbn [omap obind]. change (component_controls uninit (as_control k) v (snd c)) with (component_lower_bounds uninit k v (snd c)).
  destruct (component_lower_bounds uninit k v (snd c)); try reflexivity. cbn [obind]. apply IH.
Qed.
Lemma upper_as_controls uninit comps v j : set_constraint_upper_bounds uninit comps v j = set_initial_controls uninit (map as_control comps) v j.
Proof. exact (lower_as_controls uninit comps v j). Qed.
Lemma indices_as_controls comps : forall next, set_control_indices next (map as_control comps) =
  (map as_control (fst (set_constraint_indices next comps)), snd (set_constraint_indices next comps)).
Proof. induction comps as [|c l IH]; intro next; [reflexivity|]. cbn [map set_control_indices set_constraint_indices as_control cc_count cc_class cc_type cc_id]. rewrite IH. reflexivity. Qed.

Definition single (m : made_node) : list constraint_component :=
  if String.eqb (mn_type m) "ConstraintSink" then [mkConstraint (mn_id m) 0 1] else [].
Lemma singles_entries ns : forall nodes, map (fun entry => (fst entry, id (snd entry))) ns = map (fun m => (mn_type m, mn_id m)) nodes ->
  map kc_id (flat_map single nodes) = map (fun entry => id (snd entry)) (constraint_entries ns).
Proof.
  induction ns as [|e ns IH]; intros [|m nodes] H; try discriminate; [reflexivity|]. cbn [map] in H. injection H as H1 H2 H3.
  cbn [flat_map constraint_entries filter]. unfold single at 1. rewrite <- H1. destruct (String.eqb (fst e) "ConstraintSink"); cbn [app map]; [|apply IH, H3].
  cbn [kc_id]. rewrite H2. f_equal. apply IH, H3.
Qed.
Lemma single_count nodes : Forall (fun c => kc_count c = 1%nat) (flat_map single nodes).
Proof. induction nodes as [|m l IH]; [constructor|]. cbn [flat_map]. apply Forall_app. split; [|exact IH]. unfold single. destruct (String.eqb _ _); repeat constructor. Qed.
Lemma ones l : Forall (fun c => kc_count c = 1%nat) l -> forall next,
  snd (set_constraint_indices next l) = (next + List.length l)%nat /\
  forall r c, nth_error l r = Some c -> nth_error (fst (set_constraint_indices next l)) r = Some (mkConstraint (kc_id c) (next + r) 1).
Proof.
  induction l as [|a l IH]; intros F next; [split; [cbn; lia|intros [|r] c E; discriminate]|]. inversion F as [|? ? Fa Fl]; subst.
  cbn [set_constraint_indices]. rewrite Fa. destruct (IH Fl (next + 1)%nat) as [A B]. cbn [fst snd List.length]. split; [lia|].
  intros [|r] c E; cbn [nth_error] in *; [injection E as <-; f_equal; f_equal; lia|]. rewrite (B r c E). f_equal. f_equal. lia.
Qed.
Lemma filter_incl_NoDup {A B} (f : A -> B) p l : NoDup (map f l) -> NoDup (map f (filter p l)).
Proof.
  induction l as [|a l IH]; intro H; [constructor|]. cbn [map] in H. inversion H as [|? ? Ha Hl]; subst. cbn [filter]. destruct (p a); [|auto].
  cbn [map]. constructor; [|auto]. intro I. apply Ha. apply in_map_iff in I. destruct I as (b & E & I). apply filter_In in I. rewrite <- E. apply in_map, I.
Qed.
Lemma constraint_table uninit ns es nodes edges comps ng points w j :
  construct uninit (ns, es) = Ok (nodes, edges) -> set_constraint_indices 0 (constraint_components_of nodes) = (comps, ng) ->
  set_initial_controls uninit (map as_control comps) (mk_ivec points ng (map uninit (seq 0 (ng * List.length points)))) j = Ok w ->
  ng = List.length (constraint_entries ns) /\
  (constraints_complete ns j points -> constraints_tabulated ns j points (ivalues w)).
Proof.
  intros C Ci H. destruct (construct_ids _ _ _ _ _ C) as [Ids _]. change (constraint_components_of nodes) with (flat_map single nodes) in Ci.
  pose proof (singles_entries _ _ Ids) as Se. destruct (ones _ (single_count nodes) 0%nat) as [On Oi]. rewrite Ci in On, Oi. cbn [fst snd] in On, Oi.
  assert (En : ng = List.length (constraint_entries ns)).
  { rewrite On. apply (f_equal (@List.length _)) in Se. rewrite !map_length in Se. exact Se. }
  split; [exact En|]. intros (G & Na & Ne & Hc).
  assert (Ck : set_control_indices 0 (map as_control (flat_map single nodes)) = (map as_control comps, ng)).
  { rewrite indices_as_controls, Ci. reflexivity. }
  assert (Ids2 : map cc_id (map as_control comps) = map (fun entry => id (snd entry)) (constraint_entries ns)).
  { rewrite <- Se. destruct (C65_indices _ _ _ _ Ck) as (M & _). apply (f_equal (map (fun q => snd (fst q)))) in M. rewrite !map_map in M. cbn [fst snd as_control cc_id] in M.
    rewrite map_map. exact M. }
  assert (Cnt : forall c, In c (map as_control comps) -> cc_count c = 1%nat).
  { intros c I. destruct (C65_indices _ _ _ _ Ck) as (M & _). apply (in_map (fun c => (cc_class c, cc_type c, cc_id c, cc_count c))) in I. rewrite M in I.
    apply in_map_iff in I. destruct I as (c0 & E & I). apply in_map_iff in I. destruct I as (k & <- & I). pose proof (single_count nodes) as F. rewrite Forall_forall in F.
    specialize (F k I). injection E as _ _ _ E. cbn [as_control cc_count] in E. congruence. }
  destruct (controls_file uninit _ (map as_control comps) ng (mk_ivec points ng (map uninit (seq 0 (ng * List.length points)))) w j Ck eq_refl) as (P & I & T & V); auto.
  { unfold table_of. cbn [ipoints iinner ivalues]. rewrite map_length, seq_length. lia. }
  { rewrite Ids2. apply filter_incl_NoDup, Ne. }
  { intros cc Ic. pose proof (in_map cc_id _ _ Ic) as Jc. rewrite Ids2 in Jc. apply in_map_iff in Jc. destruct Jc as (entry & Ee & Ie).
    destruct (Hc entry Ie) as (rows & I1 & I2 & I3 & I4 & I5). exists rows. rewrite <- Ee. split; [exact I1|]. unfold rows_good. rewrite (Cnt cc Ic). auto. }
  cbn [ipoints iinner] in *. rewrite P, I in T. unfold constraints_tabulated. rewrite <- En. split; [exact T|].
  intros r entry rows m t Er Id Et.
  assert (Q : nth_error (map kc_id (flat_map single nodes)) r = Some (id (snd entry))) by (rewrite Se, nth_error_map, Er; reflexivity).
  rewrite nth_error_map in Q. destruct (nth_error (flat_map single nodes) r) as [k|] eqn:Ek; [|discriminate]. injection Q as Q.
  pose proof (Oi r k Ek) as Ok_. apply nth_error_In in Ok_. apply (in_map as_control) in Ok_. unfold as_control at 1 in Ok_. cbn [kc_id kc_start kc_count] in Ok_.
  specialize (V _ rows m t 0%nat Ok_). cbn [cc_id cc_start cc_count] in V. rewrite Q, Nat.add_0_r, Nat.add_0_l in V. apply V; auto.
Qed.

(** ** Positions of the nodes with constraints *)
Lemma positions_of (nodes : list made_node) : forall start, 
  let l := map fst (filter (fun jm => String.eqb (mn_type (snd jm)) "ConstraintSink") (combine (seq start (List.length nodes)) nodes)) in
  StronglySorted lt l /\ (forall j, In j l -> (start <= j)%nat) /\ (forall i, In (start + i)%nat l <-> exists m, nth_error nodes i = Some m /\ mn_type m = "ConstraintSink") /\
  List.length l = List.length (flat_map single nodes).
Proof.
  induction nodes as [|m nodes IH]; intro start; cbv zeta.
  - cbn. split; [constructor|]. split; [intros j []|]. split; [|reflexivity]. intro i. split; [intros []|intros (m & E & _); destruct i; discriminate].
  - destruct (IH (S start)) as (A & B & D & L). cbn [List.length seq combine filter snd flat_map]. unfold single at 1. rewrite app_length.
    destruct (String.eqb_spec (mn_type m) "ConstraintSink") as [E|E]; cbn [map fst List.length]; (split; [|split; [|split]]).
    + constructor; [exact A|]. apply Forall_forall. intros j I. specialize (B j I). lia.
    + intros j [<-|I]; [lia|]. specialize (B j I). lia.
    + intros [|i]; [split; [intros _; exists m; auto|intros _; left; lia]|]. cbn [nth_error].
      rewrite <- (D i). replace (start + S i)%nat with (S start + i)%nat by lia. split; [intros [Z|Z]; [lia|exact Z]|right; assumption].
    + lia.
    + exact A.
    + intros j I. specialize (B j I). lia.
    + intros [|i]; [split|].
      * intro I. specialize (B _ I). lia.
      * intros (m' & E' & T). cbn in E'. congruence.
      * cbn [nth_error]. rewrite <- (D i). replace (start + S i)%nat with (S start + i)%nat by lia. tauto.
    + exact L.
Qed.
Lemma constraint_nodes_positions uninit ns es nodes edges : construct uninit (ns, es) = Ok (nodes, edges) ->
  constraint_positions ns (constraint_nodes nodes) /\ List.length (constraint_nodes nodes) = List.length (constraint_entries ns).
Proof.
  intro C. destruct (positions_of nodes 0%nat) as (A & _ & B & L). destruct (prepared_described _ _ _ _ _ C) as [Dn _]. destruct (construct_ids _ _ _ _ _ C) as [Ids _].
  split; [|unfold constraint_nodes; rewrite L; pose proof (f_equal (@List.length _) (singles_entries _ _ Ids)) as E; rewrite !map_length in E; exact E].
  split; [exact A|]. intro j. unfold constraint_nodes. rewrite (B j). split.
  - intros (m & E & T). destruct (Dn j m E) as ([type data] & En & Et & _). cbn [fst] in Et. exists data. rewrite En. congruence.
  - intros (data & E). pose proof (f_equal (fun l => nth_error l j) Ids) as Q. cbv beta in Q. rewrite !nth_error_map, E in Q.
    destruct (nth_error nodes j) as [m|]; [|discriminate]. cbn in Q. injection Q as Q _. exists m. auto.
Qed.

(** ** The constraint times *)
Lemma spacing_of all n : constraints_every all = Ok n -> spacing all n.
Proof.
  unfold constraints_every, spacing. rewrite contains_entry. destruct (entry_of all "constraint_settings") as [c|] eqn:E; [|congruence].
  intro H. apply obind_Ok in H. destruct H as (c' & Ec & H). apply at_const_entry in Ec. assert (c' = c) by congruence. subst c'.
  rewrite contains_entry in H. destruct (entry_of c "evaluate_constraints_every_n") as [v|] eqn:Ev; [|congruence].
  apply obind_Ok in H. destruct H as (v' & Ev' & H). apply at_const_entry in Ev'. assert (v' = v) by congruence. subst v'.
  destruct v as [|b|x| | |]; try congruence. unfold Reqb in H. destruct (Req_EM_T (IZR (Seed_Model.truncate x)) x) as [Q|Q].
  - destruct (_ && _)%bool in H; [|discriminate]. injection H as <-. auto.
  - right. split; [|congruence]. intros k Hk. apply Q. rewrite Hk. f_equal. destruct (truncate_spec (IZR k)) as [A B].
    destruct (Rle_lt_dec 0 (IZR k)) as [K|K].
    + specialize (A K). rewrite <- plus_IZR in A. destruct A as [A1 A2]. apply le_IZR in A1. apply lt_IZR in A2. lia.
    + specialize (B K). rewrite <- minus_IZR in B. destruct B as [B1 B2]. apply lt_IZR in B1. apply le_IZR in B2. lia.
Qed.
Lemma spaced_of st n cons : increasing st -> (2 <= List.length st)%nat -> select_constraint_times st n = Ok cons ->
  spaced n st cons /\ increasing cons /\ cons <> [].
Proof.
  intros I L H. assert (E : effective_n n = Z.to_nat (Z.max 1 n)).
  { unfold effective_n. destruct (Z.leb_spec n 0); [rewrite Z.max_l by lia; reflexivity|rewrite Z.max_r by lia; reflexivity]. }
  destruct (C15_constraint_times st n st I L I) as (cons' & idx & S & P & T & Ic & Nc & G & F & _).
  { intros ->. cbn in L. lia. } { lra. } { assert (0 < Interp_Spec.tolerance)%R; [|lra]. unfold Interp_Spec.tolerance. apply Rinv_0_lt_compat, pow_lt. lra. }
  assert (cons' = cons) by congruence. subst cons'. rewrite E in G, F. split; [|auto]. exists idx. split; [exact P|]. split; [exact T|]. split; [|auto].
  intros ->. apply Nc. destruct T as [T _]. destruct cons; [reflexivity|discriminate].
Qed.

(** ** The parts of the preparation *)
Lemma ctor_checked nx nu ng st ct cons x0 iv o : optimizer_ctor nx nu ng st ct cons x0 iv = Ok o -> ctor_time_checks st ct cons = Ok tt.
Proof.
  unfold optimizer_ctor. intro H. apply obind_Ok in H. destruct H as (? & _ & H). apply obind_Ok in H. destruct H as (? & _ & H).
  destruct (negb _) in H; [discriminate|]. destruct (make_data ng nu cons ct) as [[l| |]|] in H; try discriminate.
  do 6 (destruct (negb _) in H; [discriminate|]). apply obind_Ok in H. destruct H as ([] & H & _). exact H.
Qed.
Lemma new_vector_is uninit points n v : new_vector uninit points n = Ok v -> v = mk_ivec points n (map uninit (seq 0 (n * List.length points))).
Proof. unfold new_vector. destruct (is_sorted points); congruence. Qed.

Lemma optimization_parts uninit read directory p o : prepare_optimization uninit read directory = Ok (p, o) ->
  exists all settings problem ns es n,
    prepare_run uninit read directory = Ok p /\
    read (directory ++ "/problem_data.json")%string = Ok all /\ entry_of all "simulation_settings" = Some settings /\
    problem_of all directory problem /\ build_net read (the_defaults (Some all)) problem = Ok (ns, es) /\
    construct uninit (ns, es) = Ok (pp_nodes p, pp_edges p) /\
    times_of settings (pp_points p) /\ control_times_of all settings (control_timepoints o) /\
    spacing all n /\ select_constraint_times (pp_points p) n = Ok (constraint_timepoints o) /\
    o_nx o = number_of_states (network_of (pp_nodes p) (pp_edges p)) /\ (0 < o_nu o)%nat /\ o_nu o = number_of_controls (network_of (pp_nodes p) (pp_edges p)) /\
    o_ng o = List.length (constraint_entries ns) /\
    state_timepoints o = pp_points p /\ initial_state o = pp_initial p /\
    optimizer_ctor (o_nx o) (o_nu o) (o_ng o) (state_timepoints o) (control_timepoints o) (constraint_timepoints o) (initial_state o) (init o) = Ok o /\
    exists jc jl ju kl ku,
      read (directory ++ "/control.json")%string = Ok jc /\ read (directory ++ "/lower_bounds.json")%string = Ok jl /\
      read (directory ++ "/upper_bounds.json")%string = Ok ju /\ read (directory ++ "/constraint_lower_bounds.json")%string = Ok kl /\
      read (directory ++ "/constraint_upper_bounds.json")%string = Ok ku /\
      (forall v j, In (v, j) [(initial_controls (init o), jc); (lower_bounds (init o), jl); (upper_bounds (init o), ju)] ->
         ipoints v = control_timepoints o /\
         (controls_complete es (network_of (pp_nodes p) (pp_edges p)) j (control_timepoints o) ->
          controls_tabulated es (network_of (pp_nodes p) (pp_edges p)) j (control_timepoints o) (ivalues v))) /\
      (forall v j, In (v, j) [(constraint_lower_bounds (init o), kl); (constraint_upper_bounds (init o), ku)] ->
         ipoints v = constraint_timepoints o /\
         (constraints_complete ns j (constraint_timepoints o) -> constraints_tabulated ns j (constraint_timepoints o) (ivalues v))).
Proof.
  unfold prepare_optimization. intro H. apply obind_Ok in H. destruct H as (p' & Hp & H).
  destruct (prepare_inv _ _ _ _ Hp) as (all & settings & problem & ns & es & t & initial & controls & nc & A & B & C & D & E & F & G & I & J & K & L & M & Nn & O).
  rewrite A in H. cbn [obind] in H. apply obind_Ok in H. destruct H as (n & Hn & H). apply obind_Ok in H. destruct H as (cons & Hc & H).
  apply obind_Ok in H. destruct H as (jl & Hjl & H). apply obind_Ok in H. destruct H as (ju & Hju & H).
  apply obind_Ok in H. destruct H as (kl & Hkl & H). apply obind_Ok in H. destruct H as (ku & Hku & H).
  rewrite Nn in H. destruct (set_constraint_indices 0 (constraint_components_of (pp_nodes p'))) as [constraints ng] eqn:Ki.
  apply obind_Ok in H. destruct H as (v1 & V1 & H). apply obind_Ok in H. destruct H as (v2 & V2 & H).
  apply obind_Ok in H. destruct H as (v3 & V3 & H). apply obind_Ok in H. destruct H as (v4 & V4 & H).
  apply new_vector_is in V1. apply new_vector_is in V2. apply new_vector_is in V3. apply new_vector_is in V4.
  apply obind_Ok in H. destruct H as ([[[w1 w2] w3] w4] & W & H). apply omap_Ok in H. destruct H as (o' & Ho & Q). injection Q as -> ->.
  unfold initialize_bounds in W. apply obind_Ok in W. destruct W as (a1 & A1 & W). apply obind_Ok in W. destruct W as (a2 & A2 & W).
  apply obind_Ok in W. destruct W as (a3 & A3 & W). apply obind_Ok in W. destruct W as (a4 & A4 & W). injection W as -> -> -> ->.
  rewrite lower_as_controls in A3. rewrite upper_as_controls in A4.
  destruct (constructed _ _ _ _ _ _ _ _ _ Ho) as (Fi & pairs & l & Hl & Eo).
  destruct Fi as (_ & _ & _ & _ & _ & _ & (Nct & _) & _).
  unfold setup_controls in O. destruct (Nat.ltb_spec 0 nc) as [Pos|Zero].
  2: { injection O as O. rewrite <- O in Nct. exfalso. apply Nct. reflexivity. }
  apply obind_Ok in O. destruct O as (ct & Hct & O). apply obind_Ok in O. destruct O as (jc & Hjc & O).
  pose proof (controls_points _ _ _ _ _ O) as Ict. cbn [ipoints] in Ict. rewrite Ict in *.
  destruct (controls_placed (pp_nodes p') _ _ _ Nn) as (En & _).
  destruct (components_placed _ _ _ _ F) as (Ex & _).
  subst v1 v2 v3 v4. pose proof (controls_points _ _ _ _ _ A1) as P1. pose proof (controls_points _ _ _ _ _ A2) as P2.
  pose proof (controls_points _ _ _ _ _ A3) as P3. pose proof (controls_points _ _ _ _ _ A4) as P4. cbn [ipoints] in P1, P2, P3, P4.
  destruct (constraint_table _ _ _ _ _ _ _ _ _ _ E Ki A3) as (Eg & T3). destruct (constraint_table _ _ _ _ _ _ _ _ _ _ E Ki A4) as (_ & T4).
  assert (Fs : forall T (f : optimizer -> T), f o' = f (mk_optimizer (pp_number p') nc ng (pp_points p') ct cons (pp_initial p') (mk_init (pp_controls p') w1 w2 w3 w4) pairs (quadrature_weights (pp_points p')) l)) by (intros; rewrite Eo; reflexivity).
  rewrite (Fs _ control_timepoints), (Fs _ constraint_timepoints), (Fs _ state_timepoints), (Fs _ initial_state), (Fs _ o_nx), (Fs _ o_nu), (Fs _ o_ng), (Fs _ init).
  cbn [control_timepoints constraint_timepoints state_timepoints initial_state o_nx o_nu o_ng init initial_controls lower_bounds upper_bounds constraint_lower_bounds constraint_upper_bounds].
  exists all, settings, problem, ns, es, n.
  split; [exact Hp|]. split; [exact A|]. split; [exact B|]. split; [exact C|]. split; [exact D|]. split; [exact E|].
  split; [apply (points_grid _ _ _ I J)|]. split; [apply (control_grid _ _ _ _ I Hct)|]. split; [apply spacing_of, Hn|]. split; [exact Hc|].
  split; [exact Ex|]. split; [exact Pos|]. split; [exact En|]. split; [exact Eg|]. split; [reflexivity|]. split; [reflexivity|]. split; [exact Ho|].
  exists jc, jl, ju, kl, ku. do 5 (split; [assumption|]). split.
  - intros v j [Q|[Q|[Q|[]]]]; injection Q as <- <-; (split; [assumption|]).
    + apply (control_table _ _ _ _ _ _ _ _ _ _ E Nn O).
    + apply (control_table _ _ _ _ _ _ _ _ _ _ E Nn A1).
    + apply (control_table _ _ _ _ _ _ _ _ _ _ E Nn A2).
  - intros v j [Q|[Q|[]]]; injection Q as <- <-; (split; [assumption|assumption]).
Qed.
Lemma controls_exist N : (0 < number_of_controls N)%nat -> exists i e, nth_error (edges N) i = Some e /\ Input_Spec.controlled (e_type e).
Proof.
  unfold number_of_controls, control_sizes. set (start := 0%nat). assert (L : (start < snd (assign_indices start (map (fun e => edge_controls (e_type e)) (edges N))))%nat ->
    exists i e, nth_error (edges N) i = Some e /\ Input_Spec.controlled (e_type e)); [|exact L].
  generalize start. induction (edges N) as [|e l IH]; intros s H; cbn [map assign_indices snd] in H; [cbn in H; lia|].
  destruct (e_type e) eqn:T; cbn [edge_controls] in H; try (exists 0%nat, e; rewrite T; cbn; auto; fail).
  all: rewrite Nat.add_0_r in H; destruct (assign_indices s _) as [bs m] eqn:Q; destruct (IH s) as (i & e' & E & K); [rewrite Q; exact H|]; exists (S i), e'; auto.
Qed.
