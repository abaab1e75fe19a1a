(** * Proofs: what the states file of a simulation with stochastic nodes contains *)
From Coq Require Import Reals ZArith Lra Lia List Bool Arith String.
From Verif Require Import Base Interp_Model Json_Model Json_Spec Defaults_Model Controls_Model Calc Euler_Model Newton_Model Evolve_Model
  Net_Model Net_Spec Net_Proofs5 Net_Proofs6 States_Model States_Spec States_Proofs4 Factory_Proofs8 Sim_Spec Stoch_Model Input_Model Input_Spec
  Input_Proofs Input_Proofs2 Input_Proofs3 Noise_Model Noise_Spec Noise_Proofs Noise_Proofs2 Noise_Proofs3.
Import ListNotations.
Local Open Scope string_scope.
Local Open Scope list_scope.

(** ** Indices *)
Definition indexed (next : nat) (l : list with_output) : list with_output := combine (fst (set_state_indices next (map fst l))) (map snd l).
Lemma indexed_flat {A} (f : A -> list with_output) (size : A -> nat) l :
  (forall a, In a l -> (f a = [] /\ size a = 0%nat) \/ exists c, f a = [c] /\ needed_number_of_states (sc_kind (fst c)) = size a) ->
  forall next i a c, nth_error l i = Some a -> In c (f a) ->
    In (moved (fst c) (fst (nth i (fst (assign_indices next (map size l))) (0, 0)%nat)), snd c) (indexed next (flat_map f l)).
Proof.
  unfold indexed. induction l as [|a l IH]; intros H next.
  - intros [|i] a c E; discriminate.
  - assert (Hl : forall a, In a l -> (f a = [] /\ size a = 0%nat) \/ exists c, f a = [c] /\ needed_number_of_states (sc_kind (fst c)) = size a)
      by (intros; apply H; right; auto).
    cbn [flat_map map assign_indices]. destruct (H a (or_introl eq_refl)) as [[Ef Es]|[c [Ef Es]]]; rewrite Ef.
    + rewrite Es, Nat.add_0_r. cbn [app]. specialize (IH Hl next).
      destruct (assign_indices next (map size l)) as [blocks after]. cbn [fst snd] in *.
      intros [|i] b c E I; cbn in E; [injection E as <-; rewrite Ef in I; destruct I|]. cbn [nth]. apply (IH i b c E I).
    + cbn [app map set_state_indices combine]. rewrite Es. specialize (IH Hl (next + size a)%nat).
      destruct (assign_indices (next + size a) (map size l)) as [blocks after]. cbn [fst snd] in *.
      intros [|i] b c' E I; cbn in E.
      * injection E as <-. rewrite Ef in I. destruct I as [<-|[]]. left. destruct c. reflexivity.
      * right. cbn [nth]. apply (IH i b c' E I).
Qed.
Lemma indexed_labels l next : map (fun c => label (fst c)) (indexed next l) = map (fun c => label (fst c)) l.
Proof.
  unfold indexed. revert next. induction l as [|c l IH]; intro next; [reflexivity|]. cbn [map set_state_indices fst snd combine]. rewrite IH. reflexivity.
Qed.
Lemma indexed_outputs l next : map snd (indexed next l) = map snd l.
Proof. unfold indexed. revert next. induction l as [|c l IH]; intro next; [reflexivity|]. cbn [map set_state_indices fst snd combine]. rewrite IH. reflexivity. Qed.

(** ** The file *)
Lemma outputs_inv comps saved out : (forall c, In c comps -> snd c = JNull \/ exists fs, snd c = JObj fs) -> states_file comps saved = Ok out ->
  (forall c, In c comps -> exists es, omapM (fun ts => saved_entry (fst c) (fst ts) (snd ts)) saved = Ok es /\
     exists r, In r (of_type out (sc_class (fst c)) (sc_type (fst c))) /\ component_result (snd c) (sc_id (fst c)) es r) /\
  forall class type, map id (of_type out class type) = map (fun c => sc_id (fst c)) (filter (of_kind class type) comps).
Proof.
  intros Hn H.
  assert (He : forall c, In c comps -> exists es, omapM (fun ts => saved_entry (fst c) (fst ts) (snd ts)) saved = Ok es).
  { unfold states_file in H. apply obind_Ok in H. destruct H as (cs1 & H1 & H). apply obind_Ok in H. destruct H as (cs2 & H2 & _).
    intros c I. assert (I1 : In (fst c) (map fst cs1)) by (rewrite (setup_inv _ _ H1); apply in_map, I).
    apply in_map_iff in I1. destruct I1 as (c' & Ec & I1). destruct (save_inv _ _ _ H2 c' I1) as [es Q]. rewrite Ec in Q. eauto. }
  set (es := fun c : with_output => match omapM (fun ts => saved_entry (fst c) (fst ts) (snd ts)) saved with Ok l => l | _ => [] end).
  destruct (states_file_ok comps saved es Hn) as (j & Ej & _ & F).
  { intros c I. destruct (He c I) as [l Q]. unfold es. rewrite Q. exact Q. }
  assert (j = out) by congruence. subst j. split.
  - intros c I. exists (es c). split; [destruct (He c I) as [l Q]; unfold es; rewrite Q; reflexivity|].
    specialize (F (sc_class (fst c)) (sc_type (fst c))).
    assert (If : In c (filter (of_kind (sc_class (fst c)) (sc_type (fst c))) comps)).
    { apply filter_In. split; [exact I|]. unfold of_kind. rewrite !String.eqb_refl. reflexivity. }
    induction F as [|a r l m Q F IHF]; [destruct If|]. destruct If as [->|If].
    + exists r. split; [left; reflexivity|exact Q].
    + destruct (IHF If) as (r' & Ir & R). exists r'. split; [right; exact Ir|exact R].
  - intros class type. specialize (F class type). induction F as [|a r l m Q F IHF]; [reflexivity|]. cbn [map]. rewrite IHF. f_equal.
    destruct Q as (_ & Q & _). destruct r as [| | | | |fs]; try discriminate. cbn in Q |- *. rewrite Q. reflexivity.
Qed.
Lemma output_reported comps points n rows out c k t x : (forall c, In c comps -> snd c = JNull \/ exists fs, snd c = JObj fs) ->
  states_file comps (combine points (map (row_of_state n) rows)) = Ok out -> In c comps ->
  nth_error points k = Some t -> nth_error rows k = Some x ->
  exists e, saved_entry (fst c) t (row_of_state n x) = Ok e /\ result_of out (sc_class (fst c)) (sc_type (fst c)) (sc_id (fst c)) k e.
Proof.
  intros Ho H I Et Ex. destruct (outputs_inv _ _ _ Ho H) as [F _]. destruct (F c I) as (es & Qs & r & Ir & R1 & R2 & _).
  destruct (omapM_nth _ _ _ k (t, row_of_state n x) Qs) as (e & Qe & Ke).
  { apply nth_combine; [exact Et|]. apply map_nth_error, Ex. }
  exists e. split; [exact Qe|]. exists r, es. auto.
Qed.

Section Reports.
Context {G : Type}.
Variables (pcg : (nat -> list Z) -> G) (entropy : nat -> list Z) (uninit : nat -> R).
Variables (nan : R) (nodes : list (noisy_node G)) (edges : list made_edge) (ns es : list (string * json)).
Hypothesis built_from : construct_noisy pcg entropy uninit (ns, es) = Ok (nodes, edges).
Notation N := (network_of (map nn_node nodes) edges).

Definition thing := ((nat * (noisy_node G * drawn)) + made_edge)%type.
Definition thing_states (a : thing) : list with_output :=
  match a with inl jnd => noisy_states_of N jnd | inr e => map (fun c => (c, JNull)) (edge_states_of e) end.
Definition thing_size (a : thing) : nat :=
  match a with inl jnd => node_states (nodetype_of (nn_node (fst (snd jnd)))) | inr e => edge_states (e_type (me_edge e)) end.
Definition things (e : list drawn) : list thing := map inl (with_drawn nan nodes e) ++ map inr edges.
Lemma components_things e : noisy_components nan nodes edges e = indexed 0 (flat_map thing_states (things e)).
Proof.
  unfold noisy_components, indexed, things. cbv zeta. rewrite flat_map_app, !flat_map_map. cbn [thing_states].
  assert (E : map (fun c => (c, JNull)) (flat_map edge_states_of edges) = flat_map (fun a => map (fun c : state_component => (c, JNull)) (edge_states_of a)) edges).
  { generalize edges. intro l. induction l as [|a l IH]; [reflexivity|]. cbn. rewrite map_app, IH. reflexivity. }
  rewrite E. reflexivity.
Qed.
Lemma sizes_things e : map thing_size (things e) = state_sizes N.
Proof.
  unfold things, state_sizes. cbn [Net_Model.nodes Net_Model.edges network_of]. rewrite map_app, !map_map. f_equal. unfold with_drawn. rewrite map_map. cbn [thing_size fst snd].
  rewrite <- (map_map snd (fun n => node_states (nodetype_of (nn_node n)))), map_snd_combine by apply seq_length. reflexivity.
Qed.
Lemma noisy_states_cases (jnd : nat * (noisy_node G * drawn)) : noisy_states_of N jnd = [] /\ node_states (nodetype_of (nn_node (fst (snd jnd)))) = 0%nat \/
  exists c, noisy_states_of N jnd = [c] /\ needed_number_of_states (sc_kind (fst c)) = node_states (nodetype_of (nn_node (fst (snd jnd)))).
Proof.
  destruct jnd as [j [n d]]. cbn [fst snd]. unfold noisy_states_of, node_states_of, nodetype_of. cbn [fst snd].
  destruct (nn_noise n), (mn_data (nn_node n)); cbn; auto; right; eexists; split; reflexivity.
Qed.
Lemma noisy_placed e :
  (forall j n c, nth_error nodes j = Some n -> In c (noisy_states_of N (j, (n, nth j e (undrawn nan)))) ->
     In (moved (fst c) (fst (node_block N j)), snd c) (noisy_components nan nodes edges e)) /\
  (forall i m c, nth_error edges i = Some m -> In c (edge_states_of m) ->
     In (moved c (fst (edge_block N i)), JNull) (noisy_components nan nodes edges e)).
Proof.
  assert (B := fun i a c => indexed_flat thing_states thing_size (things e)
    ltac:(intros [jnd|m] _; cbn [thing_states thing_size]; [apply noisy_states_cases|
          unfold edge_states_of; destruct (e_type (me_edge m)); cbn; auto; right; eexists; split; reflexivity]) 0%nat i a c).
  rewrite <- components_things, sizes_things in B.
  assert (L : List.length (map (@inl _ made_edge) (with_drawn nan nodes e)) = List.length nodes) by (rewrite map_length; apply with_drawn_length).
  split.
  - intros j n c E I. apply (B j (inl (j, (n, nth j e (undrawn nan)))) c); [|exact I].
    unfold things. rewrite nth_error_app1.
    + apply (map_nth_error inl). apply nth_with_drawn, E.
    + rewrite L. apply nth_error_Some. congruence.
  - intros i m c E I. unfold edge_block, state_blocks.
    assert (Ln : List.length (Net_Model.nodes N) = List.length nodes) by (cbn; rewrite !map_length; reflexivity).
    rewrite Ln. apply (B (List.length nodes + i)%nat (inr m) (c, JNull)); [|cbn [thing_states]; apply in_map_iff; eauto].
    unfold things. rewrite nth_error_app2; rewrite L; [|lia].
    replace (List.length nodes + i - List.length nodes)%nat with i by lia. apply (map_nth_error inr). exact E.
Qed.
Lemma made_of j n : nth_error nodes j = Some n -> exists entry, nth_error ns j = Some entry /\ make_noisy_node pcg entropy uninit (j, entry) = Ok n.
Proof. destruct (noisy_inv _ _ _ _ _ _ _ built_from) as (_ & _ & H). apply H. Qed.
Lemma noisy_outputs e c : In c (noisy_components nan nodes edges e) -> snd c = JNull \/ exists fs, snd c = JObj fs.
Proof.
  intro I. apply (in_map snd) in I. rewrite components_things, indexed_outputs in I. apply in_map_iff in I. destruct I as (d & <- & I).
  apply in_flat_map in I. destruct I as (a & Ia & I). unfold things in Ia. apply in_app_iff in Ia. destruct Ia as [Ia|Ia]; apply in_map_iff in Ia; destruct Ia as (b & <- & Ib); cbn [thing_states] in I.
  - unfold with_drawn in Ib. apply in_map_iff in Ib. destruct Ib as ([j n] & <- & Ib). cbn [fst snd] in I.
    apply In_nth_error in Ib. destruct Ib as [q Eq].
    assert (En : nth_error nodes q = Some n).
    { destruct (nth_error nodes q) as [n'|] eqn:En; [rewrite (nth_numbered nodes 0 q n' En) in Eq; congruence|]. apply nth_error_None in En.
      assert (X : (q < List.length (combine (seq 0 (List.length nodes)) nodes))%nat) by (apply nth_error_Some; congruence). rewrite combine_length, seq_length in X. lia. }
    destruct (made_of q n En) as (entry & _ & M). destruct (make_noisy_mean _ _ _ _ _ M) as (_ & _ & _ & [(_ & b & s & _ & Db & Cs & Ns & No)|(_ & Nn & No)]); cbn [fst snd] in *.
    + unfold noisy_states_of in I. rewrite Ns in I. destruct (mn_data (nn_node n)) eqn:D.
      1-3: apply in_map_iff in I; destruct I as (x & <- & _); left; reflexivity.
      destruct I as [<-|[]]. right. cbn [snd]. rewrite No. destruct s as [s o]. destruct (stochastic_inv _ _ _ _ _ Cs) as (_ & _ & b' & g & out & _ & _ & _ & ->). eexists. reflexivity.
    + unfold noisy_states_of in I. rewrite Nn in I. apply in_map_iff in I. destruct I as (x & <- & _). left. reflexivity.
  - apply in_map_iff in I. destruct I as (x & <- & _). left. reflexivity.
Qed.

(** ** Entries *)
Lemma stochastic_made j n s : nth_error nodes j = Some n -> nn_noise n = Some s -> exists entry Gc B iv,
  nth_error ns j = Some entry /\ fst entry = stochastic_type /\ mn_type (nn_node n) = stochastic_type /\ mn_id (nn_node n) = id (snd entry) /\
  mn_data (nn_node n) = DPower PQ false Gc B iv /\ powernode_ctor uninit PQ false (snd entry) = Ok (DPower PQ false Gc B iv) /\
  exists o, stochastic_ctor pcg (entropy j) (snd entry) = Ok (s, o) /\ nn_output n = o.
Proof.
  intros En Es. destruct (made_of j n En) as (entry & Ee & M). destruct (make_noisy_mean _ _ _ _ _ M) as (_ & T & I & [(Et & b & so & Cb & Db & Cs & Ns & No)|(_ & Nn & _)]); cbn [fst snd] in *; [|congruence].
  destruct (powernode_shape _ _ _ _ _ Cb) as (Gc & B & iv & ->). destruct so as [s' o]. cbn [fst snd] in *. assert (s' = s) by congruence. subst s'.
  exists entry, Gc, B, iv. rewrite T. repeat (split; [assumption|]). exists o. auto.
Qed.
Lemma noisy_as_made : noisy_as nodes ns.
Proof.
  destruct (noisy_inv _ _ _ _ _ _ _ built_from) as (_ & L & H). unfold noisy_as.
  assert (K : forall j n, nth_error nodes j = Some n -> exists entry, nth_error ns j = Some entry /\
    match nn_noise n with Some _ => fst entry = stochastic_type | None => fst entry <> stochastic_type end).
  { intros j n E. destruct (H j n E) as (entry & Ee & M). exists entry. split; [exact Ee|].
    destruct (make_noisy_mean _ _ _ _ _ M) as (_ & _ & _ & [(Et & b & so & _ & _ & _ & Ns & _)|(Et & Nn & _)]); cbn [fst snd] in *; [rewrite Ns|rewrite Nn]; assumption. }
  clear -L K. revert ns L K. induction nodes as [|n l IH]; intros [|entry ms] L K; try discriminate; constructor.
  - destruct (K 0%nat n eq_refl) as (entry' & E & Q). cbn in E. injection E as <-. exact Q.
  - apply IH; [cbn in L; lia|]. intros j m E. apply (K (S j) m E).
Qed.

Section File.
Variables (points : list R) (rows : list vec) (out : json) (e : list drawn).
Hypothesis file : states_file (noisy_components nan nodes edges e) (combine points (map (row_of_state (number_of_states N)) rows)) = Ok out.

Lemma noisy_edges k t x : nth_error points k = Some t -> nth_error rows k = Some x -> edges_reported es N out k t x.
Proof.
  intros Et Ex. destruct (noisy_placed e) as [_ Pe]. destruct (noisy_inv _ _ _ _ _ _ _ built_from) as (C & _ & _).
  destruct (prepared_described _ _ _ _ _ C) as [_ De]. intros i entry ed r Ee E Q.
  assert (M : exists m, nth_error edges i = Some m /\ me_edge m = ed).
  { cbn in E. rewrite nth_error_map in E. destruct (nth_error edges i) as [m|]; [|discriminate]. exists m. split; [reflexivity|]. cbn in E. congruence. }
  destruct M as (m & Em & <-). destruct (De i m Em) as (entry' & Ee' & T & Id & D). assert (entry' = entry) by congruence. subst entry'.
  assert (Ic : exists c, In c (edge_states_of m) /\ sc_class c = "connections" /\ sc_type c = me_type m /\ sc_id c = me_id m).
  { unfold edge_result in Q. unfold edge_states_of. destruct (e_type (me_edge m)); try discriminate; eexists; (split; [left; reflexivity|]); auto. }
  destruct Ic as (c & Ic & C1 & C2 & C3). specialize (Pe i m c Em Ic).
  destruct (output_reported _ _ _ _ _ _ k t x (noisy_outputs e) file Pe Et Ex) as (r' & Sr & Rr).
  destruct (saved_edge N i _ m t x c E eq_refl) as (r2 & R2 & S2); [|exact Ic|].
  { destruct D as (_ & _ & D). destruct (e_type (me_edge m)); auto. inversion D; subst. lia. }
  unfold moved in Rr; cbn [fst sc_class sc_type sc_id] in Rr. rewrite C1, C2, C3, T, Id in Rr. cbn [fst] in Sr.
  assert (r' = r) by (rewrite S2 in Sr; congruence). subst r'. exact Rr.
Qed.
Lemma noisy_others k t x : well_formed N -> nth_error points k = Some t -> nth_error rows k = Some x -> nodes_reported ns N out k t x.
Proof.
  intros W Et Ex. destruct (noisy_placed e) as [Pn _]. intros j entry tn Ee E Nt Q.
  assert (M : exists n, nth_error nodes j = Some n /\ nodetype_of (nn_node n) = tn).
  { cbn in E. rewrite !nth_error_map in E. destruct (nth_error nodes j) as [n|]; [|discriminate]. exists n. split; [reflexivity|]. cbn in E. congruence. }
  destruct M as (n & En & <-). destruct (made_of j n En) as (entry' & Ee' & M). assert (entry' = entry) by congruence. subst entry'.
  destruct (make_noisy_mean _ _ _ _ _ M) as (_ & T & Id & [(Bad & _)|(_ & Nn & _)]); cbn [fst snd] in *; [contradiction|].
  unfold is_power_node in Q. rewrite E in Q. destruct (mn_data (nn_node n)) as [|iv|iv|kd ext Gc B iv] eqn:Dm; unfold nodetype_of in Q; rewrite Dm in Q; try destruct Q.
  assert (Ic : In (mkState "nodes" (mn_type (nn_node n)) (mn_id (nn_node n)) 0 (KPower Gc B (power_lines N j) (power_values_of kd iv)), JNull) (noisy_states_of N (j, (n, nth j e (undrawn nan))))).
  { unfold noisy_states_of. rewrite Nn. unfold node_states_of. cbn [snd fst]. rewrite Dm. left. reflexivity. }
  specialize (Pn j n _ En Ic).
  destruct (output_reported _ _ _ _ _ _ k t x (noisy_outputs e) file Pn Et Ex) as (r' & Sr & Rr).
  unfold moved in Rr; cbn [fst sc_class sc_type sc_id] in Rr. rewrite T, Id in Rr. exists r'. split; [exact Rr|].
  apply (saved_node N j (nn_node n) kd ext Gc B iv t x r' W E Dm Sr).
Qed.
Lemma noisy_stochastic k t x : nth_error points k = Some t -> nth_error rows k = Some x -> stochastic_reported ns N out k t x (powers_in nan e).
Proof.
  intros Et Ex. destruct (noisy_placed e) as [Pn _]. intros j entry kd ext Gc B b Ee Nt E.
  assert (M : exists n, nth_error nodes j = Some n /\ nodetype_of (nn_node n) = Powernode kd ext Gc B b).
  { cbn in E. rewrite !nth_error_map in E. destruct (nth_error nodes j) as [n|]; [|discriminate]. exists n. split; [reflexivity|]. cbn in E. congruence. }
  destruct M as (n & En & Tn). destruct (made_of j n En) as (entry' & Ee' & M). assert (entry' = entry) by congruence. subst entry'.
  destruct (make_noisy_mean _ _ _ _ _ M) as (_ & T & Id & [(_ & b' & so & _ & _ & _ & Ns & _)|(Bad & _)]); cbn [fst snd] in *; [|contradiction].
  unfold nodetype_of in Tn. destruct (mn_data (nn_node n)) as [|iv|iv|kd' ext' Gc' B' iv] eqn:Dm; try discriminate. injection Tn as -> -> -> -> <-.
  assert (Ic : In (mkState "nodes" (mn_type (nn_node n)) (mn_id (nn_node n)) 0 (KPower Gc B (power_lines N j)
     (Stochastic_values iv (current_P (nth j e (undrawn nan))) (current_Q (nth j e (undrawn nan))))), nn_output n) (noisy_states_of N (j, (n, nth j e (undrawn nan))))).
  { unfold noisy_states_of. rewrite Ns, Dm. left. reflexivity. }
  specialize (Pn j n _ En Ic).
  destruct (output_reported _ _ _ _ _ _ k t x (noisy_outputs e) file Pn Et Ex) as (r' & Sr & Rr).
  unfold moved in Rr; cbn [fst sc_class sc_type sc_id] in Rr. rewrite T, Id, Nt in Rr. exists r'. cbn [fst] in Sr. unfold moved, saved_entry in Sr. cbn [sc_kind sc_start] in Sr.
  unfold power_entry in Sr. cbv zeta in Sr. apply obind_Ok in Sr. destruct Sr as (mP & M1 & Sr). apply obind_Ok in Sr. destruct Sr as (mQ & M2 & Sr).
  destruct (boundary_value _ _ _ _ M1) as (v & Ev & ->). destruct (boundary_value _ _ _ _ M2) as (v' & Ev' & ->). assert (v' = v) by congruence. subst v'.
  exists v. split; [exact Rr|]. split; [exact Ev|].
  destruct (node_block_spec N j _ E) as (s & Es & Ls). cbn [node_states] in Ls. rewrite Es in *. cbn [fst] in *. rewrite row_pair in Sr by lia. cbn [omap fst snd] in Sr. injection Sr as <-.
  unfold reports, powers_in. cbn. repeat (split; [reflexivity|]). reflexivity.
Qed.
Lemma noisy_listed : results_listed "nodes" noisy_with_states ns out /\ results_listed "connections" edge_with_states es out.
Proof.
  destruct (outputs_inv _ _ _ (noisy_outputs e) file) as [_ L]. destruct (noisy_inv _ _ _ _ _ _ _ built_from) as (C & Ln & Hm).
  destruct (construct_inv _ _ _ _ _ C) as [_ Be].
  assert (Hn : forall class type, map snd (filter (keep class type) (map (fun c => label (fst c)) (flat_map (noisy_states_of N) (with_drawn nan nodes e))))
    = if String.eqb "nodes" class then map (fun entry => id (snd entry)) (filter (fun entry => (noisy_with_states (fst entry) && String.eqb (fst entry) type)%bool) ns) else []).
  { intros class type. unfold with_drawn. rewrite flat_map_map. cbn [fst snd].
    assert (K : forall j n, nth_error nodes j = Some n -> exists entry, nth_error ns j = Some entry /\ exists i, make_noisy_node pcg entropy uninit (i, entry) = Ok n).
    { intros j n E. destruct (Hm j n E) as (entry & Ee & M). eauto. }
    clear -Ln K. generalize N. intro N0. generalize 0%nat at 1. revert ns Ln K. induction nodes as [|n l IH]; intros [|entry ms] Ln K k; try discriminate; [destruct (String.eqb "nodes" class); reflexivity|].
    cbn [List.length seq combine flat_map]. rewrite map_app, filter_app, map_app. cbn [fst snd]. rewrite (IH ms); [|cbn in Ln; lia|intros j m E; apply (K (S j) m E)].
    destruct (K 0%nat n eq_refl) as (entry' & Ee & i & M). cbn in Ee. injection Ee as <-.
    destruct (make_noisy_mean _ _ _ _ _ M) as (Mn & T & Id & Cs). cbn [fst snd] in *. cbn [filter].
    assert (X : noisy_with_states (fst entry) = match mn_data (nn_node n) with DPower _ _ _ _ _ => true | _ => false end).
    { destruct Cs as [(Et & b & so & Cb & Db & _)|(Et & _)].
      - destruct (powernode_shape _ _ _ _ _ Cb) as (Gc & B & iv & ->). rewrite Db, Et. reflexivity.
      - unfold noisy_with_states. destruct (String.eqb_spec (fst entry) stochastic_type); [contradiction|]. rewrite orb_false_r.
        unfold mean_entry in Mn. destruct (String.eqb_spec (fst entry) stochastic_type) in Mn; [contradiction|]. destruct (node_described _ _ _ Mn) as (_ & _ & D). cbn [fst snd] in D.
        unfold nodetype_of in D. change (mn_data (mean_node (nn_node n))) with (mn_data (nn_node n)) in D. destruct (mn_data (nn_node n)); inversion D; try reflexivity.
        + match goal with H : In _ _ |- _ => destruct H as [<-|[<-|[]]]; reflexivity end.
        + match goal with H : In _ _ |- _ => destruct H as [Q|[Q|[Q|[Q|[]]]]]; injection Q as <- _ _; reflexivity end. }
    rewrite X. unfold noisy_states_of, node_states_of. cbn [fst snd].
    destruct (nn_noise n), (mn_data (nn_node n)); cbn [map filter app andb fst snd]; try reflexivity;
      unfold keep, label; cbn [fst snd sc_class sc_type sc_id]; rewrite ?T, ?Id; destruct (String.eqb "nodes" class), (String.eqb (fst entry) type); reflexivity. }
  assert (He : forall class type, map snd (filter (keep class type) (map label (flat_map edge_states_of edges)))
    = if String.eqb "connections" class then map (fun entry => id (snd entry)) (filter (fun entry => (edge_with_states (fst entry) && String.eqb (fst entry) type)%bool) es) else []).
  { intros class type. clear -Be. induction Be as [|entry m l r Q F IH]; [destruct (String.eqb "connections" class); reflexivity|].
    cbn [flat_map]. rewrite map_app, filter_app, map_app. rewrite IH. destruct (edge_described _ _ _ Q) as (T & I & (_ & _ & D)).
    assert (X : edge_with_states (fst entry) = match e_type (me_edge m) with ELine _ _ => false | _ => true end) by (inversion D; reflexivity).
    clear D. cbn [filter]. rewrite X. unfold edge_states_of.
    destruct (e_type (me_edge m)); cbn [map filter app andb]; unfold keep, label; cbn [fst snd sc_class sc_type sc_id]; rewrite ?T, <- ?I;
      try reflexivity; destruct (String.eqb "connections" class), (String.eqb (fst entry) type); reflexivity. }
  assert (Lt : forall class type, map id (of_type out class type) = map snd (filter (keep class type) (map (fun c => label (fst c)) (flat_map (noisy_states_of N) (with_drawn nan nodes e))))
     ++ map snd (filter (keep class type) (map label (flat_map edge_states_of edges)))).
  { intros class type. rewrite L.
    assert (E1 : forall l : list with_output, map (fun c => sc_id (fst c)) (filter (of_kind class type) l) = map snd (filter (keep class type) (map (fun c => label (fst c)) l))).
    { intro l. induction l as [|c l IH]; [reflexivity|]. cbn. unfold of_kind, keep in *. cbn. destruct (_ && _)%bool; cbn; rewrite IH; reflexivity. }
    rewrite E1. change (noisy_components nan nodes edges e) with (indexed 0 (flat_map (noisy_states_of N) (with_drawn nan nodes e) ++ map (fun c => (c, JNull)) (flat_map edge_states_of edges))).
    rewrite indexed_labels, map_app, filter_app, map_app. rewrite map_map. reflexivity. }
  split; intro type; rewrite Lt, Hn, He; cbn; [apply app_nil_r|reflexivity].
Qed.
Lemma noisy_seed j n s : nth_error nodes j = Some n -> nn_noise n = Some s ->
  exists r, In r (of_type out "nodes" stochastic_type) /\ entry_of r "id" = Some (JStr (mn_id (nn_node n))) /\ entry_of r "seed" = entry_of (nn_output n) "seed".
Proof.
  intros En Es. destruct (stochastic_made j n s En Es) as (entry & Gc & B & iv & _ & _ & T & _ & Dm & _). destruct (noisy_placed e) as [Pn _].
  destruct (outputs_inv _ _ _ (noisy_outputs e) file) as [F _].
  assert (Ic : In (mkState "nodes" (mn_type (nn_node n)) (mn_id (nn_node n)) 0 (KPower Gc B (power_lines N j)
     (Stochastic_values iv (current_P (nth j e (undrawn nan))) (current_Q (nth j e (undrawn nan))))), nn_output n) (noisy_states_of N (j, (n, nth j e (undrawn nan))))).
  { unfold noisy_states_of. rewrite Es, Dm. left. reflexivity. }
  destruct (F _ (Pn j n _ En Ic)) as (l & _ & r & Ir & _ & R2 & R3). unfold moved in Ir, R2; cbn [fst snd sc_class sc_type sc_id] in *. rewrite T in Ir.
  exists r. split; [exact Ir|]. split; [exact R2|]. apply R3; discriminate.
Qed.
End File.
End Reports.
