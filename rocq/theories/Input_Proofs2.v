(** * Proofs: indices of the components and what the states file reports *)
From Coq Require Import Reals ZArith Lra Lia List Bool Arith String.
From Coquelicot Require Import Complex.
From Verif Require Import Base Interp_Model Json_Model Json_Spec Defaults_Model Controls_Model Calc Euler_Model Euler_Spec Net_Model Net_Spec Net_Proofs
  Net_Proofs5 Net_Proofs6 Net_Proofs8 States_Model States_Spec States_Proofs4 States_Proofs5 Controls_Proofs Factory_Proofs8 Input_Model Input_Spec Input_Proofs.
Import ListNotations.
Local Open Scope string_scope.
Local Open Scope list_scope.

(** ** Indices *)
Definition moved (c : state_component) (s : nat) : state_component := mkState (sc_class c) (sc_type c) (sc_id c) s (sc_kind c).

Lemma indices_flat {A} (f : A -> list state_component) (size : A -> nat) l :
  (forall a, In a l -> (f a = [] /\ size a = 0%nat) \/ exists c, f a = [c] /\ needed_number_of_states (sc_kind c) = size a) ->
  forall next, snd (set_state_indices next (flat_map f l)) = snd (assign_indices next (map size l)) /\
    forall i a c, nth_error l i = Some a -> In c (f a) ->
      In (moved c (fst (nth i (fst (assign_indices next (map size l))) (0, 0)%nat))) (fst (set_state_indices next (flat_map f l))).
Proof.
  induction l as [|a l IH]; intros H next.
  - split; [reflexivity|]. intros [|i] a c E; discriminate.
  - assert (Hl : forall a, In a l -> (f a = [] /\ size a = 0%nat) \/ exists c, f a = [c] /\ needed_number_of_states (sc_kind c) = size a)
      by (intros; apply H; right; auto).
    cbn [flat_map map assign_indices]. destruct (H a (or_introl eq_refl)) as [[Ef Es]|[c [Ef Es]]]; rewrite Ef.
    + rewrite Es, Nat.add_0_r. cbn [app]. destruct (IH Hl next) as [A1 A2].
      destruct (assign_indices next (map size l)) as [blocks after]. cbn [fst snd] in *. split; [exact A1|].
      intros [|i] b c E I; cbn in E; [injection E as <-; rewrite Ef in I; destruct I|]. cbn [nth]. apply (A2 i b c E I).
    + cbn [app set_state_indices]. rewrite Es. destruct (IH Hl (next + size a)%nat) as [A1 A2].
      destruct (assign_indices (next + size a) (map size l)) as [blocks after]. cbn [fst snd] in *. split; [exact A1|].
      intros [|i] b c' E I; cbn in E.
      * injection E as <-. rewrite Ef in I. destruct I as [<-|[]]. left. reflexivity.
      * right. cbn [nth]. apply (A2 i b c' E I).
Qed.

Definition item := ((nat * made_node) + made_edge)%type.
Definition item_states (N : network) (a : item) : list state_component :=
  match a with inl jn => node_states_of N jn | inr e => edge_states_of e end.
Definition item_size (a : item) : nat :=
  match a with inl jn => node_states (nodetype_of (snd jn)) | inr e => edge_states (e_type (me_edge e)) end.
Definition items (nodes : list made_node) (edges : list made_edge) : list item :=
  map inl (combine (seq 0 (List.length nodes)) nodes) ++ map inr edges.
Lemma flat_map_map {A B C} (f : B -> list C) (g : A -> B) l : flat_map f (map g l) = flat_map (fun a => f (g a)) l.
Proof. induction l as [|a l IH]; cbn; [reflexivity|]. rewrite IH. reflexivity. Qed.
Lemma components_items nodes edges : state_components_of nodes edges = flat_map (item_states (network_of nodes edges)) (items nodes edges).
Proof. unfold state_components_of, items. rewrite flat_map_app, !flat_map_map. reflexivity. Qed.
Lemma map_snd_combine {A B} (l : list A) (m : list B) : List.length l = List.length m -> map snd (combine l m) = m.
Proof. revert m. induction l as [|a l IH]; intros [|b m] H; try discriminate; [reflexivity|]. cbn. rewrite IH; auto. Qed.
Lemma sizes_items nodes edges : map item_size (items nodes edges) = state_sizes (network_of nodes edges).
Proof.
  unfold items, state_sizes, network_of. cbn [Net_Model.nodes Net_Model.edges]. rewrite map_app, !map_map. f_equal.
  assert (E : map (fun m => node_states (nodetype_of m)) (map snd (combine (seq 0 (List.length nodes)) nodes)) = map (fun m => node_states (nodetype_of m)) nodes)
    by (rewrite map_snd_combine; [reflexivity|apply seq_length]).
  rewrite map_map in E. exact E.
Qed.
Lemma nth_numbered {A} (l : list A) : forall k j a, nth_error l j = Some a -> nth_error (combine (seq k (List.length l)) l) j = Some ((k + j)%nat, a).
Proof.
  induction l as [|x l IH]; intros k [|j] a H; try discriminate; cbn in *.
  - injection H as <-. rewrite Nat.add_0_r. reflexivity.
  - rewrite (IH (S k) j a H). do 2 f_equal. lia.
Qed.

Lemma components_placed nodes edges comps n : set_state_indices 0 (state_components_of nodes edges) = (comps, n) ->
  let N := network_of nodes edges in
  n = number_of_states N /\
  (forall j m c, nth_error nodes j = Some m -> In c (node_states_of N (j, m)) -> In (moved c (fst (node_block N j))) comps) /\
  (forall i e c, nth_error edges i = Some e -> In c (edge_states_of e) -> In (moved c (fst (edge_block N i))) comps).
Proof.
  cbv zeta. intro H. rewrite components_items in H.
  destruct (indices_flat (item_states (network_of nodes edges)) item_size (items nodes edges)) with (next := 0%nat) as [A B].
  { intros [jn|e] _; cbn [item_states item_size].
    - unfold node_states_of, nodetype_of. destruct (mn_data (snd jn)); cbn; auto; right; eexists; split; reflexivity.
    - unfold edge_states_of. destruct (e_type (me_edge e)); cbn; auto; right; eexists; split; reflexivity. }
  rewrite H in A, B. cbn [fst snd] in A, B. rewrite sizes_items in A, B. split; [exact A|]. split.
  - intros j m c E I. unfold node_block, state_blocks. apply (B j (inl (j, m)) c); [|exact I].
    unfold items. rewrite nth_error_app1.
    + apply (map_nth_error inl). apply (nth_numbered nodes 0 j m E).
    + rewrite map_length, combine_length, seq_length, Nat.min_id. apply nth_error_Some. congruence.
  - intros i e c E I. unfold edge_block, state_blocks.
    assert (L : List.length (Net_Model.nodes (network_of nodes edges)) = List.length nodes) by (cbn; apply map_length).
    rewrite L. apply (B (List.length nodes + i)%nat (inr e) c); [|exact I].
    unfold items. rewrite nth_error_app2; rewrite map_length, combine_length, seq_length, Nat.min_id; [|lia].
    replace (List.length nodes + i - List.length nodes)%nat with i by lia. apply (map_nth_error inr). exact E.
Qed.

Definition label (c : state_component) : string * string * string := (sc_class c, sc_type c, sc_id c).
Lemma indices_labels comps : forall next, map label (fst (set_state_indices next comps)) = map label comps.
Proof. induction comps as [|c comps IH]; intro next; [reflexivity|]. cbn. rewrite IH. reflexivity. Qed.

(** ** Entries of the file *)
Lemma save_inv saved : forall comps comps', ofold (fun cs ts => json_save (fst ts) (snd ts) cs) saved comps = Ok comps' ->
  forall c, In c comps -> exists es, omapM (fun ts => saved_entry (fst c) (fst ts) (snd ts)) saved = Ok es.
Proof.
  induction saved as [|ts saved IH]; intros comps comps' H c I; [exists []; reflexivity|].
  cbn [ofold] in H. apply obind_Ok in H. destruct H as (cs & Hs & H). unfold json_save in Hs. apply omapM_inv in Hs.
  assert (X : exists c', In c' cs /\ fst c' = fst c /\ exists e, saved_entry (fst c) (fst ts) (snd ts) = Ok e).
  { clear -Hs I. induction Hs as [|a b l m Q F IHF]; [destruct I|]. destruct I as [->|I].
    - apply obind_Ok in Q. destruct Q as (e & Qe & Q). apply omap_Ok in Q. destruct Q as (o & _ & ->).
      eexists. split; [left; reflexivity|]. cbn. eauto.
    - destruct (IHF I) as (c' & Ic & R). exists c'. split; [right; exact Ic|exact R]. }
  destruct X as (c' & Ic & Ef & e & He). destruct (IH cs comps' H c' Ic) as [es Hes]. rewrite Ef in Hes.
  exists (e :: es). cbn [omapM]. rewrite He. cbn [obind]. rewrite Hes. reflexivity.
Qed.
Lemma setup_inv comps comps' : setup_components comps = Ok comps' -> map fst comps' = map fst comps.
Proof.
  unfold setup_components. intro H. apply omapM_inv in H. induction H as [|a b l m Q F IH]; [reflexivity|].
  apply omap_Ok in Q. destruct Q as (o & _ & ->). cbn. rewrite IH. reflexivity.
Qed.
Lemma file_inv comps saved out : (forall c, In c comps -> snd c = JNull) -> states_file comps saved = Ok out ->
  (forall c, In c comps -> exists es, omapM (fun ts => saved_entry (fst c) (fst ts) (snd ts)) saved = Ok es /\
     exists r, In r (of_type out (sc_class (fst c)) (sc_type (fst c))) /\ entry_of r "id" = Some (JStr (sc_id (fst c))) /\
       entry_of r "data" = Some (JArr es)) /\
  forall class type, map id (of_type out class type) = map (fun c => sc_id (fst c)) (filter (of_kind class type) comps).
Proof.
  intros Hn H.
  assert (He : forall c, In c comps -> exists es, omapM (fun ts => saved_entry (fst c) (fst ts) (snd ts)) saved = Ok es).
  { unfold states_file in H. apply obind_Ok in H. destruct H as (cs1 & H1 & H). apply obind_Ok in H. destruct H as (cs2 & H2 & _).
    intros c I. assert (I1 : In (fst c) (map fst cs1)) by (rewrite (setup_inv _ _ H1); apply in_map, I).
    apply in_map_iff in I1. destruct I1 as (c' & Ec & I1). destruct (save_inv _ _ _ H2 c' I1) as [es Q]. rewrite Ec in Q. eauto. }
  set (es := fun c : with_output => match omapM (fun ts => saved_entry (fst c) (fst ts) (snd ts)) saved with Ok l => l | _ => [] end).
  destruct (states_file_ok comps saved es) as (j & Ej & _ & F).
  { intros c I. left. apply Hn, I. }
  { intros c I. destruct (He c I) as [l Q]. unfold es. rewrite Q. exact Q. }
  assert (j = out) by congruence. subst j. split.
  - intros c I. exists (es c). split; [destruct (He c I) as [l Q]; unfold es; rewrite Q; reflexivity|].
    specialize (F (sc_class (fst c)) (sc_type (fst c))).
    assert (If : In c (filter (of_kind (sc_class (fst c)) (sc_type (fst c))) comps)).
    { apply filter_In. split; [exact I|]. unfold of_kind. rewrite !String.eqb_refl. reflexivity. }
    induction F as [|a r l m Q F IHF]; [destruct If|]. destruct If as [->|If].
    + exists r. destruct Q as (Q1 & Q2 & _). split; [left; reflexivity|]. auto.
    + destruct (IHF If) as (r' & Ir & R). exists r'. split; [right; exact Ir|exact R].
  - intros class type. specialize (F class type). induction F as [|a r l m Q F IHF]; [reflexivity|]. cbn [map]. rewrite IHF. f_equal.
    destruct Q as (_ & Q & _). destruct r as [| | | | |fs]; try discriminate. cbn in Q |- *. rewrite Q. reflexivity.
Qed.

(** ** The entries of a component *)
Lemma row_length n x : List.length (row_of_state n x) = n.
Proof. unfold row_of_state. rewrite map_length. apply seq_length. Qed.
Lemma row_get n x i : (i < n)%nat -> get (row_of_state n x) i = Ok (x i).
Proof.
  intro H. unfold get, row_of_state.
  rewrite (nth_error_nth' _ 0%R) by (rewrite map_length, seq_length; exact H).
  rewrite (nth_indep _ 0%R (x 0%nat)) by (rewrite map_length, seq_length; exact H).
  rewrite map_nth, seq_nth by exact H. reflexivity.
Qed.
Lemma row_vec n x i : (i < n)%nat -> vec_of (row_of_state n x) i = x i.
Proof.
  intro H. pose proof (row_get n x i H) as Q. unfold get in Q. unfold vec_of.
  destruct (nth_error (row_of_state n x) i) eqn:E; [|discriminate]. injection Q as <-. apply nth_error_nth, E.
Qed.
Lemma row_pair n x i : (i + 1 < n)%nat -> pair_at (row_of_state n x) i = Ok (x i, x (i + 1)%nat).
Proof. intro H. unfold pair_at. rewrite !row_get by lia. reflexivity. Qed.

Lemma pipe_saved n x s np dx : (s + 2 * np <= n)%nat ->
  pipe_rows s np dx (row_of_state n x) = Ok (map (fun m => (INR m * dx, (p (x (s + 2 * m)%nat) / bar, x (s + 2 * m + 1)%nat))%R) (seq 0 np)).
Proof.
  intro H. unfold pipe_rows. apply omapM_all. intros i I. apply in_seq in I. rewrite row_pair by lia. reflexivity.
Qed.
Lemma saved_edge N i e m time x c : nth_error (edges N) i = Some (me_edge m) -> e = me_edge m ->
  (match e_type e with EPipe _ _ _ np => (0 < np)%nat | _ => True end) ->
  In c (edge_states_of m) ->
  exists r, edge_result N i (e_type e) time x = Some r /\ saved_entry (moved c (fst (edge_block N i))) time (row_of_state (number_of_states N) x) = Ok r.
Proof.
  intros E -> Hp I. destruct (edge_block_spec N i _ E) as (s & Es & Ls). unfold edge_result. rewrite Es. cbn [fst].
  unfold edge_states_of in I. unfold saved_entry, moved. cbn [sc_kind sc_start].
  destruct (e_type (me_edge m)) as [d k dx np| | | |g2p p2g|G B]; cbn [edge_states] in Ls; try (destruct I as [<-|[]]); try destruct I; cbn [sc_kind].
  - eexists. split; [reflexivity|]. rewrite pipe_saved by lia. cbn [omap]. f_equal. rewrite gas_entry_result, !map_map; [reflexivity|].
    destruct np; [lia|discriminate].
  - eexists. split; [reflexivity|]. rewrite row_pair by lia. cbn [obind]. rewrite row_pair by lia. cbn [omap]. unfold gas_result, listed, gas_entry, point_value. cbn [combine map fst snd].
    replace (s + 4 - 2)%nat with (s + 2)%nat by lia. replace (s + 2 + 1)%nat with (s + 3)%nat by lia. reflexivity.
  - eexists. split; [reflexivity|]. rewrite row_pair by lia. cbn [obind]. rewrite row_pair by lia. cbn [omap]. unfold gas_result, listed, gas_entry, point_value. cbn [combine map fst snd].
    replace (s + 4 - 2)%nat with (s + 2)%nat by lia. replace (s + 2 + 1)%nat with (s + 3)%nat by lia. reflexivity.
  - eexists. split; [reflexivity|]. rewrite row_pair by lia. cbn [obind]. rewrite row_pair by lia. cbn [omap]. unfold gas_result, listed, gas_entry, point_value. cbn [combine map fst snd].
    replace (s + 4 - 2)%nat with (s + 2)%nat by lia. replace (s + 2 + 1)%nat with (s + 3)%nat by lia. reflexivity.
  - eexists. split; [reflexivity|]. rewrite row_pair by lia. reflexivity.
Qed.

Lemma rsum_agree {A} (f g : A -> R) l : (forall a, In a l -> f a = g a) -> rsum f l = rsum g l.
Proof. apply rsum_ext. Qed.
Lemma saved_node N j m k ext G B iv time x r : well_formed N -> nth_error (nodes N) j = Some (nodetype_of m) -> mn_data m = DPower k ext G B iv ->
  saved_entry (moved (mkState "nodes" (mn_type m) (mn_id m) 0 (KPower G B (power_lines N j) (power_values_of k iv))) (fst (node_block N j)))
    time (row_of_state (number_of_states N) x) = Ok r ->
  node_result N j (nodetype_of m) time x r.
Proof.
  intros W E D H. unfold nodetype_of in *. rewrite D in *. destruct (node_block_spec N j _ E) as (s & Es & Ls). cbn [node_states] in Ls.
  destruct (lines_ok N j W) as (l & L1 & L2).
  assert (Pn : power_of N j = mkPower s G B (power_lines N j)) by (unfold power_of; rewrite E, Es; reflexivity).
  assert (V := power_value N j k ext G B (Input_Model.boundary_of iv) l x W E).
  rewrite Pn in V. cbn [pn_lines] in V. specialize (V L1).
  set (n := number_of_states N) in *.
  assert (Pv : P (mkPower s G B (power_lines N j)) (vec_of (row_of_state n x)) = Ok (fst (power N j G B x))).
  { rewrite (P_ok _ l) by exact L1. rewrite V. cbn [fst]. f_equal. unfold Pval. cbn [pn_G pn_start]. rewrite !row_vec by lia. f_equal.
    apply rsum_ext. intros [[g b] q] I. specialize (L2 _ I). cbn [snd] in L2. unfold Pterm. rewrite !row_vec by lia. reflexivity. }
  assert (Qv : Q (mkPower s G B (power_lines N j)) (vec_of (row_of_state n x)) = Ok (snd (power N j G B x))).
  { rewrite (Q_ok _ l) by exact L1. rewrite V. cbn [snd]. f_equal. unfold Qval. cbn [pn_B pn_start]. rewrite !row_vec by lia. f_equal.
    apply rsum_ext. intros [[g b] q] I. specialize (L2 _ I). cbn [snd] in L2. unfold Qterm. rewrite !row_vec by lia. reflexivity. }
  clear V. rewrite Es in H. cbn [fst] in H. unfold saved_entry, moved in H. cbn [sc_kind sc_start] in H. unfold power_entry in H.
  rewrite row_pair in H by lia. cbn [omap] in H. unfold node_result. rewrite Es. cbn [fst].
  assert (Bd : forall i y, boundary_at iv time i = Ok y -> exists v, Input_Model.boundary_of iv time = Ok v /\ y = v i).
  { intros i y Q1. unfold boundary_at in Q1. apply obind_Ok in Q1. destruct Q1 as (row & Q1 & Q2). unfold Input_Model.boundary_of. rewrite Q1. eexists. split; [reflexivity|].
    unfold get in Q2. unfold vec_of. destruct (nth_error row i) eqn:En; [|discriminate]. injection Q2 as <-. symmetry. apply nth_error_nth, En. }
  destruct k; cbn [power_values_of] in H.
  - apply obind_Ok in H. destruct H as (p0 & H0 & H). apply obind_Ok in H. destruct H as (q0 & H1 & H). injection H as <-.
    destruct (Bd _ _ H0) as (v & Bv & ->). destruct (Bd _ _ H1) as (v' & Bv' & ->). assert (v' = v) by congruence. subst v'.
    unfold reports. cbn. repeat (split; [reflexivity|]). do 2 eexists. repeat (split; [reflexivity|]). eauto.
  - apply obind_Ok in H. destruct H as (p0 & H0 & H). rewrite Qv in H. cbn [obind] in H. injection H as <-.
    destruct (Bd _ _ H0) as (v & Bv & ->).
    unfold reports. cbn. repeat (split; [reflexivity|]). do 2 eexists. repeat (split; [reflexivity|]). split; [eauto|reflexivity].
  - rewrite Pv, Qv in H. cbn [obind] in H. injection H as <-.
    unfold reports. cbn. repeat (split; [reflexivity|]). do 2 eexists. repeat (split; [reflexivity|]). auto.
Qed.
