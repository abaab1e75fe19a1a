(** * Proofs: seeds, and running again with the reported seeds *)
From Coq Require Import Reals ZArith Lra Lia List Bool Arith String.
From Verif Require Import Base Interp_Model Interp_Proofs Json_Model Json_Spec Json_Proofs Json_Proofs2 Defaults_Model Controls_Model Controls_Spec Controls_Proofs Calc Euler_Model Newton_Model Evolve_Model
  Net_Model Net_Spec States_Model States_Spec Factory_Model Factory_Spec Factory_Proofs8 Sim_Model Sim_Spec Stoch_Model Input_Model Input_Spec
  Input_Proofs Input_Proofs2 Input_Proofs3 Input_Proofs5 Noise_Model Noise_Spec Noise_Proofs Noise_Proofs2 Noise_Proofs4.
From Verif Require Seed_Model Seed_Spec Seed_Proofs3 Seed_Props.
Import ListNotations.
Local Open Scope string_scope.
Local Open Scope list_scope.

Lemma seed_integer z : seed_entry (JNum (IZR z)) = Seed_Model.Integer z.
Proof. cbn [seed_entry]. rewrite truncate_IZR. unfold Reqb. destruct (Req_EM_T (IZR z) (IZR z)); [reflexivity|congruence]. Qed.
Lemma seed_integers s : map seed_entry (map (fun z => JNum (IZR z)) s) = map Seed_Model.Integer s.
Proof. rewrite map_map. apply map_ext. intro z. apply seed_integer. Qed.
Lemma output_seed s : seed_output (map Seed_Model.Integer s) = JObj [("seed", seed_json s)].
Proof. unfold seed_output, seed_json. rewrite map_map. reflexivity. Qed.

(** The seed that a constructor uses. *)
Lemma seed_used {G} (pcg : (nat -> list Z) -> G) entropy v g out : Forall Seed_Spec.is_word entropy -> Seed_Model.stochastic_node pcg entropy v = Ok (g, out) ->
  exists s, Seed_Spec.words 8 s /\ g = Seed_Model.setup_random_number_generator pcg s /\ out = map Seed_Model.Integer s /\
    (v = Seed_Model.Absent -> s = Seed_Model.make_random_seed entropy) /\
    (forall l, Seed_Spec.words 8 l -> v = Seed_Model.Listed (map Seed_Model.Integer l) -> s = l).
Proof.
  intros F H. assert (M : Seed_Spec.words 8 (Seed_Model.make_random_seed entropy)) by (apply (Seed_Props.C92_param_again 8 entropy F)).
  unfold Seed_Model.stochastic_node, Seed_Model.normaldistribution in H. revert M H. generalize (Seed_Model.make_random_seed entropy). intros s0 M H.
  revert H. generalize (Seed_Model.setup_random_number_generator pcg). intros gen H. destruct v as [|l|]; try discriminate.
  - injection H as <- <-. exists s0. split; [exact M|]. repeat (split; [reflexivity|]). discriminate.
  - destruct (Seed_Model.get_array Seed_Model.pcg_seed_count l) as [s| |] eqn:E; try discriminate. cbn [omap] in H. injection H as <- <-. exists s.
    split; [apply (Seed_Proofs3.get_array_words 8 l s E)|]. repeat (split; [reflexivity|]). split; [discriminate|].
    intros l0 [L W] Q. injection Q as ->. pose proof (Seed_Proofs3.read_words l0 W []) as K. rewrite app_nil_r, L in K.
    change Seed_Model.pcg_seed_count with 8%nat in E. congruence.
Qed.
Lemma node_seed {G} (pcg : (nat -> list Z) -> G) entropy data s o : Forall Seed_Spec.is_word entropy -> stochastic_ctor pcg entropy data = Ok (s, o) ->
  (exists b, entry_of data "boundary_values" = Some (JObj b)) ->
  exists seed, Seed_Spec.words 8 seed /\ distribution s = Seed_Model.setup_random_number_generator pcg seed /\ o = JObj [("seed", seed_json seed)] /\
    (seed_given data = None -> seed = Seed_Model.make_random_seed entropy) /\
    (forall l, Seed_Spec.words 8 l -> seed_given data = Some (seed_json l) -> seed = l).
Proof.
  intros F H [fs B]. destruct (stochastic_inv _ _ _ _ _ H) as (_ & _ & b & g & out & Eb & Q & Ed & Eo). assert (b = JObj fs) by congruence. subst b.
  destruct (seed_used _ _ _ _ _ F Q) as (seed & W & Eg & Es & A1 & A2). exists seed. split; [exact W|]. split; [congruence|]. split; [rewrite Eo, Es; apply output_seed|].
  unfold seed_given. rewrite B. split.
  - intro N. apply A1. unfold seed_value_of. rewrite N. reflexivity.
  - intros l Wl El. apply (A2 l Wl). unfold seed_value_of. rewrite El. unfold seed_json. rewrite seed_integers. reflexivity.
Qed.
Lemma boundary_object uninit k ext data d : powernode_ctor uninit k ext data = Ok d -> exists fs, entry_of data "boundary_values" = Some (JObj fs) /\ control_ok 2 (JObj fs).
Proof.
  unfold powernode_ctor. intro H. apply obind_Ok in H. destruct H as (b & Hb & H). apply obind_Ok in H. destruct H as (iv & Hv & _).
  assert (V : control_ok 2 b).
  { apply valid_boundary_schema. unfold construct_from_json, validate_json in Hv. destruct (valid _ _ _); [reflexivity|discriminate]. }
  pose proof V as V'. destruct V' as (fs & -> & _). exists fs. split; [apply at_const_entry, Hb|exact V].
Qed.

(** ** The same entry with another seed *)
Lemma field_set_other fs k v k' : k <> k' -> field (set_field fs k v) k' = field fs k'.
Proof. intro N. rewrite field_set. destruct (String.eqb_spec k k'); congruence. Qed.
Lemma in_set_other fs k v k' w : k <> k' -> (In (k', w) (set_field fs k v) <-> In (k', w) fs).
Proof.
  intro N. induction fs as [|[x y] fs IH]; cbn.
  - split; [intros [E|[]]; congruence|intros []].
  - destruct (String.compare k x) eqn:C.
    + apply String.compare_eq_iff in C. subst x. cbn. split; (intros [E|I]; [congruence|right; exact I]).
    + cbn. split; [intros [E|I]; [congruence|exact I]|intro I; right; exact I].
    + cbn. rewrite IH. reflexivity.
Qed.
Lemma control_set fs k v n : k <> "id" -> k <> "data" -> control_ok n (JObj fs) -> control_ok n (JObj (set_field fs k v)).
Proof.
  intros N1 N2 (f & E & A & B & C & D). injection E as <-. eexists. split; [reflexivity|]. rewrite !field_set_other by assumption.
  split; [exact A|]. split; [exact B|]. split; intros w I; rewrite in_set_other in I by assumption; auto.
Qed.
Lemma construct_set uninit fs k v n : k <> "id" -> k <> "data" -> control_ok n (JObj fs) ->
  construct_from_json uninit (JObj (set_field fs k v)) (make_boundary_schema n) = construct_from_json uninit (JObj fs) (make_boundary_schema n).
Proof.
  intros N1 N2 V. pose proof (proj2 (valid_boundary_schema n _) (control_set fs k v n N1 N2 V)) as V2. pose proof (proj2 (valid_boundary_schema n _) V) as V1.
  unfold construct_from_json, validate_json. rewrite V1, V2. cbn [obind at_const]. rewrite field_set_other by assumption. reflexivity.
Qed.
Lemma at_const_same data data' k v : entry_of data k = Some v -> entry_of data' k = Some v -> at_const data k = at_const data' k.
Proof. destruct data, data'; try discriminate. cbn. intros -> ->. reflexivity. Qed.
Lemma object_of data k v : entry_of data k = Some v -> exists fs, data = JObj fs.
Proof. destruct data; try discriminate. eauto. Qed.

Lemma reseed_node {G} (pcg : (nat -> list Z) -> G) entropy entropy' uninit j entry entry' n seed :
  (forall j, Forall Seed_Spec.is_word (entropy j)) -> fst entry = stochastic_type ->
  make_noisy_node pcg entropy uninit (j, entry) = Ok n -> entry_of (nn_output n) "seed" = Some seed -> reseeded entry seed entry' ->
  make_noisy_node pcg entropy' uninit (j, entry') = Ok n.
Proof.
  intros F Et H Sd (T & O & fs & fs' & B & B' & ->). unfold make_noisy_node in *. cbn [fst snd] in *. rewrite T, Et in *.
  destruct entry as [type data], entry' as [type' data']. cbn [fst snd] in *. subst type type'. change (String.eqb stochastic_type "StochasticPQnode") with true in *. cbv iota in *.
  apply obind_Ok in H. destruct H as (x & Hx & H). apply obind_Ok in H. destruct H as (d & Hd & H). apply omap_Ok in H. destruct H as ([s o] & Hs & ->). cbn [fst snd nn_output] in *.
  destruct (object_of _ _ _ B) as [f ->]. destruct (object_of _ _ _ B') as [f' ->].
  assert (K : forall k, k <> "boundary_values" -> at_const (JObj f') k = at_const (JObj f) k).
  { intros k N. specialize (O k N). cbn in O |- *. rewrite O. reflexivity. }
  assert (Ei : id_of (JObj f') = id_of (JObj f)) by (unfold id_of; rewrite K by discriminate; reflexivity).
  rewrite Ei, Hx. cbn [obind].
  assert (Ab : at_const (JObj f) "boundary_values" = Ok (JObj fs)) by (cbn in B |- *; rewrite B; reflexivity).
  assert (Ab' : at_const (JObj f') "boundary_values" = Ok (JObj (set_field fs "seed" seed))) by (cbn in B' |- *; rewrite B'; reflexivity).
  assert (Ep : powernode_ctor uninit PQ false (JObj f') = powernode_ctor uninit PQ false (JObj f)).
  { destruct (boundary_object _ _ _ _ _ Hd) as (fs0 & E0 & V). assert (fs0 = fs) by congruence. subst fs0.
    unfold powernode_ctor, number_at. rewrite Ab, Ab'. cbn [obind]. rewrite construct_set by (try discriminate; exact V). rewrite !K by discriminate. reflexivity. }
  rewrite Ep, Hd. cbn [obind].
  assert (Es : stochastic_ctor pcg (entropy' j) (JObj f') = Ok (s, o)); [|rewrite Es; reflexivity].
  unfold stochastic_ctor in *. rewrite Ab in Hs. rewrite Ab'. cbn [obind] in *. unfold number_at, int_at in *. rewrite !K by discriminate.
  repeat (apply obind_Ok in Hs; let x := fresh "x" in let Hx := fresh "H" in destruct Hs as (x & Hx & Hs); rewrite ?Hx; cbn [obind]).
  match goal with H : Seed_Model.stochastic_node _ _ _ = Ok ?p |- _ => destruct p as [g out]; rename H into Hg end. cbn [fst snd] in *. injection Hs as <- <-.
  destruct (seed_used _ _ _ _ _ (F j) Hg) as (sd & W & _ & -> & _). rewrite output_seed in Sd. cbn in Sd. injection Sd as <-.
  destruct (Seed_Props.C93_reproducible _ pcg (entropy j) (entropy' j) _ _ _ (F j) Hg) as (_ & _ & R).
  unfold seed_value_of. rewrite field_set, String.eqb_refl. unfold seed_json. rewrite seed_integers, R. cbn [obind fst snd]. reflexivity.
Qed.
(** Nodes that are not stochastic do not use the random numbers. *)
Lemma other_node {G} (pcg : (nat -> list Z) -> G) entropy entropy' uninit j entry :
  fst entry <> stochastic_type -> make_noisy_node pcg entropy' uninit (j, entry) = make_noisy_node pcg entropy uninit (j, entry).
Proof. intro N. unfold make_noisy_node. cbn [fst snd]. destruct (String.eqb_spec (fst entry) "StochasticPQnode"); [contradiction|reflexivity]. Qed.
Lemma omapM_forall2 {A B} (f : A -> outcome B) l m : Forall2 (fun a b => f a = Ok b) l m -> omapM f l = Ok m.
Proof. induction 1 as [|a b l m Q F IH]; [reflexivity|]. cbn. rewrite Q. cbn [obind]. rewrite IH. reflexivity. Qed.
Lemma construct_again {G} (pcg : (nat -> list Z) -> G) entropy entropy' uninit ns ns' es nodes edges :
  construct_noisy pcg entropy uninit (ns, es) = Ok (nodes, edges) -> List.length ns' = List.length ns ->
  (forall j entry entry' n, nth_error ns j = Some entry -> nth_error ns' j = Some entry' -> nth_error nodes j = Some n ->
     make_noisy_node pcg entropy uninit (j, entry) = Ok n -> make_noisy_node pcg entropy' uninit (j, entry') = Ok n) ->
  construct_noisy pcg entropy' uninit (ns', es) = Ok (nodes, edges).
Proof.
  unfold construct_noisy. cbn [fst snd]. intros H L K. apply obind_Ok in H. destruct H as (n0 & Hn & H). apply obind_Ok in H. destruct H as (e0 & He & H).
  injection H as <- <-. assert (E : omapM (make_noisy_node pcg entropy' uninit) (combine (seq 0 (List.length ns')) ns') = Ok n0).
  { apply omapM_forall2. apply omapM_inv in Hn.
    assert (Q : forall k, (forall j entry entry' n, nth_error ns j = Some entry -> nth_error ns' j = Some entry' -> nth_error n0 j = Some n ->
       make_noisy_node pcg entropy uninit ((k + j)%nat, entry) = Ok n -> make_noisy_node pcg entropy' uninit ((k + j)%nat, entry') = Ok n) ->
       Forall2 (fun a b => make_noisy_node pcg entropy uninit a = Ok b) (combine (seq k (List.length ns)) ns) n0 ->
       Forall2 (fun a b => make_noisy_node pcg entropy' uninit a = Ok b) (combine (seq k (List.length ns')) ns') n0).
    { clear -L. revert ns' n0 L. induction ns as [|a ns IH]; intros [|a' ns'] n0 L k K F; try discriminate; cbn [List.length seq combine] in *.
      - inversion F. constructor.
      - inversion F as [|x n l m Q F']; subst. constructor.
        + specialize (K 0%nat a a' n eq_refl eq_refl eq_refl). rewrite Nat.add_0_r in K. apply K, Q.
        + apply (IH ns' m); [lia| |exact F']. intros j en en' n1 E1 E2 E3 M. replace (S k + j)%nat with (k + S j)%nat in * by lia. apply (K (S j) en en' n1); assumption. }
    apply Q; [exact K|exact Hn]. }
  rewrite E. cbn [obind]. rewrite He. reflexivity.
Qed.

(** ** Preparing again *)
Lemma prepare_again {G} (pcg : (nat -> list Z) -> G) entropy entropy' uninit read read' directory p nodes :
  prepare_noisy pcg entropy uninit read directory = Ok (p, nodes) ->
  (forall name, In name ["/problem_data.json"; "/initial.json"; "/control.json"] -> read' (directory ++ name)%string = read (directory ++ name)%string) ->
  (forall all problem ns es, read (directory ++ "/problem_data.json")%string = Ok all -> problem_of all directory problem ->
     build_net read (the_defaults (Some all)) problem = Ok (ns, es) -> construct_noisy pcg entropy uninit (ns, es) = Ok (nodes, pp_edges p) ->
     exists ns', build_net read' (the_defaults (Some all)) problem = Ok (ns', es) /\ construct_noisy pcg entropy' uninit (ns', es) = Ok (nodes, pp_edges p)) ->
  prepare_noisy pcg entropy' uninit read' directory = Ok (p, nodes).
Proof.
  unfold prepare_noisy. intros H R K. rewrite !R by (cbn; tauto).
  apply obind_Ok in H. destruct H as (all & Ha & H). rewrite Ha. cbn [obind]. apply obind_Ok in H. destruct H as ([all1 settings] & Hs & H). rewrite Hs.
  cbn [obind fst snd] in *. apply obind_Ok in H. destruct H as ([all2 pd] & Hp & H). rewrite Hp. cbn [obind fst snd] in *.
  apply obind_Ok in H. destruct H as (problem & Hg & H). rewrite Hg. cbn [obind]. apply obind_Ok in H. destruct H as (initial & Hi & H). rewrite Hi. cbn [obind].
  apply obind_Ok in H. destruct H as (t & Ht & H). rewrite Ht. cbn [obind]. apply obind_Ok in H. destruct H as (cfg & Hc & H). rewrite Hc. cbn [obind].
  apply obind_Ok in H. destruct H as (d & Hd & H). rewrite Hd. cbn [obind]. destruct (negb (is_object d)); [discriminate|].
  apply obind_Ok in H. destruct H as ([ns es] & Hb & H). apply obind_Ok in H. destruct H as ([noisy edges] & Hn & H).
  destruct (at_mut_cases _ _ _ _ Hs) as [[Es ->]|[_ ->]]; [|discriminate].
  destruct (assign_other _ _ _ _ Hg) as [Eg Eo].
  destruct (at_mut_cases _ _ _ _ Hp) as [[Ep ->]|[_ ->]].
  2: { exfalso. apply (build_needs_topology _ _ _ _ Hb). rewrite Eo by discriminate. reflexivity. }
  assert (Dd : d = the_defaults (Some all)).
  { rewrite (value_default pd problem d Eo Hd). unfold the_defaults. rewrite Ep. reflexivity. }
  assert (En : noisy = nodes /\ edges = pp_edges p).
  { destruct (set_state_indices 0 (state_components_of (map nn_node noisy) edges)). destruct (set_control_indices 0 (control_components_of edges)).
    destruct (negb (setup_ok (network_of (map nn_node noisy) edges))); [discriminate|].
    apply obind_Ok in H. destruct H as (x & Hx & H). apply obind_Ok in H. destruct H as (points & Hpt & H). apply obind_Ok in H. destruct H as (fc & Hfc & H). injection H as <- <-. split; reflexivity. }
  destruct En as [-> ->]. rewrite Dd in *. destruct (K all problem ns es Ha ltac:(exists pd; auto) Hb Hn) as (ns' & Hb' & Hn'). rewrite Hb'. cbn [obind]. rewrite Hn'. cbn [obind]. exact H.
Qed.

(** The reported seed of a node, for different ids. *)
Lemma forall2_nth {A B} (P : A -> B -> Prop) l m : Forall2 P l m -> forall k a b, nth_error l k = Some a -> nth_error m k = Some b -> P a b.
Proof. induction 1 as [|x y l m Q F IH]; intros [|k] a b E1 E2; try discriminate; cbn in *; [congruence|apply (IH k); assumption]. Qed.
Lemma nodup_map {A B} (f : A -> B) l a b : NoDup (map f l) -> In a l -> In b l -> f a = f b -> a = b.
Proof.
  induction l as [|x l IH]; cbn; intros N Ia Ib E; [contradiction|]. inversion N as [|? ? N1 N2]; subst.
  destruct Ia as [->|Ia], Ib as [->|Ib]; auto.
  - exfalso. apply N1. rewrite E. apply in_map, Ib.
  - exfalso. apply N1. rewrite <- E. apply in_map, Ia.
Qed.
Lemma nodup_filter {A B} (f : A -> B) (p : A -> bool) l : NoDup (map f l) -> NoDup (map f (filter p l)).
Proof.
  induction l as [|x l IH]; cbn; intro N; [constructor|]. inversion N as [|? ? N1 N2]; subst. destruct (p x); [|auto]. cbn. constructor; [|auto].
  intro I. apply N1. apply in_map_iff in I. destruct I as (y & E & I). apply filter_In in I. rewrite <- E. apply in_map, I.
Qed.
Lemma id_given r x : entry_of r "id" = Some (JStr x) -> id r = x.
Proof. destruct r; try discriminate. cbn. intros ->. reflexivity. Qed.
Lemma noisy_seed_unique {G} (pcg : (nat -> list Z) -> G) entropy uninit nan nodes edges ns es :
  construct_noisy pcg entropy uninit (ns, es) = Ok (nodes, edges) -> forall points rows out e,
  states_file (noisy_components nan nodes edges e) (combine points (map (row_of_state (number_of_states (network_of (map nn_node nodes) edges))) rows)) = Ok out ->
  NoDup (map (fun entry => id (snd entry)) ns) -> forall j entry n seed, nth_error ns j = Some entry -> nth_error nodes j = Some n -> fst entry = stochastic_type ->
  seed_reported out (id (snd entry)) seed -> entry_of (nn_output n) "seed" = Some seed.
Proof.
  intros C points rows out e File Nd j entry n seed Ee En T (r & R1 & R2 & R3).
  destruct (made_of pcg entropy uninit nodes edges ns es C j n En) as (entry' & E' & M). assert (entry' = entry) by congruence. subst entry'.
  destruct (make_noisy_mean _ _ _ _ _ M) as (_ & _ & Id & [(_ & b & s & _ & _ & _ & Ns & _)|(Z & _)]); [|contradiction]. cbn [fst snd] in Id.
  destruct (noisy_seed pcg entropy uninit nan nodes edges ns es C _ _ _ _ File j n _ En Ns) as (r' & Q1 & Q2 & Q3).
  destruct (noisy_listed pcg entropy uninit nan nodes edges ns es C _ _ _ _ File) as [L _]. specialize (L stochastic_type).
  assert (r' = r); [|congruence].
  apply (nodup_map id (of_type out "nodes" stochastic_type)); auto.
  - rewrite L. apply nodup_filter, Nd.
  - rewrite (id_given _ _ Q2), (id_given _ _ R2). exact Id.
Qed.

(** ** The network depends only on the entries of the problem *)
Definition same_entries (p q : json) : Prop := exists fs gs, p = JObj fs /\ q = JObj gs /\ forall k, field fs k = field gs k.
Lemma assign_same p q k v : same_entries p q -> exists a b, assign p k v = Ok a /\ assign q k v = Ok b /\ same_entries a b.
Proof.
  intros (fs & gs & -> & -> & E). eexists; eexists. split; [reflexivity|]. split; [reflexivity|]. eexists; eexists. split; [reflexivity|]. split; [reflexivity|].
  intro k'. rewrite !field_set, E. reflexivity.
Qed.
Lemma at_mut_same p q k : same_entries p q -> exists a b v, at_mut p k = Ok (a, v) /\ at_mut q k = Ok (b, v) /\ same_entries a b.
Proof.
  intros (fs & gs & -> & -> & E). cbn [at_mut]. rewrite (E k). destruct (field gs k) as [v|].
  - exists (JObj fs), (JObj gs), v. split; [reflexivity|]. split; [reflexivity|]. exists fs, gs. auto.
  - eexists; eexists; eexists. split; [reflexivity|]. split; [reflexivity|]. eexists; eexists. split; [reflexivity|]. split; [reflexivity|].
    intro k'. rewrite !field_set, E. reflexivity.
Qed.
Lemma at_const_entries p q k : same_entries p q -> at_const p k = at_const q k.
Proof. intros (fs & gs & -> & -> & E). cbn. rewrite E. reflexivity. Qed.
Lemma contains_entries p q k : same_entries p q -> contains p k = contains q k.
Proof. intros (fs & gs & -> & -> & E). cbn. rewrite E. reflexivity. Qed.
Lemma replace_same read p q key : same_entries p q ->
  match replace_entry read p key, replace_entry read q key with Ok a, Ok b => same_entries a b | Exc, Exc => True | UB, UB => True | _, _ => False end.
Proof.
  intro S. unfold replace_entry. pose proof S as (fs & gs & -> & -> & _). cbv iota.
  destruct (at_mut_same _ _ key S) as (a & b & v & -> & -> & Sa). cbn [obind fst snd]. destruct v; try exact I; [|exact Sa].
  rewrite (contains_entries a b _ Sa), (at_const_entries a b _ Sa).
  assert (K : forall o : outcome json, match obind o (assign a key), obind o (assign b key) with Ok a, Ok b => same_entries a b | Exc, Exc => True | UB, UB => True | _, _ => False end).
  { intros [j| |]; cbn [obind]; auto. destruct (assign_same a b key j Sa) as (a' & b' & -> & -> & S'). exact S'. }
  destruct (is_absolute s); [apply K|]. destruct (contains b _); [|exact I]. destruct (obind (at_const b _) get_string); cbn [obind]; [apply K|exact I|exact I].
Qed.
Lemma build_same read d p q : same_entries p q -> build_net read d p = build_net read d q.
Proof.
  intro S. unfold build_net. assert (E : full_topology read p = full_topology read q); [|rewrite E; reflexivity].
  unfold full_topology. pose proof (replace_same read p q "topology_json" S) as K. destruct (replace_entry read p _), (replace_entry read q _); cbn [obind]; try reflexivity; try contradiction.
  pose proof (replace_same read _ _ "boundary_json" K) as K'. destruct (replace_entry read a _), (replace_entry read a0 _); cbn [obind]; try reflexivity; try contradiction.
  rewrite !(at_const_entries _ _ _ K'). reflexivity.
Qed.
Lemma problems_same all directory p q : problem_of all directory p -> problem_of all directory q -> same_entries p q.
Proof.
  intros (g & E & A & B) (g' & E' & A' & B'). assert (g' = g) by congruence. subst g'. destruct (object_of _ _ _ A) as [fs ->], (object_of _ _ _ A') as [gs ->].
  exists fs, gs. split; [reflexivity|]. split; [reflexivity|]. intro k. destruct (String.eqb_spec k "GRAZER_file_directory") as [->|N].
  - cbn in A, A'. congruence.
  - specialize (B k N). specialize (B' k N). cbn in B, B'. congruence.
Qed.
