(** * Properties C79, C80: problem_data.json and the net *)
From Coq Require Import Reals List Bool Arith Lia String Ascii Sorted Permutation.
From Verif Require Import Base Interp_Model Interp_Spec Json_Model Json_Spec Json_Proofs Json_Proofs2 Json_Proofs3 Json_Props Defaults_Model Defaults_Spec Defaults_Proofs Defaults_Proofs2
  Defaults_Proofs3 Defaults_Props Controls_Model Controls_Spec Controls_Proofs States_Model States_Spec States_Proofs Factory_Model Factory_Spec Factory_Proofs
  Factory_Proofs2 Factory_Proofs3 Factory_Proofs4 Factory_Proofs5 Factory_Proofs6 Factory_Proofs7 Factory_Proofs8 Factory_Proofs9 Factory_Props.
From Verif Require Units_Model Units_Spec.
Import ListNotations.
Local Open Scope string_scope.
Local Open Scope list_scope.

(** ** C79 *)
Lemma integer_ok x : Interp_Model.Reqb x (IZR (Int_part x)) && Interp_Model.Rleb 0 x = true <-> exists n, x = INR n.
Proof.
  unfold Interp_Model.Reqb, Interp_Model.Rleb. destruct (Req_EM_T x (IZR (Int_part x))) as [E|E]; destruct (Rle_dec 0 x) as [P|P]; cbn [andb]; split; intro H; try discriminate; try reflexivity.
  - exists (Z.to_nat (Int_part x)). rewrite INR_IZR_INZ, Z2Nat.id; [exact E|]. apply le_IZR. rewrite <- E. exact P.
  - destruct H as [n ->]. exfalso. apply P, pos_INR.
  - destruct H as [n ->]. exfalso. apply E. rewrite Int_part_INR. apply INR_IZR_INZ.
  - destruct H as [n ->]. exfalso. apply E. rewrite Int_part_INR. apply INR_IZR_INZ.
Qed.
Lemma V_integer v : V type_integer v = true <-> natural v.
Proof.
  rewrite V_step. unfold vstep. cbn - [INR Int_part IZR]. unfold natural. destruct v; cbn [has_type]; try (split; [discriminate|intros [n E]; discriminate]).
  cbn [String.eqb Ascii.eqb Bool.eqb orb andb]. rewrite !andb_true_r. rewrite integer_ok. split; intros [n E]; exists n; congruence.
Qed.
Lemma V_boolean v : V type_boolean v = true <-> boolean v.
Proof. rewrite V_step. unfold vstep, boolean. destruct v; cbn; split; intro H; try discriminate; try (destruct H as [b H]; discriminate); eauto. Qed.
Lemma V_object required ps kinds j :
  (forall k, match field ps k, look_up kinds k with
             | Some def, Some P => forall v, canonical v -> (V def v = true <-> P v)
             | None, None => True
             | _, _ => False
             end) ->
  canonical j -> (V (object_schema required ps) j = true <-> object_with required kinds j).
Proof.
  intros H C. assert (Pl : plain_node (object_schema required ps)) by (apply plain_fields; cbn [map fst]; unfold node_key; cbn; intuition).
  assert (R : required_of (object_schema required ps) = required) by (apply (required_of_list _ required); reflexivity). split.
  - intro Q. destruct (V_node_object (object_schema required ps) _ _ eq_refl Q) as [fs ->]. apply (V_node _ ps fs Pl eq_refl (canonical_nodup fs C)) in Q. destruct Q as (Q1 & Q2 & _). rewrite R in Q1.
    exists fs. split; [reflexivity|]. split; [exact Q1|]. intros k P v E Ev. specialize (H k). rewrite E in H. destruct (field ps k) as [def|] eqn:Ed; [|destruct H].
    apply H; [eapply canonical_field; eassumption|]. eapply Q2; eassumption.
  - intros (fs & -> & Q1 & Q2). apply (V_node _ ps fs Pl eq_refl (canonical_nodup fs C)). split; [rewrite R; exact Q1|]. split; [|discriminate].
    intros k v def Ev Ed. specialize (H k). rewrite Ed in H. destruct (look_up kinds k) as [P|] eqn:E; [|destruct H]. apply H; [eapply canonical_field; eassumption|]. eapply Q2; eassumption.
Qed.
Lemma V_defaults v : canonical v ->
  (V (JObj [("patternProperties", JObj [("^.*$", JObj [("type", JStr "object")])]); ("type", JStr "object")]) v = true <-> object_of_objects v).
Proof.
  intro C. rewrite V_step. unfold vstep, object_of_objects. cbn - [V]. destruct v as [| | | | |fs]; cbn; try (split; [discriminate|intros (fs & E & _); discriminate]).
  rewrite !andb_true_r, forallb_forall. split.
  - intro H. exists fs. split; [reflexivity|]. intros k v E. apply field_in in E. apply H in E. cbn [snd] in E. rewrite V_step in E. unfold vstep in E. cbn in E. destruct v; try discriminate. eexists. reflexivity.
  - intros (gs & E & H) [k v] I. injection E as <-. apply (field_nodup _ _ _ (canonical_nodup fs C)) in I. destruct (H k v I) as [ws ->]. rewrite V_step. reflexivity.
Qed.
Ltac keys := let k := fresh "k" in intro k; cbn [field look_up]; repeat match goal with
  | |- context [string_dec ?a k] => destruct (string_dec a k) as [<-|]; [cbn [String.eqb Ascii.eqb Bool.eqb]|]
  end; repeat match goal with
  | |- context [String.eqb ?a ?b] => destruct (String.eqb_spec a b); [congruence|]
  end; try exact I.
(** The schema for problem_data.json accepts exactly the documents [problem_data_ok]. *)
Theorem C79_schema : forall j, canonical j -> (validate_json j problem_data_schema = Ok tt <-> problem_data_ok j).
Proof.
  intros j C. rewrite validate_V. assert (Q : V problem_data_schema j = true <-> problem_data_ok j); [|rewrite <- Q; destruct (V problem_data_schema j); split; congruence].
  assert (T : forall v, canonical v -> (V type_string v = true <-> text v)) by (intros v _; apply V_text).
  assert (N : forall v, canonical v -> (V type_number v = true <-> number v)) by (intros v _; apply V_number).
  assert (Z : forall v, canonical v -> (V type_integer v = true <-> natural v)) by (intros v _; apply V_integer).
  assert (B : forall v, canonical v -> (V type_boolean v = true <-> boolean v)) by (intros v _; apply V_boolean).
  unfold problem_data_schema, problem_data_ok. apply V_object; [|exact C]. keys.
  - intros v Cv. apply V_object; [|exact Cv]. keys; auto.
  - intros v Cv. apply V_object; [|exact Cv]. keys. intros v1 Cv1. apply V_object; [|exact Cv1]. keys. intros v2 Cv2. apply V_object; [|exact Cv2]. keys. auto.
  - intros v Cv. apply V_object; [|exact Cv]. keys. intros v1 Cv1. apply V_object; [|exact Cv1]. keys. intros v2 Cv2. apply V_object; [|exact Cv2]. keys; auto. apply V_defaults.
Qed.
Print Assumptions C79_schema.

(** A run and the generation of schemas use the same defaults of a document: those directly under
    "problem_data". *)
Theorem C79_same_defaults : forall read directory doc initial net,
  read (directory ++ "/problem_data.json")%string = Ok doc ->
  run_setup read directory = Ok (initial, net) ->
  read (directory ++ "/initial.json")%string = Ok initial /\
  exists ps problem, entry_of doc "problem_data" = Some (JObj ps) /\
    (forall k, entry_of problem k = if string_dec k "GRAZER_file_directory" then Some (JStr directory) else field ps k) /\
    build_net read (the_defaults (Some doc)) problem = Ok net /\
    schema_defaults (Some doc) = Ok (the_defaults (Some doc)).
Proof.
  intros read directory doc initial net Hd H. unfold run_setup in H. rewrite Hd in H. cbn [obind] in H.
  apply obind_Ok in H. destruct H as ([doc1 settings] & H1 & H). cbn [fst] in H.
  apply obind_Ok in H. destruct H as ([doc2 p] & H2 & H). cbn [snd] in H.
  apply obind_Ok in H. destruct H as (problem & H3 & H). apply obind_Ok in H. destruct H as (i & H4 & H).
  apply obind_Ok in H. destruct H as (defaults & H5 & H). destruct (is_object defaults) eqn:Od; [|discriminate].
  apply obind_Ok in H. destruct H as (n & H6 & H). injection H as <- <-. split; [exact H4|].
  assert (Ep : entry_of doc "problem_data" = Some p \/ p = JNull /\ entry_of doc "problem_data" = None).
  { destruct doc; try discriminate; cbn [at_mut] in H1.
    - injection H1 as <- <-. cbn in H2. injection H2 as <- <-. right. split; reflexivity.
    - cbn [entry_of]. assert (Q : exists gs, doc1 = JObj gs /\ field gs "problem_data" = field fields "problem_data").
      { destruct (field fields "simulation_settings"); injection H1 as <- <-; [eauto|]. eexists. split; [reflexivity|]. rewrite field_set. reflexivity. }
      destruct Q as (gs & -> & Eg). cbn [at_mut] in H2. rewrite Eg in H2. destruct (field fields "problem_data"); injection H2 as <- <-; auto. }
  assert (Np : p <> JNull).
  { intros ->. cbn [assign] in H3. injection H3 as <-. cbn [value_or field String.eqb Ascii.eqb Bool.eqb] in H5. injection H5 as <-. discriminate H6. }
  destruct Ep as [Ep|[Ep _]]; [|contradiction]. destruct p as [| | | | |ps]; try discriminate; [contradiction|]. cbn [assign] in H3. injection H3 as <-.
  exists ps, (JObj (set_field ps "GRAZER_file_directory" (JStr directory))). split; [exact Ep|]. split; [|split].
  - intro k. cbn [entry_of]. rewrite field_set. destruct (string_dec k "GRAZER_file_directory") as [->|N]; [reflexivity|]. destruct (String.eqb_spec "GRAZER_file_directory" k); [congruence|reflexivity].
  - unfold the_defaults. rewrite Ep. cbn [entry_of]. cbn [value_or] in H5. rewrite field_set in H5. cbn [String.eqb Ascii.eqb Bool.eqb] in H5. injection H5 as <-.
    destruct (field ps "defaults"); exact H6.
  - unfold schema_defaults, the_defaults. destruct doc; try discriminate. cbn [entry_of] in Ep. cbn [at_key entry_of]. rewrite Ep. cbn [at_key entry_of]. destruct (field ps "defaults"); reflexivity.
Qed.
Print Assumptions C79_same_defaults.

(** A document as the schema asks for it cannot be run: the run looks for the data directly under
    "problem_data", not under "subproblems" and "Network_problem". *)
Definition settings : json :=
  JObj [("desired_delta_t", JNum 1); ("end_time", JNum 10); ("maximal_number_of_newton_iterations", JNum (INR 20)); ("retries", JNum (INR 1));
        ("start_time", JNum 0); ("tolerance", JNum 1); ("use_simplified_newton", JBool true)].
Definition network_data (rest : list (string * json)) : json :=
  JObj ([("boundary_json", JStr "boundary.json"); ("control_json", JStr "control.json"); ("defaults", JObj [])] ++ rest ++ [("topology_json", JStr "topology.json")]).
Definition below (key : string) (j : json) : json := JObj [(key, j)].
Definition conforming_document : json :=
  JObj [("initial_values", below "subproblems" (below "Network_problem" (below "initial_json" (JStr "initial.json"))));
        ("problem_data", below "subproblems" (below "Network_problem" (network_data [])));
        ("simulation_settings", settings)].
Definition working_document : json := JObj [("problem_data", network_data []); ("simulation_settings", settings)].
Definition small_topology : json := JObj [("connections", JObj []); ("nodes", JObj [("Innode", JArr [JObj [("id", JStr "a")]])])].
Definition small_boundary : json := JObj [("connections", JObj []); ("nodes", JObj [])].
Definition files (doc : json) (path : string) : outcome json :=
  if String.eqb path "p/problem_data.json" then Ok doc
  else if String.eqb path "p/initial.json" then Ok small_boundary
  else if String.eqb path "p/topology.json" then Ok small_topology
  else if String.eqb path "p/boundary.json" then Ok small_boundary else Exc.
Lemma look_up_one {A} (l : list (string * A)) k x : look_up l k = Some x -> In (k, x) l.
Proof. apply look_up_in. Qed.
Ltac ok_doc := repeat (first [exact (ex_intro _ _ eq_refl) | eexists; split; [reflexivity|]; split;
  [let k := fresh in let H := fresh in intros k H; cbn in H; repeat (destruct H as [<-|H]; [discriminate|]); destruct H|
   let k := fresh in let P := fresh in let v := fresh in let H := fresh in let H' := fresh in intros k P v H H'; apply look_up_in in H; cbn in H;
   repeat (destruct H as [H|H]; [injection H as <- <-; cbn in H'; try discriminate H'; injection H' as <-|]); [..|destruct H]]]).
Theorem C79_conforming_refuted : exists read directory doc,
  read (directory ++ "/problem_data.json")%string = Ok doc /\ proper doc /\ validate_json doc problem_data_schema = Ok tt /\ run_setup read directory = Exc.
Proof.
  exists (files conforming_document), "p", conforming_document. assert (P : proper conforming_document) by (apply properb_ok; reflexivity).
  split; [reflexivity|]. split; [exact P|]. split; [|reflexivity]. apply C79_schema; [apply proper_canonical, P|]. unfold problem_data_ok, conforming_document.
  ok_doc; try (exists 20%nat; reflexivity); try (exists 1%nat; reflexivity). exists []. split; [reflexivity|discriminate].
Qed.
Print Assumptions C79_conforming_refuted.
(** A document that can be run does not conform. *)
Theorem C79_working_refuted : exists read directory doc result,
  read (directory ++ "/problem_data.json")%string = Ok doc /\ proper doc /\ run_setup read directory = Ok result /\ validate_json doc problem_data_schema = Exc.
Proof.
  exists (files working_document), "p", working_document, (small_boundary, ([("Innode", JObj [("id", JStr "a")])], [])). assert (P : proper working_document) by (apply properb_ok; reflexivity).
  split; [reflexivity|]. split; [exact P|]. split; [vm_compute; reflexivity|].
  pose proof (C79_schema working_document (proper_canonical _ P)) as Q. rewrite validate_V in *. destruct (V problem_data_schema working_document); [|reflexivity].
  destruct (proj1 Q eq_refl) as (fs & E & Rq & _). injection E as <-. exfalso. apply (Rq "initial_values"); [cbn; tauto|reflexivity].
Qed.
Print Assumptions C79_working_refuted.
(** The schema requires "control_json", but describes "control": any value of "control_json" passes. *)
Theorem C79_control_refuted : exists doc, proper doc /\ validate_json doc problem_data_schema = Ok tt /\
  forall p s n c, entry_of doc "problem_data" = Some p -> entry_of p "subproblems" = Some s -> entry_of s "Network_problem" = Some n ->
    entry_of n "control_json" = Some c -> ~ text c.
Proof.
  set (doc := JObj [("initial_values", below "subproblems" (below "Network_problem" (below "initial_json" (JStr "initial.json"))));
        ("problem_data", below "subproblems" (below "Network_problem"
          (JObj [("boundary_json", JStr "boundary.json"); ("control_json", JNull); ("defaults", JObj []); ("topology_json", JStr "topology.json")])));
        ("simulation_settings", settings)]).
  exists doc. assert (P : proper doc) by (apply properb_ok; reflexivity). split; [exact P|]. split.
  - apply C79_schema; [apply proper_canonical, P|]. unfold problem_data_ok, doc.
    ok_doc; try (exists 20%nat; reflexivity); try (exists 1%nat; reflexivity). exists []. split; [reflexivity|discriminate].
  - intros p s n c E1 E2 E3 E4. cbn in E1. injection E1 as <-. cbn in E2. injection E2 as <-. cbn in E3. injection E3 as <-. cbn in E4. injection E4 as <-. intros [t E]. discriminate.
Qed.
Print Assumptions C79_control_refuted.

(** ** C80 *)
Definition types_in (class : string) (types : list component_type) : Prop :=
  class = "nodes" /\ types = node_types \/ class = "connections" /\ types = edge_types.
Lemma types_in_spec class types : types_in class types -> Factory_Proofs4.is_class class /\ types = types_of class.
Proof. intros [[-> ->]|[-> ->]]; (split; [|reflexivity]); [left|right]; reflexivity. Qed.

(** Building a class: what is built, and that nothing else is. *)
Theorem C80_build : forall class types d ts r, types_in class types -> usable_defaults d -> canonical d -> proper (JObj ts) -> lists_of_objects ts ->
  build_vector types d (JObj ts) = Ok r ->
  built d class ts r /\ forall type, field ts type <> None -> fields_of class type <> None.
Proof.
  intros class types d ts r Ht U Cd Pt Lt H. destruct (types_in_spec _ _ Ht) as [Ic ->]. destruct U as [[ds ->] U]. eapply build_ok; try eassumption.
  intros t It. destruct (known_type class t Ic It) as (fields & Ef & _). destruct (get_schema_cases class t fields (defaults_of (JObj ds) (ct_name t)) Ic It Ef) as [[_ Q]|[N _]]; [exact Q|].
  exfalso. apply N. eapply U. exact Ef.
Qed.
Print Assumptions C80_build.

(** When it succeeds. *)
Theorem C80_succeeds : forall class types d ts, types_in class types -> usable_defaults d -> canonical d -> proper (JObj ts) -> lists_of_objects ts ->
  build_vector types d (JObj ts) <> UB /\
  ((forall type, field ts type <> None -> exists fields, fields_of class type = Some fields /\ complete_defaults fields (defaults_of d type) /\
      forall e, In e (entries ts type) -> described fields (defaults_of d type) e /\ with_boundary class type e) ->
   exists r, build_vector types d (JObj ts) = Ok r).
Proof.
  intros class types d ts Ht U Cd Pt Lt. destruct (types_in_spec _ _ Ht) as [Ic ->]. destruct U as [[ds ->] U].
  assert (Gs : forall t, In t (types_of class) -> exists s, get_schema t (defaults_of (JObj ds) (ct_name t)) false false = Ok s).
  { intros t It. destruct (known_type class t Ic It) as (fields & Ef & _). destruct (get_schema_cases class t fields (defaults_of (JObj ds) (ct_name t)) Ic It Ef) as [[_ Q]|[N _]]; [exact Q|].
    exfalso. apply N. eapply U. exact Ef. }
  split; [eapply build_not_UB; eassumption|]. intro H. eapply build_exists; eassumption.
Qed.
Print Assumptions C80_succeeds.

(** Unknown types are rejected. *)
Theorem C80_unknown_type : forall class types d ts type, types_in class types -> field ts type <> None -> fields_of class type = None ->
  build_vector types d (JObj ts) = Exc.
Proof.
  intros class types d ts type Ht K N. destruct (types_in_spec _ _ Ht) as [Ic ->]. unfold build_vector. destruct (forallb _ _) eqn:E; [|reflexivity].
  pose proof (proj1 (known_types class ts Ic) E type K) as I. apply in_map_iff in I. destruct I as (t & <- & It). destruct (known_type class t Ic It) as (fields & Ef & _). congruence.
Qed.
Print Assumptions C80_unknown_type.

Example C80_ex : build_vector node_types (JObj []) (JObj [("Innode", JArr [JObj [("id", JStr "b")]; JObj [("id", JStr "a")]])]) =
    Ok [("Innode", JObj [("id", JStr "b")]); ("Innode", JObj [("id", JStr "a")])] /\
  build_vector node_types (JObj []) (JObj [("Source", JArr [JObj [("id", JStr "b")]])]) = Exc /\
  build_vector node_types (JObj []) (JObj [("Pipe", JArr [])]) = Exc.
Proof. split; [vm_compute; reflexivity|]. split; vm_compute; reflexivity. Qed.

(** Entries of problem_data.json that are file names. *)
Theorem C80_files : forall read p key p', replace_entry read p key = Ok p' ->
  exists j, content read p key j /\ entry_of p' key = Some j /\ forall k, k <> key -> entry_of p' k = entry_of p k.
Proof.
  intros read p key p' H. unfold replace_entry in H. destruct p as [| | | | |ps]; try discriminate. cbn [at_mut] in H.
  destruct (field ps key) as [v|] eqn:Ev; [|discriminate]. cbn [obind fst snd] in H. unfold content. cbn [entry_of]. rewrite Ev.
  assert (As : forall x q, assign (JObj ps) key x = Ok q -> entry_of q key = Some x /\ forall k, k <> key -> entry_of q k = field ps k).
  { intros x q E. cbn [assign] in E. injection E as <-. cbn [entry_of]. split; [rewrite field_set, String.eqb_refl; reflexivity|]. intros k N. rewrite field_set. destruct (String.eqb_spec key k); [congruence|reflexivity]. }
  destruct v as [| | |path| |fs]; try discriminate.
  - destruct (is_absolute path) eqn:Ea.
    + apply obind_Ok in H. destruct H as (j & Hr & H). apply As in H. exists j. split; [|exact H]. destruct path as [|c path]; [discriminate|]. unfold is_absolute in Ea. cbn [String.prefix] in Ea.
      destruct (ascii_dec "/" c) as [<-|]; [exact Hr|discriminate].
    + destruct (contains (JObj ps) "GRAZER_file_directory") eqn:Ec; [|discriminate]. apply obind_Ok in H. destruct H as (directory & Hd & H). apply obind_Ok in H. destruct H as (j & Hr & H).
      apply As in H. exists j. split; [|exact H]. assert (Q : exists directory, field ps "GRAZER_file_directory" = Some (JStr directory) /\ read (directory ++ "/" ++ path)%string = Ok j).
      { exists directory. split; [|exact Hr]. apply obind_Ok in Hd. destruct Hd as (w & Hw & Hd). unfold at_const in Hw. clear Ec. destruct (field ps "GRAZER_file_directory") as [u|]; [|discriminate Hw].
        injection Hw as ->. destruct w; try discriminate Hd. cbn in Hd. congruence. }
      destruct path as [|c path]; [exact Q|]. unfold is_absolute in Ea. cbn [String.prefix] in Ea. destruct (ascii_dec "/" c) as [<-|N]; [destruct path; discriminate Ea|].
      destruct c as [b0 b1 b2 b3 b4 b5 b6 b7]; destruct b0, b1, b2, b3, b4, b5, b6, b7; try exact Q; exfalso; apply N; reflexivity.
  - injection H as <-. exists (JObj fs). split; [reflexivity|]. cbn [entry_of]. auto.
Qed.
Print Assumptions C80_files.
Example C80_files_ex : replace_entry (files working_document) (JObj [("GRAZER_file_directory", JStr "p"); ("topology_json", JStr "topology.json")]) "topology_json" =
    Ok (JObj [("GRAZER_file_directory", JStr "p"); ("topology_json", small_topology)]) /\
  replace_entry (files working_document) (JObj [("topology_json", JStr "topology.json")]) "topology_json" = Exc.
Proof. split; vm_compute; reflexivity. Qed.

(** A component that needs boundary values and has none in the boundary file: the net is not built,
    even where the merging of the files (C38) does not notice. *)
Theorem C80_missing_boundary : forall read d ps topology boundary type c P, usable_defaults d -> canonical d ->
  field ps "topology_json" = Some topology -> field ps "boundary_json" = Some boundary ->
  proper topology -> good_file topology -> good_file boundary -> NoDup (all_ids topology) -> NoDup (all_ids boundary) ->
  In c (of_type topology "nodes" type) -> wants (JObj []) Boundary_file "nodes" type = Some P ->
  entry_of c "boundary_values" = None -> (forall s, In s (of_type boundary "nodes" type) -> id s <> id c) ->
  forall net, build_net read d (JObj ps) <> Ok net.
Proof.
  intros read d ps topology boundary type c P U Cd Et Eb Pt Gt Gb Nt Nb Ic W Ec No net H. unfold build_net, full_topology in H.
  assert (Rt : replace_entry read (JObj ps) "topology_json" = Ok (JObj ps)). { unfold replace_entry. cbn [at_mut]. rewrite Et. destruct Gt as (fs & -> & _). reflexivity. }
  assert (Rb : replace_entry read (JObj ps) "boundary_json" = Ok (JObj ps)). { unfold replace_entry. cbn [at_mut]. rewrite Eb. destruct Gb as (fs & -> & _). reflexivity. }
  rewrite Rt in H. cbn [obind] in H. rewrite Rb in H. cbn [obind at_const] in H. rewrite Et, Eb in H. cbn [obind] in H.
  apply obind_Ok in H. destruct H as (t' & Hm & H). destruct (C38_attach topology boundary t' Gt Gb Nt Nb Hm) as [At _].
  destruct (At "nodes" type (or_introl eq_refl)) as (l & Pl & _ & F).
  assert (In' : In c (of_type t' "nodes" type)).
  { assert (Il : In c l) by (eapply Permutation_in; [symmetry; exact Pl|exact Ic]). revert Il No F. clear. intros Il No F. induction F as [|a b l r Hab F IH]; [destruct Il|]. destruct Il as [->|Il]; [|right; apply IH; exact Il].
    left. unfold entry_for in Hab. destruct (find _ _) as [s|] eqn:E; [|exact Hab]. exfalso. apply find_some in E. destruct E as [I E]. apply String.eqb_eq in E. exact (No s I E). }
  assert (Cc : canonical c /\ object c).
  { destruct Gt as (fs & -> & Gn & _). unfold of_type, types in Ic. destruct (field fs "nodes") as [v|] eqn:Ev; [|destruct Ic]. destruct (Gn v eq_refl) as (ts & -> & Nts & Q).
    destruct (field ts type) as [w|] eqn:Ew; [|destruct Ic]. destruct (Q type w (field_in _ _ _ Ew)) as (es & -> & Ids). pose proof (proper_field _ _ _ (proper_field _ _ _ Pt Ev) Ew) as Pw.
    inversion Pw as [| | | |? Pe|]; subst. split; [apply proper_canonical; apply Pe; exact Ic|]. destruct (Ids c Ic) as (x & es' & -> & _). eexists. reflexivity. }
  destruct Cc as [Cc Oc]. unfold of_type, types in In'. destruct t' as [| | | | |fs']; try (destruct In').
  destruct (field fs' "nodes") as [v'|] eqn:Ev'; [|destruct In']. destruct v' as [| | | | |ts']; try (destruct In'). destruct (field ts' type) as [w'|] eqn:Ew'; [|destruct In'].
  destruct w' as [| | | |es'|]; try (destruct In'). cbn [list_of] in In'.
  cbn [at_mut] in H. rewrite Ev' in H. cbn [obind fst snd] in H. apply obind_Ok in H. destruct H as (nodes & Hn & _).
  unfold build_vector in Hn. destruct (forallb _ _); [|discriminate]. destruct (omapM (instances_of_type d (JObj ts')) node_types) as [rs| |] eqn:Em; try discriminate. clear Hn.
  destruct U as [[ds ->] U].
  assert (Ik : In type (map ct_name node_types)) by (apply (wants_known (JObj []) Boundary_file "nodes" type P (or_introl eq_refl) W)).
  apply in_map_iff in Ik. destruct Ik as (t & <- & It). assert (Ex : exists e', make_instance t (defaults_of (JObj ds) (ct_name t)) c = Ok e').
  { assert (Y : exists y, instances_of_type (JObj ds) (JObj ts') t = Ok y).
    { apply omapM_inv in Em. clear - Em It. induction Em as [|a b l r E Em IH]; [destruct It|]. destruct It as [->|It]; [eauto|auto]. }
    destruct Y as [y Hy]. unfold instances_of_type, contains, at_const in Hy. rewrite Ew' in Hy. cbn [obind] in Hy. rewrite type_defaults_of in Hy. cbn [obind elems] in Hy.
    apply omapM_inv in Hy. clear - Hy In'. induction Hy as [|a b l r E Hy IH]; [destruct In'|]. destruct In' as [->|I]; [|auto]. destruct (make_instance t (defaults_of (JObj ds) (ct_name t)) c); try discriminate. eauto. }
  destruct Ex as [e' He]. destruct (known_type "nodes" t (or_introl eq_refl) It) as (fields & Ef & _).
  destruct (C77_run_accepts "nodes" t fields (defaults_of (JObj ds) (ct_name t)) c (or_introl (conj eq_refl It)) Ef (U _ _ _ Ef) (defaults_canonical _ _ Cd) Cc Oc) as (s & _ & _ & _ & Q).
  destruct (Q e' He) as (_ & Cp & _ & Wb). destruct (Wb P W) as (b & Eb' & _). specialize (Cp "boundary_values"). rewrite Ec in Cp. rewrite Eb' in Cp. symmetry in Cp.
  destruct (U _ _ _ Ef) as [_ Uk]. destruct (Uk _ _ Cp) as (g & Ig & _). apply (no_external_field "nodes" t fields "boundary_values" (or_introl eq_refl) It Ef); [cbn; tauto|].
  change "boundary_values" with (fst ("boundary_values", g)). apply in_map. exact Ig.
Qed.
Print Assumptions C80_missing_boundary.
Example C80_missing_boundary_ex : exists topology boundary,
  build_full_networkproblem_json topology boundary = Ok topology /\
  build_net (fun _ => Exc) (JObj []) (JObj [("boundary_json", boundary); ("topology_json", topology)]) = Exc /\
  In (JObj [("id", JStr "a")]) (of_type topology "nodes" "Source") /\ of_type boundary "nodes" "Source" = [].
Proof.
  exists (JObj [("connections", JObj []); ("nodes", JObj [("Source", JArr [JObj [("id", JStr "a")]])])]), small_boundary.
  split; [vm_compute; reflexivity|]. split; [vm_compute; reflexivity|]. split; [left; reflexivity|reflexivity].
Qed.


(** The net as a whole: nodes and connections are those of the merged files, both built with the
    defaults. *)
Theorem C80_net : forall read d p nodes edges, usable_defaults d -> canonical d ->
  build_net read d p = Ok (nodes, edges) ->
  exists topology boundary full,
    content read p "topology_json" topology /\ content read p "boundary_json" boundary /\
    build_full_networkproblem_json topology boundary = Ok full /\
    forall ns cs, proper full -> entry_of full "nodes" = Some (JObj ns) -> entry_of full "connections" = Some (JObj cs) ->
      lists_of_objects ns -> lists_of_objects cs ->
      built d "nodes" ns nodes /\ built d "connections" cs edges.
Proof.
  intros read d p nodes edges U Cd H. unfold build_net in H. apply obind_Ok in H. destruct H as (full & Hf & H).
  unfold full_topology in Hf. apply obind_Ok in Hf. destruct Hf as (p1 & H1 & Hf). apply obind_Ok in Hf. destruct Hf as (p2 & H2 & Hf).
  apply obind_Ok in Hf. destruct Hf as (topology & Ht & Hf). apply obind_Ok in Hf. destruct Hf as (boundary & Hb & Hf).
  destruct (C80_files _ _ _ _ H1) as (jt & Ct & Et & Ot). destruct (C80_files _ _ _ _ H2) as (jb & Cb & Eb & Ob).
  assert (Q : forall k j, at_const p2 k = Ok j -> entry_of p2 k = Some j).
  { intros k j E. destruct p2 as [| | | | |fs]; try discriminate. cbn [at_const] in E. cbn [entry_of]. destruct (field fs k); [congruence|discriminate]. }
  apply Q in Ht. apply Q in Hb. rewrite Eb in Hb. injection Hb as <-.
  rewrite (Ob "topology_json" ltac:(discriminate)), Et in Ht. injection Ht as <-.
  exists jt, jb, full. split; [exact Ct|]. split.
  { unfold content in Cb |- *. rewrite (Ot "boundary_json" ltac:(discriminate)), (Ot "GRAZER_file_directory" ltac:(discriminate)) in Cb. exact Cb. }
  split; [exact Hf|]. intros ns cs Pf En Ec Ln Lc. destruct full as [| | | | |fs]; try discriminate. cbn [entry_of] in En, Ec.
  cbn [at_mut] in H. rewrite En in H. cbn [obind fst snd] in H. apply obind_Ok in H. destruct H as (nodes' & Hn & H).
  cbn [at_mut] in H. rewrite Ec in H. cbn [obind fst snd] in H. apply obind_Ok in H. destruct H as (edges' & He & H). injection H as <- <-.
  split.
  - refine (proj1 (C80_build "nodes" node_types d ns nodes' _ U Cd (proper_field _ _ _ Pf En) Ln Hn)). left. split; reflexivity.
  - refine (proj1 (C80_build "connections" edge_types d cs edges' _ U Cd (proper_field _ _ _ Pf Ec) Lc He)). right. split; reflexivity.
Qed.
Print Assumptions C80_net.
(** A line that takes its values G and B from the defaults. *)
Definition line_defaults : json := JObj [("Transmissionline", JObj [("B", JNum 2); ("G", JNum 1)])].
Example C80_net_ex : exists topology nodes line,
  build_net (fun _ => Exc) line_defaults (JObj [("boundary_json", JObj [("connections", JObj []); ("nodes", JObj [])]); ("topology_json", topology)])
    = Ok (nodes, [("Transmissionline", line)]) /\
  entry_of line "B" = Some (JNum 2) /\
  build_net (fun _ => Exc) (JObj []) (JObj [("boundary_json", JObj [("connections", JObj []); ("nodes", JObj [])]); ("topology_json", topology)]) = Exc.
Proof.
  exists (JObj [("connections", JObj [("Transmissionline", JArr [JObj [("from", JStr "a"); ("id", JStr "l"); ("to", JStr "b")]])]);
                ("nodes", JObj [("Innode", JArr [JObj [("id", JStr "a")]; JObj [("id", JStr "b")]])])]).
  exists [("Innode", JObj [("id", JStr "a")]); ("Innode", JObj [("id", JStr "b")])].
  exists (JObj [("B", JNum 2); ("G", JNum 1); ("from", JStr "a"); ("id", JStr "l"); ("to", JStr "b")]).
  split; [vm_compute; reflexivity|]. split; vm_compute; reflexivity.
Qed.
Example C80_net_defaults : usable_defaults line_defaults /\ canonical line_defaults.
Proof.
  split; [eapply file_usable; vm_compute; reflexivity|].
  apply proper_canonical. apply properb_ok. reflexivity.
Qed.
