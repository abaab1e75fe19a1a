(** * Properties C76-C78: generated schemas and the construction of components *)
From Coq Require Import Reals List Bool Arith Lia String Ascii Sorted Permutation.
From Verif Require Import Base Interp_Model Interp_Spec Json_Model Json_Spec Json_Proofs Json_Proofs2 Json_Proofs3 Json_Props Defaults_Model Defaults_Spec Defaults_Proofs Defaults_Proofs2
  Defaults_Proofs3 Defaults_Props Controls_Model Controls_Spec Controls_Proofs States_Model States_Spec States_Proofs Factory_Model Factory_Spec Factory_Proofs
  Factory_Proofs2 Factory_Proofs3 Factory_Proofs4 Factory_Proofs5 Factory_Proofs6 Factory_Proofs7 Factory_Proofs8 Factory_Proofs9.
From Verif Require Units_Model Units_Spec.
Import ListNotations.
Local Open Scope string_scope.
Local Open Scope list_scope.

(** Checking [proper] for the examples. *)
Fixpoint sortedb (l : list string) : bool :=
  match l with
  | a :: ((b :: _) as rest) => (match String.compare a b with Lt => true | _ => false end) && sortedb rest
  | _ => true
  end.
Fixpoint properb (j : json) : bool :=
  match j with
  | JArr l => forallb properb l
  | JObj fs => sortedb (map fst fs) && forallb (fun kv => properb (snd kv)) fs
  | _ => true
  end.
Lemma sortedb_ok l : sortedb l = true -> StronglySorted before l.
Proof.
  intro H. apply Sorted_StronglySorted; [intros a b c; apply before_trans|]. induction l as [|a l IH]; [constructor|]. destruct l as [|b l]; [repeat constructor|].
  cbn [sortedb] in H. apply andb_true_iff in H. destruct H as [H1 H2]. constructor; [apply IH; exact H2|]. constructor. unfold before. destruct (String.compare a b); try discriminate. reflexivity.
Qed.
Fixpoint properb_ok (j : json) : properb j = true -> proper j.
Proof.
  destruct j as [|b|x|t|l|fs]; intro H; try constructor.
  - cbn [properb] in H. revert H. induction l as [|e l IH]; [intros _ e []|]. cbn [forallb]. intros H e' I. apply andb_true_iff in H. destruct H as [H1 H2].
    destruct I as [<-|I]; [apply properb_ok; exact H1|apply IH; assumption].
  - cbn [properb] in H. apply andb_true_iff in H. apply sortedb_ok, H.
  - cbn [properb] in H. apply andb_true_iff in H. destruct H as [_ H]. revert H. induction fs as [|[k v] fs IH]; [intros _ k v []|]. cbn [forallb snd]. intros H k' v' I.
    apply andb_true_iff in H. destruct H as [H1 H2]. destruct I as [E|I]; [|eapply IH; eassumption]. assert (v = v') by congruence. subst v'. apply properb_ok. exact H1.
Qed.

(** ** C76 *)

(** The generated schemas accept exactly the files that conform to the tables of Factory_Spec.v. *)
Theorem C76_schemas : forall problem_data s, (forall p, problem_data = Some p -> proper p) ->
  make_full_factory_schemas problem_data = Ok s ->
  forall kind j, proper j -> object j ->
    (validate_json j (s kind) = Ok tt <-> conforms (the_defaults problem_data) kind j).
Proof.
  intros pd s Pp H kind j Pj Oj. destruct (full_schemas_inv pd s H) as (d & Ed & Hk). apply schema_defaults_the in Ed.
  assert (Cd : canonical (the_defaults pd)).
  { assert (Q : canonical (JObj [])) by (constructor; [constructor|intros ? ? []]). unfold the_defaults. destruct pd as [p|]; [|exact Q]. specialize (Pp p eq_refl).
    destruct p; try exact Q. cbn [entry_of]. destruct (field fields "problem_data") as [q|] eqn:Eq; [|exact Q]. pose proof (proper_field _ _ _ Pp Eq) as Pq.
    destruct q; try exact Q. cbn [entry_of]. destruct (field fields0 "defaults") as [x|] eqn:Ex; [|exact Q]. apply proper_canonical. eapply proper_field; eassumption. }
  rewrite Ed in Cd. rewrite Ed, validate_V. rewrite <- (file_valid kind d (s kind) (s Topology_file) j Cd (Hk kind) (Hk Topology_file) Pj Oj).
  destruct (V (s kind) j); split; congruence.
Qed.
Print Assumptions C76_schemas.

(** They are generated exactly if the defaults name fields of the topology only. *)
Theorem C76_generation : forall problem_data, (forall p, problem_data = Some p -> object p /\ forall q, entry_of p "problem_data" = Some q -> object q) ->
  ((exists s, make_full_factory_schemas problem_data = Ok s) <-> usable_defaults (the_defaults problem_data)) /\
  (make_full_factory_schemas problem_data = Exc <-> ~ usable_defaults (the_defaults problem_data)).
Proof.
  intros pd H. destruct (schemas_cases pd H) as (A & B & C). split; split; auto.
  - intros [s Hs]. eapply C. exact Hs.
  - intros E U. destruct (A U) as [s Hs]. congruence.
Qed.
Print Assumptions C76_generation.
Lemma no_defaults : usable_defaults (JObj []).
Proof. split; [eexists; reflexivity|]. intros class type fields _. split; [eexists; reflexivity|]. intros k x E. discriminate. Qed.

(** The schemas have no type at the top level: anything that is not an object is accepted. *)
Theorem C76_no_object_refuted : exists s j, make_full_factory_schemas None = Ok s /\ proper j /\
  forall kind, validate_json j (s kind) = Ok tt /\ ~ conforms (the_defaults None) kind j.
Proof.
  destruct (proj2 (proj1 (C76_generation None ltac:(discriminate))) no_defaults) as [s Hs]. exists s, (JStr "not a file"). split; [exact Hs|]. split; [constructor|]. intro kind. split.
  - destruct (full_schemas_inv None s Hs) as (d & _ & Hk). destruct (file_schema_inv _ _ _ (Hk kind)) as (ln & le & -> & _). reflexivity.
  - intro C. destruct (C "nodes" (or_introl eq_refl)) as (ts & E & _). discriminate.
Qed.
Print Assumptions C76_no_object_refuted.

(** A file of controls written by the program (save_controls_to_json) is rejected by the schema of
    control files: controlled components are connections, and the file has no entry "nodes". *)
Lemma saved_no_nodes v : forall comps j j', (forall c, In c comps -> cc_class c = "connections") ->
  entry_of j "nodes" = None -> save_controls_to_json comps v j = Ok j' -> entry_of j' "nodes" = None.
Proof.
  unfold save_controls_to_json. induction comps as [|c comps IH]; intros j j' C E H; cbn [ofold] in H; [congruence|].
  apply obind_Ok in H. destruct H as (j1 & H1 & H). eapply IH; [intros c' I; apply C; right; exact I| |exact H]. clear IH H. unfold save_component in H1. rewrite (C c (or_introl eq_refl)) in H1.
  assert (As : forall j0 j2 x, entry_of j0 "nodes" = None -> assign j0 "connections" x = Ok j2 -> entry_of j2 "nodes" = None).
  { intros j0 j2 x E0 A. destruct j0; try discriminate; cbn [assign] in A; injection A as <-; [reflexivity|]. cbn [entry_of] in *. rewrite field_set. exact E0. }
  apply obind_Ok in H1. destruct H1 as (j2 & Hj & H1). assert (E2 : entry_of j2 "nodes" = None).
  { destruct (contains j "connections"); [congruence|]. eapply As; eassumption. }
  apply obind_Ok in H1. destruct H1 as (? & _ & H1). apply obind_Ok in H1. destruct H1 as (? & _ & H1). apply obind_Ok in H1. destruct H1 as (? & _ & H1).
  apply obind_Ok in H1. destruct H1 as (? & _ & H1). apply obind_Ok in H1. destruct H1 as (? & _ & H1). apply obind_Ok in H1. destruct H1 as (? & _ & H1).
  eapply As; eassumption.
Qed.
Lemma assign_object j k x j' : assign j k x = Ok j' -> object j'.
Proof. destruct j; try discriminate; cbn [assign]; intro H; injection H as <-; eexists; reflexivity. Qed.
Theorem C76_saved_controls_rejected : forall comps v j problem_data s, (forall c, In c comps -> cc_class c = "connections") ->
  save_controls_to_json comps v JNull = Ok j -> comps <> [] -> make_full_factory_schemas problem_data = Ok s -> proper j ->
  validate_json j (s Control_file) = Exc.
Proof.
  intros comps v j pd s C H N Hs Pj. pose proof (saved_no_nodes v comps JNull j C eq_refl H) as E. destruct (full_schemas_inv pd s Hs) as (d & _ & Hk).
  destruct (file_schema_inv _ _ _ (Hk Control_file)) as (ln & le & -> & _). rewrite validate_V. destruct (V (top_schema (JObj ln) (JObj le)) j) eqn:Q; [|reflexivity]. exfalso.
  assert (O : object j).
  { destruct comps as [|c comps]; [congruence|]. unfold save_controls_to_json in H. cbn [ofold] in H. apply obind_Ok in H. destruct H as (j1 & H1 & H).
    assert (O1 : object j1).
    { unfold save_component in H1. do 7 (apply obind_Ok in H1; destruct H1 as (? & _ & H1)). eapply assign_object. exact H1. }
    revert O1 H. clear. revert j1. induction comps as [|c comps IH]; intros j1 O1 H; cbn [ofold] in H; [congruence|]. apply obind_Ok in H. destruct H as (j2 & H1 & H). apply (IH j2); [|exact H].
    unfold save_component in H1. do 7 (apply obind_Ok in H1; destruct H1 as (? & _ & H1)). eapply assign_object. exact H1. }
  destruct O as [fs ->]. apply V_top in Q; [|apply canonical_nodup, proper_canonical, Pj]. destruct Q as (vn & ve & En & _). cbn [entry_of] in E. congruence.
Qed.
Print Assumptions C76_saved_controls_rejected.
Theorem C76_saved_controls_refuted : exists comps v j, (forall c, In c comps -> cc_class c = "connections" /\ cc_type c = "Compressorstation") /\
  save_controls_to_json comps v JNull = Ok j /\ proper j /\
  forall problem_data s, make_full_factory_schemas problem_data = Ok s -> validate_json j (s Control_file) = Exc.
Proof.
  set (comps := [mkControl "connections" "Compressorstation" "a" 0 1]). set (v := mk_ivec [0%R] 1 [5%R]).
  exists comps, v, (JObj [("connections", JObj [("Compressorstation", JArr [JObj [("data", JArr [JObj [("time", JNum 0); ("values", JArr [JNum 5])]]); ("id", JStr "a")]])])]).
  assert (P : proper (JObj [("connections", JObj [("Compressorstation", JArr [JObj [("data", JArr [JObj [("time", JNum 0); ("values", JArr [JNum 5])]]); ("id", JStr "a")]])])])) by (apply properb_ok; reflexivity).
  split; [intros c [<-|[]]; split; reflexivity|]. split; [reflexivity|]. split; [exact P|]. intros pd s H.
  apply (C76_saved_controls_rejected comps v _ pd s); [intros c [<-|[]]; reflexivity|reflexivity|discriminate|exact H|exact P].
Qed.
Print Assumptions C76_saved_controls_refuted.

(** A conforming file and a non-conforming one. *)
Definition pipe_entry (rest : list (string * json)) : json :=
  JObj ([("balancelaw", JStr "Isothermaleulerequation"); ("desired_delta_x", JNum 10); ("diameter", Units_Spec.measurement "m" 1);
         ("from", JStr "a"); ("id", JStr "p"); ("length", Units_Spec.measurement "km" 5)] ++ rest).
Definition scheme_to : list (string * json) := [("scheme", JStr "Implicitboxscheme"); ("to", JStr "b")].
Definition one_file (nodes connections : list (string * json)) : json := JObj [("connections", JObj connections); ("nodes", JObj nodes)].
Definition with_roughness : json :=
  JObj [("problem_data", JObj [("defaults", JObj [("Pipe", JObj [("roughness", Units_Spec.measurement "mm" 1)])])])].
Lemma good_length u x : unit_text (Units_Model.chars u) -> good_value Length (Units_Spec.measurement u x).
Proof. intro U. exists u, x. auto. Qed.
Lemma unit_m : unit_text (Units_Model.chars "m").
Proof. eexists "", _, "m", _. split; [left; reflexivity|]. split; [right; right; left; reflexivity|]. left. reflexivity. Qed.
Example C76_ex : exists s, make_full_factory_schemas (Some with_roughness) = Ok s /\
  validate_json (one_file [("Innode", JArr [JObj [("id", JStr "a")]])] []) (s Topology_file) = Ok tt /\
  validate_json (one_file [("Innode", JArr [JObj []])] []) (s Topology_file) = Exc /\
  validate_json (one_file [] [("Innode", JArr [JObj [("id", JStr "a")]])]) (s Topology_file) = Exc /\
  validate_json (one_file [] [("Pipe", JArr [pipe_entry scheme_to])]) (s Topology_file) = Ok tt.
Proof.
  eexists. split; [cbv - [IZR]; reflexivity|].
  split; [vm_compute; reflexivity|]. split; [vm_compute; reflexivity|]. split; [vm_compute; reflexivity|]. vm_compute; reflexivity.
Qed.

(** ** C77 *)
Definition type_in (class : string) (t : component_type) : Prop :=
  class = "nodes" /\ In t node_types \/ class = "connections" /\ In t edge_types.
Lemma type_in_spec class t : type_in class t -> Factory_Proofs4.is_class class /\ In t (types_of class).
Proof. intros [[-> I]|[-> I]]; (split; [|exact I]); [left|right]; reflexivity. Qed.

(** The schema of a type accepts exactly the entries described by its table; an entry from which the
    run builds a component is accepted, and what is built is the entry completed with the defaults,
    with all fields and boundary values. *)
Theorem C77_run_accepts : forall class t fields d e, type_in class t -> fields_of class (ct_name t) = Some fields ->
  usable fields d -> canonical d -> canonical e -> object e ->
  exists s, get_schema t d false false = Ok s /\
    (validate_json e s = Ok tt <-> described fields d e) /\
    make_instance t d e <> UB /\
    forall e', make_instance t d e = Ok e' ->
      validate_json e s = Ok tt /\ completed d e e' /\ complete fields e' /\ with_boundary class (ct_name t) e'.
Proof.
  intros class t fields d e Ht Ef U Cd Ce Oe. destruct (type_in_spec _ _ Ht) as [Ic It]. destruct (get_schema_cases class t fields d Ic It Ef) as [[_ [s Hs]]|[N _]]; [|contradiction].
  exists s. split; [exact Hs|]. destruct (known_type class t Ic It) as (fields' & Ef' & N & _). assert (fields' = fields) by congruence. subst fields'.
  destruct (topology_schema class t fields d s Ic It Ef Hs) as (s1 & H1 & C1). pose proof (described_valid fields d s1 s e N H1 C1 Ce) as Dv.
  assert (Q : validate_json e s = Ok tt <-> described fields d e) by (rewrite validate_V, <- Dv; destruct (V s e); split; congruence).
  split; [exact Q|]. destruct (instance_main class t fields d s e Ic It Ef Hs Cd Ce Oe) as (I1 & _ & I3). split; [exact I3|]. intros e' E. destruct (I1 e' E) as (A & B & C & _).
  split; [apply Q; eapply completed_described; eassumption|]. auto.
Qed.
Print Assumptions C77_run_accepts.

(** If the defaults are complete values of the right kind, an entry accepted by the schema can be
    built once it has its boundary values. *)
Theorem C77_schema_suffices_partial : forall class t fields d e s, type_in class t -> fields_of class (ct_name t) = Some fields ->
  usable fields d -> canonical d -> canonical e -> complete_defaults fields d ->
  get_schema t d false false = Ok s -> validate_json e s = Ok tt -> with_boundary class (ct_name t) e ->
  exists e', make_instance t d e = Ok e'.
Proof.
  intros class t fields d e s Ht Ef U Cd Ce Cf Hs Hv B. destruct (type_in_spec _ _ Ht) as [Ic It].
  destruct (known_type class t Ic It) as (fields' & Ef' & N & _). assert (fields' = fields) by congruence. subst fields'.
  destruct (topology_schema class t fields d s Ic It Ef Hs) as (s1 & H1 & C1). pose proof (described_valid fields d s1 s e N H1 C1 Ce) as Dv.
  assert (De : described fields d e) by (apply Dv; rewrite validate_V in Hv; destruct (V s e); [reflexivity|discriminate]).
  assert (Oe : object e) by (destruct De as (es & -> & _); eexists; reflexivity).
  destruct (instance_main class t fields d s e Ic It Ef Hs Cd Ce Oe) as (_ & I2 & _). auto.
Qed.
Print Assumptions C77_schema_suffices_partial.

Definition pipe_type : component_type := nth 3 edge_types (mkType "" Exc None None None).
Definition innode_type : component_type := nth 2 node_types (mkType "" Exc None None None).
Example C77_ex : exists e', make_instance pipe_type (JObj [("roughness", Units_Spec.measurement "m" 1)]) (pipe_entry scheme_to) = Ok e' /\
  entry_of e' "roughness" = Some (Units_Spec.measurement "m" 1).
Proof. eexists. split; vm_compute; reflexivity. Qed.

(** A default for a part of a length only: the schema accepts an entry without it, the run rejects
    the entry. *)
Theorem C77_part_of_default_refuted : exists d e s, usable (names ++ ends ++ pipe_data) d /\ canonical d /\ canonical e /\
  get_schema pipe_type d false false = Ok s /\ validate_json e s = Ok tt /\ with_boundary "connections" "Pipe" e /\
  make_instance pipe_type d e = Exc.
Proof.
  set (d := JObj [("roughness", JObj [("unit", JStr "mm")])]). exists d, (pipe_entry scheme_to). eexists.
  assert (P : proper d) by (apply properb_ok; reflexivity). assert (P' : proper (pipe_entry scheme_to)) by (apply properb_ok; reflexivity).
  split; [|split; [apply proper_canonical, P|split; [apply proper_canonical, P'|split; [vm_compute; reflexivity|split; [vm_compute; reflexivity|split; [|vm_compute; reflexivity]]]]]].
  - split; [eexists; reflexivity|]. intros k x E. unfold d in E. cbn [entry_of field] in E. destruct (String.eqb_spec "roughness" k) as [<-|]; [|discriminate]. injection E as <-.
    exists Length. split; [cbn; tauto|]. intros _. split; [eexists; reflexivity|]. intros i Ei. cbn [entry_of field] in Ei. destruct (String.eqb_spec "unit" i); [auto|congruence].
  - intros Q E. discriminate.
Qed.
Print Assumptions C77_part_of_default_refuted.
(** A default of the wrong kind: the same. *)
Theorem C77_kind_of_default_refuted : exists d e s, usable names d /\ canonical d /\ canonical e /\
  get_schema innode_type d false false = Ok s /\ validate_json e s = Ok tt /\ with_boundary "nodes" "Innode" e /\
  make_instance innode_type d e = Exc.
Proof.
  set (d := JObj [("id", JNum 3)]). exists d, (JObj []). eexists.
  assert (P : proper d) by (apply properb_ok; reflexivity). assert (P' : proper (JObj [])) by (apply properb_ok; reflexivity).
  split; [|split; [apply proper_canonical, P|split; [apply proper_canonical, P'|split; [vm_compute; reflexivity|split; [vm_compute; reflexivity|split; [|vm_compute; reflexivity]]]]]].
  - split; [eexists; reflexivity|]. intros k x E. unfold d in E. cbn [entry_of field] in E. destruct (String.eqb_spec "id" k) as [<-|]; [|discriminate].
    exists Text. split; [cbn; tauto|]. discriminate.
  - intros Q E. discriminate.
Qed.
Print Assumptions C77_kind_of_default_refuted.
(** The other way: an entry null is rejected by the schema; the run builds a component from it if
    there are defaults for all fields. *)
Theorem C77_null_refuted : exists d s e', usable names d /\ canonical d /\
  get_schema innode_type d false false = Ok s /\ validate_json JNull s = Exc /\ make_instance innode_type d JNull = Ok e'.
Proof.
  set (d := JObj [("id", JStr "a")]). exists d. eexists. eexists.
  assert (P : proper d) by (apply properb_ok; reflexivity).
  split; [|split; [apply proper_canonical, P|split; [vm_compute; reflexivity|split; [vm_compute; reflexivity|vm_compute; reflexivity]]]].
  split; [eexists; reflexivity|]. intros k x E. unfold d in E. cbn [entry_of field] in E. destruct (String.eqb_spec "id" k) as [<-|]; [|discriminate].
  exists Text. split; [cbn; tauto|]. discriminate.
Qed.
Print Assumptions C77_null_refuted.

(** ** C78 *)

(** Defaults for boundary, control and initial values are read by the schemas of those files, but
    make the generation of the schemas fail. *)
Theorem C78_external_defaults_rejected : forall problem_data class t key, type_in class t ->
  In key ["boundary_values"; "control_values"; "initial_values"] ->
  (forall p, problem_data = Some p -> object p /\ forall q, entry_of p "problem_data" = Some q -> object q) ->
  entry_of (defaults_of (the_defaults problem_data) (ct_name t)) key <> None ->
  make_full_factory_schemas problem_data = Exc.
Proof.
  intros pd class t key Ht Ik Ob E. apply (proj2 (C76_generation pd Ob)). intros [_ U]. destruct (type_in_spec _ _ Ht) as [Ic It].
  destruct (known_type class t Ic It) as (fields & Ef & _). destruct (U class (ct_name t) fields Ef) as [_ Uk].
  destruct (entry_of (defaults_of (the_defaults pd) (ct_name t)) key) as [x|] eqn:Ex; [|congruence]. destruct (Uk key x Ex) as (g & I & _).
  apply (no_external_field class t fields key Ic It Ef Ik). change key with (fst (key, g)). apply in_map. exact I.
Qed.
Print Assumptions C78_external_defaults_rejected.
Definition source_type : component_type := nth 7 node_types (mkType "" Exc None None None).
Definition constant_boundary : json := document "time" "x" [(0%R, [5%R])].
Definition initial_default : json :=
  JObj [("Pipe", JObj [("initial_values", JObj [("data", JArr [JObj [("values", JArr [JNum 1; JNum 2]); ("x", JNum 0)]])])])].
Theorem C78_initial_default_refuted : exists defaults schema, type_defaults pipe_type initial_default = Ok defaults /\
  component_schema Initial_file pipe_type defaults false = Ok (Some schema) /\
  make_full_factory_schemas (Some (JObj [("problem_data", JObj [("defaults", initial_default)])])) = Exc.
Proof. eexists. eexists. split; [reflexivity|]. split; [cbv - [IZR]; reflexivity|]. vm_compute. reflexivity. Qed.
Print Assumptions C78_initial_default_refuted.
(** A run accepts a default for boundary values, the generation of schemas does not. *)
Theorem C78_boundary_default_refuted : exists defaults e', type_defaults source_type (JObj [("Source", JObj [("boundary_values", constant_boundary)])]) = Ok defaults /\
  make_instance source_type defaults (JObj [("id", JStr "a")]) = Ok e' /\ with_boundary "nodes" "Source" e' /\
  make_full_factory_schemas (Some (JObj [("problem_data", JObj [("defaults", JObj [("Source", JObj [("boundary_values", constant_boundary)])])])])) = Exc.
Proof.
  eexists. exists (JObj [("boundary_values", constant_boundary); ("id", JStr "a")]). split; [reflexivity|]. split; [|split; [|vm_compute; reflexivity]].
  { vm_compute. match goal with |- context [Rle_dec ?a ?a] => destruct (Rle_dec a a) as [_|N]; [reflexivity|exfalso; apply N, Rle_refl] end. }
  intros P E. injection E as <-. exists constant_boundary. split; [reflexivity|]. apply document_ok. intros tr [<-|[]]. reflexivity.
Qed.
Print Assumptions C78_boundary_default_refuted.
