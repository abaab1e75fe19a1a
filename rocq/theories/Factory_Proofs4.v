(** * Proofs about the construction of components *)
From Coq Require Import Reals List Bool Arith Lia String Ascii Sorted.
From Verif Require Import Base Json_Model Json_Spec Json_Proofs Json_Proofs2 Json_Proofs3 Defaults_Model Defaults_Spec Defaults_Proofs Defaults_Proofs2
  Defaults_Proofs3 Defaults_Props Controls_Model Controls_Spec Controls_Proofs States_Model States_Spec States_Proofs Factory_Model Factory_Spec Factory_Proofs
  Factory_Proofs2 Factory_Proofs3.
From Verif Require Units_Model Units_Spec.
Import ListNotations.
Local Open Scope string_scope.
Local Open Scope list_scope.

(** ** Entries of the topology file against the generated schema *)
Lemma described_valid fields d s1 s2 e : NoDup (map fst fields) -> with_defaults (base fields) d true = Ok s1 -> cleaned s1 s2 -> canonical e ->
  (V s2 e = true <-> described fields d e).
Proof.
  intros N H C Ce. destruct (with_true _ _ _ _ (tidy_base fields N) eq_refl H) as ([ds ->] & L & ps1' & S1 & A).
  inversion A as [a b ps1 H1 H2 H3 H4]; subst.
  inversion C as [m S|m m' fs ps2 S S2 C1 C2 C3 C4 C5]; subst; [congruence|]. rewrite S1 in S. injection S as <-.
  assert (P2 : plain_node s2) by (eapply cleaned_plain; [|exact C]; eapply like_plain; [apply base_plain|exact L]).
  assert (Kn : forall k g, In (k, g) fields -> exists d1 d2, field ps1 k = Some d1 /\ field ps2 k = Some d2 /\ cleaned d1 d2 /\
                 with_default (def_of g) (field ds k) d1 /\ entry_of d1 "default" = field ds k).
  { intros k g I. apply (in_look_up fields k g N) in I. assert (Ef : field (props fields) k = Some (def_of g)) by (rewrite (field_props fields k N), I; reflexivity).
    pose proof (field_added (props fields) ds ps1 k A) as F. rewrite Ef in F. destruct F as (d1 & E1 & _). destruct (C5 k d1 E1) as (d2 & E2 & Cd).
    exists d1, d2. split; [exact E1|]. split; [exact E2|]. split; [exact Cd|].
    eapply added_default_of; [eexists; reflexivity|reflexivity|exact Ef|exact A|exact E1]. }
  assert (Un : forall k d2, field ps2 k = Some d2 -> exists g, In (k, g) fields).
  { intros k d2 E2. destruct (field ps1 k) as [d1|] eqn:E1; [|rewrite (C4 k E1) in E2; discriminate]. pose proof (field_added (props fields) ds ps1 k A) as F.
    rewrite (field_props fields k N) in F. destruct (look_up fields k) as [g|] eqn:E; [|cbn in F; congruence]. exists g. apply look_up_in. exact E. }
  assert (R2 : forall k, In k (required_of s2) <-> exists g, In (k, g) fields /\ field ds k = None).
  { intro k. assert (R1 : entry_of s1 "required" = Some (JArr (map JStr (map fst fields)))) by (rewrite (proj1 L) by discriminate; reflexivity).
    rewrite (required_of_list s2 _ (C3 _ R1)). unfold without_default. rewrite filter_In, in_map_iff. unfold default_at. cbn [def_at entry_of]. split.
    - intros [[[k' g] [E I]] F]. cbn in E. subst k'. exists g. split; [exact I|]. destruct (Kn k g I) as (d1 & d2 & E1 & _ & _ & _ & Df). rewrite E1, Df in F.
      destruct (field ds k); congruence.
    - intros (g & I & F). destruct (Kn k g I) as (d1 & d2 & E1 & _ & _ & _ & Df). rewrite E1, Df, F. split; [|reflexivity]. exists (k, g). auto. }
  assert (Cl : ~ closed_keys s2) by (unfold closed_keys; rewrite C1 by discriminate; rewrite (proj1 L) by discriminate; discriminate).
  split.
  - intro Q. destruct (V_node_object _ _ _ S2 Q) as [es ->]. apply (V_node s2 ps2 es P2 S2 (canonical_nodup es Ce)) in Q. destruct Q as (Q1 & Q2 & _).
    exists es. split; [reflexivity|]. intros k g I. destruct (Kn k g I) as (d1 & d2 & E1 & E2 & Cd & W & Df). cbn [entry_of].
    destruct (field es k) as [v|] eqn:Ev.
    + apply (V_part g (field ds k) d1 d2 v W Cd (canonical_field _ _ _ Ce Ev)). eapply Q2; eassumption.
    + intro X. apply (Q1 k); [apply R2; eauto|exact Ev].
  - intros (es & -> & Q). apply (V_node s2 ps2 es P2 S2 (canonical_nodup es Ce)). split; [|split].
    + intros k K. apply R2 in K. destruct K as (g & I & F). specialize (Q k g I). cbn [entry_of] in Q. destruct (field es k); [discriminate|congruence].
    + intros k v d2 Ev E2. destruct (Un k d2 E2) as [g I]. destruct (Kn k g I) as (d1 & d2' & E1 & E2' & Cd & W & Df). assert (d2' = d2) by congruence. subst d2'.
      specialize (Q k g I). rewrite Ev in Q. apply (V_part g (field ds k) d1 d2 v W Cd (canonical_field _ _ _ Ce Ev)). exact Q.
    + intros X. contradiction.
Qed.

(** ** The schema with boundary values *)
Definition schema_of (ps : list (string * json)) (req : list string) : json :=
  JObj [("properties", JObj ps); ("required", JArr (map JStr req)); ("type", JStr "object")].
Lemma add_required_ok ps req k def : add_required (schema_of ps req) k def = Ok (schema_of (set_field ps k def) (req ++ [k])).
Proof. unfold schema_of. rewrite map_app. reflexivity. Qed.
Lemma schema_plain ps req : plain_node (schema_of ps req).
Proof. apply plain_fields. cbn [map fst]. unfold node_key. cbn. intuition. Qed.

(** Schemas of boundary values: their properties are not objects and have no defaults. *)
Record boundary_schema (B : json) (P : json -> Prop) : Prop := {
  bs_form : exists bps req, B = schema_of bps req /\ NoDup (map fst bps) /\
    forall k v, In (k, v) bps -> object v /\ entry_of v "type" <> None /\ sub v = None /\ entry_of v "default" = None;
  bs_valid : forall b, canonical b -> (V B b = true <-> P b);
  bs_same : with_defaults B (JObj []) true = Ok B;
  bs_clean : with_defaults B (JObj []) false = Ok B }.
Lemma boundary_form n : exists bps req, make_boundary_schema n = schema_of bps req /\ NoDup (map fst bps) /\
    forall k v, In (k, v) bps -> object v /\ entry_of v "type" <> None /\ sub v = None /\ entry_of v "default" = None.
Proof.
  eexists _, ["id"; "data"]. split; [reflexivity|]. split; [cbn; repeat constructor; cbn; intuition discriminate|].
  intros k v [H|[H|[]]]; injection H as <- <-; (split; [eexists; reflexivity|split; [discriminate|split; reflexivity]]).
Qed.
Lemma V_boundary n b : V (make_boundary_schema n) b = true <-> control_ok n b.
Proof. rewrite <- (V_fuel 8) by (cbn; lia). apply valid_boundary. Qed.
Lemma boundary_plain n : boundary_schema (make_boundary_schema n) (control_ok n).
Proof. split; [apply boundary_form|intros; apply V_boundary|reflexivity|reflexivity]. Qed.
Definition seeded_schema : json :=
  schema_of [("data", JObj [("items", boundary_element 2); ("type", JStr "array")]); ("id", JObj [("type", JStr "string")]);
             ("seed", make_list_schema_of type_number)] ["id"; "data"].
Lemma V_list s j : V (make_list_schema_of s) j = true <-> exists l, j = JArr l /\ forall e, In e l -> V s e = true.
Proof.
  rewrite V_step. unfold vstep. 
  change (keyword (make_list_schema_of s) "type") with (Some (JStr "array")).
  change (keyword (make_list_schema_of s) "items") with (Some s).
  change (keyword (make_list_schema_of s) "required") with (@None json).
  change (keyword (make_list_schema_of s) "properties") with (@None json).
  change (keyword (make_list_schema_of s) "minItems") with (@None json).
  change (keyword (make_list_schema_of s) "maxItems") with (@None json).
  change (keyword (make_list_schema_of s) "minimum") with (@None json).
  change (keyword (make_list_schema_of s) "maximum") with (@None json).
  change (keyword (make_list_schema_of s) "contains") with (@None json).
  change (keyword (make_list_schema_of s) "allOf") with (@None json).
  change (keyword (make_list_schema_of s) "additionalProperties") with (@None json).
  change (keyword (make_list_schema_of s) "patternProperties") with (@None json).
  change (keyword (make_list_schema_of s) "oneOf") with (@None json).
  change (keyword (make_list_schema_of s) "pattern") with (@None json).
  cbn iota. rewrite !andb_true_r.
  destruct j; try (split; [discriminate|intros (l & E & _); discriminate]).
  cbn. rewrite forallb_forall. split; [intro H; exists l; auto|]. intros (l' & E & H). injection E as <-. exact H.
Qed.
Lemma numbers_list l : (forall e, In e l -> good_value Number e) -> exists ns, l = map JNum ns.
Proof.
  induction l as [|e l IH]; intro H; [exists []; reflexivity|]. destruct (H e (or_introl eq_refl)) as [x ->].
  destruct IH as [ns ->]; [auto with datatypes|]. exists (x :: ns). reflexivity.
Qed.
Lemma boundary_seeded : boundary_schema seeded_schema (fun j => control_ok 2 j /\ seeded j).
Proof.
  assert (Fm : exists bps req, seeded_schema = schema_of bps req /\ NoDup (map fst bps) /\
    forall k v, In (k, v) bps -> object v /\ entry_of v "type" <> None /\ sub v = None /\ entry_of v "default" = None).
  { eexists _, _. split; [reflexivity|]. split; [cbn; repeat constructor; cbn; intuition discriminate|].
    intros k v [H|[H|[H|[]]]]; injection H as <- <-; (split; [eexists; reflexivity|split; [discriminate|split; reflexivity]]). }
  split; [exact Fm| |reflexivity|reflexivity]. clear Fm.
  intros b C. rewrite <- V_boundary. set (b0 := make_boundary_schema 2).
  assert (S0 : exists ps0, sub b0 = Some (JObj ps0) /\ ps0 = [("data", JObj [("items", boundary_element 2); ("type", JStr "array")]); ("id", JObj [("type", JStr "string")])])
    by (eexists; split; [reflexivity|reflexivity]).
  destruct S0 as (ps0 & S0 & E0).
  set (ps := ps0 ++ [("seed", make_list_schema_of type_number)]).
  assert (S1 : sub seeded_schema = Some (JObj ps)) by (unfold ps; rewrite E0; reflexivity).
  assert (F1 : forall k, k <> "seed" -> field ps k = field ps0 k).
  { intros k K. unfold ps. rewrite E0. cbn [app field]. destruct (String.eqb "data" k); [reflexivity|]. destruct (String.eqb "id" k); [reflexivity|].
    destruct (String.eqb_spec "seed" k); [congruence|reflexivity]. }
  assert (P0 : plain_node b0) by apply (schema_plain _ ["id"; "data"]).
  assert (P1 : plain_node seeded_schema) by apply schema_plain.
  assert (F2 : field ps "seed" = Some (make_list_schema_of type_number)) by (unfold ps; rewrite E0; reflexivity).
  assert (F3 : field ps0 "seed" = None) by (rewrite E0; reflexivity).
  split.
  - intro H. destruct (V_node_object _ _ _ S1 H) as [bs ->]. apply (V_node _ ps bs P1 S1 (canonical_nodup bs C)) in H. destruct H as (H1 & H2 & H3). split.
    + apply (V_node _ ps0 bs P0 S0 (canonical_nodup bs C)). split; [exact H1|]. split.
      * intros k v def Ev Ed. apply (H2 k v def Ev). rewrite F1; [exact Ed|]. intros ->. congruence.
      * intros K. discriminate K.
    + intros fs v E Es. injection E as <-. pose proof (H2 "seed" v _ Es F2) as Q. apply V_list in Q. destruct Q as (l & -> & Q).
      destruct (numbers_list l) as [ns ->]; [intros e I; apply V_number; auto|]. exists ns. reflexivity.
  - intros [H Sd]. destruct (V_node_object _ _ _ S0 H) as [bs ->]. apply (V_node _ ps0 bs P0 S0 (canonical_nodup bs C)) in H. destruct H as (H1 & H2 & H3).
    apply (V_node _ ps bs P1 S1 (canonical_nodup bs C)). split; [exact H1|]. split; [|intros K; discriminate K].
    intros k v def Ev Ed. destruct (string_dec k "seed") as [->|N].
    + destruct (Sd bs v eq_refl Ev) as [l ->]. assert (def = make_list_schema_of type_number) by congruence. subst def. apply V_list. exists (map JNum l). split; [reflexivity|].
      intros e I. apply in_map_iff in I. destruct I as [x [<- _]]. apply V_number. eexists. reflexivity.
    + apply (H2 k v def Ev). rewrite <- F1; assumption.
Qed.

(** ** The types of the factory *)
Definition types_of (class : string) : list component_type := if string_dec class "nodes" then node_types else edge_types.
Definition is_class (class : string) : Prop := class = "nodes" \/ class = "connections".
Ltac type_case :=
  eexists; split; [reflexivity|]; split; [cbn; repeat constructor; cbn; intuition discriminate|];
  split; [reflexivity|]; split; [cbn; intuition discriminate|];
  first [exact I|eexists; split; [reflexivity|first [exact (boundary_plain 1)|exact (boundary_plain 2)|exact boundary_seeded]]].
Lemma known_type class t : is_class class -> In t (types_of class) ->
  exists fields, fields_of class (ct_name t) = Some fields /\ NoDup (map fst fields) /\ ct_schema t = Ok (base fields) /\ ~ In "boundary_values" (map fst fields) /\
    match ct_boundary t, wants (JObj []) Boundary_file class (ct_name t) with
    | None, None => True
    | Some b, Some P => exists B, b = Ok B /\ boundary_schema B P
    | _, _ => False
    end.
Proof.
  intros Ic It.
  destruct Ic as [-> | ->].
  - assert (It' : In t node_types) by exact It. clear It.
    destruct It' as [<-|[<-|[<-|[<-|[<-|[<-|[<-|[<-|[<-|[<-|[]]]]]]]]]]]; type_case.
  - assert (It' : In t edge_types) by exact It. clear It.
    destruct It' as [<-|[<-|[<-|[<-|[<-|[<-|[]]]]]]]; type_case.
Qed.
