(** * Proofs about the generation of schemas: for which defaults it succeeds *)
From Coq Require Import Reals List Bool Arith Lia String Ascii Sorted.
From Verif Require Import Base Json_Model Json_Spec Json_Proofs Json_Proofs2 Json_Proofs3 Defaults_Model Defaults_Spec Defaults_Proofs Defaults_Proofs2
  Defaults_Proofs3 Defaults_Props Controls_Model Controls_Spec Controls_Proofs States_Model States_Spec States_Proofs Factory_Model Factory_Spec Factory_Proofs
  Factory_Proofs2 Factory_Proofs3 Factory_Proofs4 Factory_Proofs5 Factory_Proofs6 Factory_Proofs7 Factory_Proofs8.
Import ListNotations.
Local Open Scope string_scope.
Local Open Scope list_scope.

Lemma def_base fields k : NoDup (map fst fields) -> entry_of (JObj (props fields)) k = option_map def_of (look_up fields k).
Proof. intro N. cbn [entry_of]. rewrite (field_props fields k N). reflexivity. Qed.
Lemma sub_def g : sub (def_of g) = match g with Length => Some (JObj mp) | _ => None end.
Proof. destruct g; reflexivity. Qed.
Lemma sub_mp i p : sub_at (JObj mp) (i :: p) = None.
Proof.
  unfold sub_at. destruct p as [|j p].
  - cbn [def_at entry_of]. rewrite field_mp. destruct (string_dec "unit" i); [reflexivity|]. destruct (string_dec "value" i); reflexivity.
  - rewrite def_at_cons by discriminate. cbn [entry_of]. rewrite field_mp. destruct (string_dec "unit" i); [reflexivity|]. destruct (string_dec "value" i); reflexivity.
Qed.
Lemma with_defaults_cases fields d : NoDup (map fst fields) ->
  (usable fields d /\ exists s, with_defaults (base fields) d true = Ok s) \/ (~ usable fields d /\ with_defaults (base fields) d true = Exc).
Proof.
  intro N. unfold with_defaults. rewrite add_sub. change (sub (base fields)) with (Some (JObj (props fields))). destruct (is_object d) eqn:Od.
  2: { right. split; [|reflexivity]. intros [O _]. apply is_object_spec in O. congruence. }
  apply is_object_spec in Od. destruct Od as [ds ->].
  destruct (add_main (depth (JObj (props fields))) _ (tidy_good _ (tidy_base fields N) _ eq_refl) (le_n _) (JObj ds) (ex_intro _ _ eq_refl)) as [[ps' [A1 A2]]|[A1 C]]; rewrite A1; cbn [obind].
  - left. split; [|eexists; reflexivity]. split; [eexists; reflexivity|]. intros k x E. inversion A2 as [a b fs' H1 H2 H3 H4]; subst. cbn [entry_of] in E.
    assert (K : field (props fields) k <> None) by (apply H2; congruence). rewrite (field_props fields k N) in K. destruct (look_up fields k) as [g|] eqn:Eg; [|cbn in K; congruence].
    exists g. split; [apply look_up_in; exact Eg|]. intros ->. assert (Ef : field (props fields) k = Some (def_of Length)) by (rewrite (field_props fields k N), Eg; reflexivity).
    destruct (H4 k _ x Ef E) as (def' & _ & _ & _ & _ & Q). destruct (Q _ (sub_def Length)) as (q' & _ & A'). inversion A' as [a' xs fs'' J1 J2 J3 J4]; subst.
    split; [eexists; reflexivity|]. intros i Ei. cbn [entry_of] in Ei. apply J2 in Ei. rewrite field_mp in Ei. destruct (string_dec "unit" i); [auto|]. destruct (string_dec "value" i); [auto|congruence].
  - right. split; [|reflexivity]. intros [_ U]. destruct C as [(p & v & q & Sp & Ap & Nv)|(q & k & v & Ap & Q & D)].
    + destruct p as [|k p]; [discriminate|]. cbn [at_path entry_of] in Ap. destruct (field ds k) as [x|] eqn:Ex; [|discriminate]. destruct (U k x Ex) as (g & Ig & Hg).
      apply (in_look_up fields k g N) in Ig. destruct p as [|i p].
      * cbn [at_path] in Ap. injection Ap as ->. unfold sub_at in Sp. cbn [def_at] in Sp. rewrite (def_base fields k N), Ig in Sp. cbn [option_map] in Sp. rewrite sub_def in Sp.
        destruct g; try discriminate. apply Nv, (Hg eq_refl).
      * unfold sub_at in Sp. rewrite def_at_cons in Sp by discriminate. rewrite (def_base fields k N), Ig in Sp. cbn [option_map] in Sp. rewrite sub_def in Sp.
        destruct g; try discriminate. pose proof (sub_mp i p) as Z. unfold sub_at in Z. congruence.
    + destruct q as [|i q].
      * cbn [app at_path entry_of] in Ap. destruct (field ds k) as [x|] eqn:Ex; [|discriminate]. destruct (U k x Ex) as (g & Ig & _). apply (in_look_up fields k g N) in Ig.
        cbn [app def_at] in D. rewrite (def_base fields k N), Ig in D. discriminate.
      * destruct Q as [Q|Q]; [discriminate|]. change ((i :: q) ++ [k]) with (i :: (q ++ [k])) in *. cbn [at_path entry_of] in Ap. destruct (field ds i) as [x|] eqn:Ex; [|discriminate].
        destruct (U i x Ex) as (g & Ig & Hg). apply (in_look_up fields i g N) in Ig. destruct q as [|j q].
        -- cbn [app at_path] in Ap. rewrite def_at_cons in D by discriminate. rewrite (def_base fields i N), Ig in D. cbn [option_map] in D.
           unfold sub_at in Q. cbn [def_at] in Q. rewrite (def_base fields i N), Ig in Q. cbn [option_map] in Q. rewrite sub_def in D, Q. destruct g; try congruence.
           destruct (Hg eq_refl) as [_ Hk]. cbn [app def_at entry_of] in D. rewrite field_mp in D. destruct (entry_of x k) eqn:Ek; [|cbn in Ap; discriminate].
           destruct (Hk k) as [-> | ->]; [congruence|discriminate|discriminate].
        -- unfold sub_at in Q. rewrite def_at_cons in Q by discriminate. rewrite (def_base fields i N), Ig in Q. cbn [option_map] in Q. rewrite sub_def in Q.
           destruct g; try congruence. apply Q. exact (sub_mp j q).
Qed.
Lemma get_schema_cases class t fields d : is_class class -> In t (types_of class) -> fields_of class (ct_name t) = Some fields ->
  (usable fields d /\ exists s, get_schema t d false false = Ok s) \/ (~ usable fields d /\ get_schema t d false false = Exc).
Proof.
  intros Ic It Ef. destruct (known_type class t Ic It) as (fields' & Ef' & N & Es & Nb & K). assert (fields' = fields) by congruence. subst fields'.
  unfold get_schema. rewrite Es. cbn [obind]. pose proof (with_false (base fields) (JObj (props fields)) d (tidy_base fields N) eq_refl) as W.
  destruct (with_defaults_cases fields d N) as [[U [s Hs]]|[U Hs]]; rewrite Hs in W; [left|right]; (split; [exact U|]); [destruct W as (s2 & W & _); eauto|exact W].
Qed.
Lemma external_ok class t fields d kind : is_class class -> In t (types_of class) -> fields_of class (ct_name t) = Some fields -> usable fields d -> exists os, component_schema kind t d false = Ok os.
Proof.
  intros Ic It Ef U. destruct (get_schema_cases class t fields d Ic It Ef) as [[_ [s Hs]]|[X _]]; [|contradiction]. destruct U as [[ds ->] U].
  assert (X : forall k, In k external_keys -> field ds k = None).
  { intros k Ik. destruct (field ds k) as [x|] eqn:E; [|reflexivity]. destruct (U k x E) as (g & I & _). exfalso. apply (no_external_field class t fields k Ic It Ef Ik).
    change k with (fst (k, g)). apply in_map. exact I. }
  destruct (type_fits class t (JObj ds) Ic It) as (Fc & Fi & Fb).
  assert (Ex : forall o key w, In key external_keys -> fits o w -> exists os, optional_schema o key (JObj ds) false = Ok os).
  { intros o key w Ik F. unfold optional_schema. destruct o as [b|]; [|eauto]. unfold fits in F. destruct w as [P|]; [|destruct F].
    destruct F as (B & -> & F1 & F2). unfold external_schema. cbn [obind value_or]. rewrite (X key Ik). cbn [obind]. rewrite F2. eexists. reflexivity. }
  destruct kind; cbn [component_schema].
  - eapply Ex; [|exact Fi]. cbn. tauto.
  - eapply Ex; [|exact Fc]. cbn. tauto.
  - eapply Ex; [|exact Fb]. cbn. tauto.
  - rewrite Hs. eexists. reflexivity.
Qed.
Lemma properties_cases kind d types : (forall t, In t types -> exists dt os, type_defaults t d = Ok dt /\ component_schema kind t dt false = Ok os) \/
  (kind = Topology_file /\ (exists t, In t types /\ forall dt, type_defaults t d = Ok dt -> get_schema t dt false false = Exc) /\
   forall t dt, In t types -> get_schema t dt false false <> UB) ->
  forall acc, match ofold (fun schemas t =>
    obind (type_defaults t d) (fun defaults =>
    obind (component_schema kind t defaults false) (fun s =>
    match s with
    | Some schema => assign schemas (ct_name t) (make_list_schema_of schema)
    | None => Ok schemas
    end))) types (JObj acc) with
  | Ok _ => forall t, In t types -> exists dt os, type_defaults t d = Ok dt /\ component_schema kind t dt false = Ok os
  | Exc => exists t, In t types /\ forall dt os, type_defaults t d = Ok dt -> component_schema kind t dt false <> Ok os
  | UB => False
  end.
Proof.
  intro H. induction types as [|t types IH]; intro acc; cbn [ofold]; [intros t []|].
  assert (Td : type_defaults t d <> UB) by (unfold type_defaults, value_or; destruct d; discriminate).
  assert (Cs : forall dt, type_defaults t d = Ok dt -> component_schema kind t dt false <> UB).
  { intros dt E. destruct H as [H|(-> & _ & H)].
    - destruct (H t (or_introl eq_refl)) as (dt' & os & E' & Q). assert (dt' = dt) by congruence. subst. congruence.
    - cbn [component_schema]. specialize (H t dt (or_introl eq_refl)). destruct (get_schema t dt false false); [discriminate|discriminate|contradiction]. }
  destruct (type_defaults t d) as [dt| |] eqn:Ed; [|cbn [obind]; exists t; split; [left; reflexivity|]; intros dt os E; congruence|contradiction]. cbn [obind].
  specialize (Cs dt eq_refl). destruct (component_schema kind t dt false) as [os| |] eqn:Ec; [|cbn [obind]; exists t; split; [left; reflexivity|]; intros dt' os E; congruence|contradiction].
  cbn [obind]. set (acc' := match os with Some schema => set_field acc (ct_name t) (make_list_schema_of schema) | None => acc end).
  assert (E' : match os with Some schema => assign (JObj acc) (ct_name t) (make_list_schema_of schema) | None => Ok (JObj acc) end = Ok (JObj acc')) by (unfold acc'; destruct os; reflexivity).
  rewrite E'. cbn [obind].
  assert (H' : (forall t, In t types -> exists dt os, type_defaults t d = Ok dt /\ component_schema kind t dt false = Ok os) \/
    (kind = Topology_file /\ (exists t, In t types /\ forall dt, type_defaults t d = Ok dt -> get_schema t dt false false = Exc) /\
     forall t dt, In t types -> get_schema t dt false false <> UB)).
  { destruct H as [H|(Ek & (t0 & It0 & H0) & Hu)]; [left; intros t' I; apply H; right; exact I|]. right. split; [exact Ek|]. split; [|intros t' dt' I; apply Hu; right; exact I].
    destruct It0 as [<-|It0]; [|exists t0; auto]. exfalso. subst kind. cbn [component_schema] in Ec. rewrite (H0 dt Ed) in Ec. discriminate. }
  specialize (IH H' acc'). match goal with |- match ?x with _ => _ end => destruct x end.
  - intros t' [<-|I]; [exists dt, os; auto|auto].
  - destruct IH as (t' & I & Q). exists t'. split; [right; exact I|exact Q].
  - exact IH.
Qed.
Lemma class_cases class kind d : is_class class ->
  ((forall type fields, fields_of class type = Some fields -> usable fields (defaults_of d type)) /\ object d -> exists l, class_properties kind (types_of class) d false = Ok l) /\
  (~ ((forall type fields, fields_of class type = Some fields -> usable fields (defaults_of d type)) /\ object d) -> class_properties Topology_file (types_of class) d false = Exc).
Proof.
  intro Ic.
  assert (Kt : forall type fields, fields_of class type = Some fields -> exists t, In t (types_of class) /\ ct_name t = type).
  { intros type fields E. assert (I : In type (map ct_name (types_of class))).
    { apply (wants_known d Topology_file class type (described fields (defaults_of d type)) Ic). unfold wants. rewrite E. reflexivity. }
    apply in_map_iff in I. destruct I as (t & E' & I). eauto. }
  assert (Ne : exists t, In t (types_of class)) by (destruct Ic as [-> | ->]; eexists; left; reflexivity).
  split.
  - intros [U [ds ->]]. pose proof (properties_cases kind (JObj ds) (types_of class)) as Q. assert (A : forall t, In t (types_of class) -> exists dt os, type_defaults t (JObj ds) = Ok dt /\ component_schema kind t dt false = Ok os).
    { intros t It. rewrite type_defaults_of. destruct (known_type class t Ic It) as (fields & Ef & _). destruct (external_ok class t fields (defaults_of (JObj ds) (ct_name t)) kind Ic It Ef (U _ _ Ef)) as [os E]. eauto. }
    specialize (Q (or_introl A) []). unfold class_properties. match type of Q with match ?x with _ => _ end => destruct x end; [eauto| |destruct Q].
    destruct Q as (t & It & Q). destruct (A t It) as (dt & os & E1 & E2). exfalso. eapply Q; eassumption.
  - intro NU. assert (B : exists t, In t (types_of class) /\ forall dt, type_defaults t d = Ok dt -> get_schema t dt false false = Exc).
    { destruct (object_dec d) as [[ds ->]|No].
      2: { destruct Ne as [t It]. exists t. split; [exact It|]. intros dt E. exfalso. apply No. unfold type_defaults, value_or in E. destruct d; try discriminate. eexists. reflexivity. }
      destruct (Forall_Exists_dec (fun t => exists s, get_schema t (defaults_of (JObj ds) (ct_name t)) false false = Ok s)) with (l := types_of class) as [F|F].
      { intro t. destruct (get_schema t (defaults_of (JObj ds) (ct_name t)) false false); [left; eauto|right; intros [s E]; discriminate|right; intros [s E]; discriminate]. }
      - exfalso. apply NU. split; [|eexists; reflexivity]. intros type fields Ef. destruct (Kt type fields Ef) as (t & It & <-). rewrite Forall_forall in F. destruct (F t It) as [s Hs].
        destruct (get_schema_cases class t fields (defaults_of (JObj ds) (ct_name t)) Ic It Ef) as [[U _]|[_ E]]; [exact U|congruence].
      - apply Exists_exists in F. destruct F as (t & It & F). exists t. split; [exact It|]. intros dt E. rewrite type_defaults_of in E. injection E as <-.
        destruct (known_type class t Ic It) as (fields & Ef & _). destruct (get_schema_cases class t fields (defaults_of (JObj ds) (ct_name t)) Ic It Ef) as [[_ E]|[_ E]]; [contradiction|exact E]. }
    assert (NUB : forall t dt, In t (types_of class) -> get_schema t dt false false <> UB).
    { intros t dt It. destruct (known_type class t Ic It) as (fields & Ef & _). destruct (get_schema_cases class t fields dt Ic It Ef) as [[_ [s E]]|[_ E]]; congruence. }
    pose proof (properties_cases Topology_file d (types_of class) (or_intror (conj eq_refl (conj B NUB))) []) as Q. unfold class_properties.
    match type of Q with match ?x with _ => _ end => destruct x end; [|reflexivity|destruct Q]. exfalso. destruct B as (t & It & B). destruct (Q t It) as (dt & os & E1 & E2).
    cbn [component_schema] in E2. rewrite (B dt E1) in E2. discriminate.
Qed.
Lemma class_usable class d l : is_class class -> class_properties Topology_file (types_of class) d false = Ok l ->
  (forall type fields, fields_of class type = Some fields -> usable fields (defaults_of d type)) /\ object d.
Proof.
  intros Ic H. destruct (properties_spec Topology_file d false (types_of class) (types_names class Ic) [] _ H) as (l' & _ & K & _).
  assert (O : object d).
  { assert (Ne : exists t, In t (types_of class)) by (destruct Ic as [-> | ->]; eexists; left; reflexivity). destruct Ne as [t It]. destruct (K t It) as (dt & os & E & _).
    unfold type_defaults, value_or in E. destruct d; try discriminate. eexists. reflexivity. }
  split; [|exact O]. intros type fields Ef. assert (I : In type (map ct_name (types_of class))).
  { apply (wants_known d Topology_file class type (described fields (defaults_of d type)) Ic). unfold wants. rewrite Ef. reflexivity. }
  apply in_map_iff in I. destruct I as (t & <- & It). destruct (K t It) as (dt & os & E & E2 & _). destruct O as [ds ->]. rewrite type_defaults_of in E. injection E as <-.
  cbn [component_schema] in E2. destruct (get_schema_cases class t fields (defaults_of (JObj ds) (ct_name t)) Ic It Ef) as [[U _]|[_ E]]; [exact U|]. rewrite E in E2. discriminate.
Qed.
Lemma usable_split d : usable_defaults d <->
  (forall class, is_class class -> (forall type fields, fields_of class type = Some fields -> usable fields (defaults_of d type)) /\ object d).
Proof.
  split.
  - intros [O U] class Ic. split; [intros type fields E; eapply U; exact E|exact O].
  - intro H. split; [apply (H "nodes"); left; reflexivity|]. intros class type fields E. unfold fields_of, table in E.
    destruct (string_dec class "nodes") as [->|]; [apply (H "nodes" (or_introl eq_refl)); exact E|].
    destruct (string_dec class "connections") as [->|]; [apply (H "connections" (or_intror eq_refl)); exact E|discriminate].
Qed.
Lemma file_cases d : (usable_defaults d -> forall kind, exists s, file_schema kind node_types edge_types d false = Ok s) /\
  (~ usable_defaults d -> file_schema Topology_file node_types edge_types d false = Exc).
Proof.
  rewrite usable_split. split.
  - intros U kind. destruct (proj1 (class_cases "nodes" kind d (or_introl eq_refl)) (U _ (or_introl eq_refl))) as [n Hn].
    destruct (proj1 (class_cases "connections" kind d (or_intror eq_refl)) (U _ (or_intror eq_refl))) as [e He].
    unfold file_schema. change node_types with (types_of "nodes"). change edge_types with (types_of "connections"). rewrite Hn. cbn [obind]. rewrite He. eexists. reflexivity.
  - intro U. unfold file_schema. change node_types with (types_of "nodes"). change edge_types with (types_of "connections").
    destruct (class_properties Topology_file (types_of "nodes") d false) as [n| |] eqn:En; [|reflexivity|].
    + cbn [obind]. pose proof (class_usable _ _ _ (or_introl eq_refl) En) as Un. rewrite (proj2 (class_cases "connections" Topology_file d (or_intror eq_refl))); [reflexivity|].
      intro Ue. apply U. intros class [-> | ->]; assumption.
    + rewrite (proj2 (class_cases "nodes" Topology_file d (or_introl eq_refl))) in En; [discriminate|]. intro Un.
      destruct (proj1 (class_cases "nodes" Topology_file d (or_introl eq_refl)) Un). congruence.
Qed.
Lemma file_usable d s : file_schema Topology_file node_types edge_types d false = Ok s -> usable_defaults d.
Proof.
  intro H. destruct (file_schema_inv _ _ _ H) as (ln & le & _ & Hn & He). apply usable_split. intros class [-> | ->]; eapply class_usable; eauto; [left|right]; reflexivity.
Qed.
Lemma schema_defaults_the pd d : schema_defaults pd = Ok d -> the_defaults pd = d.
Proof.
  unfold schema_defaults, the_defaults. destruct pd as [j|]; [|congruence]. destruct j; try discriminate. cbn [at_key entry_of]. destruct (field fields "problem_data") as [p|]; [|congruence].
  destruct p; try discriminate. cbn [at_key entry_of]. destruct (field fields0 "defaults"); congruence.
Qed.
Lemma schemas_cases pd : (forall p, pd = Some p -> object p /\ forall q, entry_of p "problem_data" = Some q -> object q) ->
  (usable_defaults (the_defaults pd) -> exists s, make_full_factory_schemas pd = Ok s) /\
  (~ usable_defaults (the_defaults pd) -> make_full_factory_schemas pd = Exc) /\
  (forall s, make_full_factory_schemas pd = Ok s -> usable_defaults (the_defaults pd)).
Proof.
  intro H. assert (E : schema_defaults pd = Ok (the_defaults pd)).
  { destruct pd as [p|]; [|reflexivity]. destruct (H p eq_refl) as [[fs ->] Q]. unfold schema_defaults, the_defaults. cbn [at_key entry_of] in *. destruct (field fs "problem_data") as [q|]; [|reflexivity].
    destruct (Q q eq_refl) as [gs ->]. cbn [at_key entry_of]. destruct (field gs "defaults"); reflexivity. }
  unfold make_full_factory_schemas. rewrite E. cbn [obind]. destruct (file_cases (the_defaults pd)) as [F1 F2]. split; [|split].
  - intro U. destruct (F1 U Topology_file) as [t ->]. destruct (F1 U Initial_file) as [i ->]. destruct (F1 U Boundary_file) as [b ->]. destruct (F1 U Control_file) as [c ->]. eexists. reflexivity.
  - intro U. rewrite (F2 U). reflexivity.
  - intros s Hs. apply obind_Ok in Hs. destruct Hs as (t & Et & _). eapply file_usable. exact Et.
Qed.
