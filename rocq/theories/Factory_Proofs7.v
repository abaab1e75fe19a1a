(** * Proofs about the generated schemas of files *)
From Coq Require Import Reals List Bool Arith Lia String Ascii Sorted.
From Verif Require Import Base Json_Model Json_Spec Json_Proofs Json_Proofs2 Json_Proofs3 Defaults_Model Defaults_Spec Defaults_Proofs Defaults_Proofs2
  Defaults_Proofs3 Defaults_Props Controls_Model Controls_Spec Controls_Proofs States_Model States_Spec States_Proofs Factory_Model Factory_Spec Factory_Proofs
  Factory_Proofs2 Factory_Proofs3 Factory_Proofs4 Factory_Proofs5 Factory_Proofs6.
From Verif Require Units_Model Units_Spec.
Import ListNotations.
Local Open Scope string_scope.
Local Open Scope list_scope.

Lemma proper_canonical j : proper j -> canonical j.
Proof. induction 1; constructor; auto. Qed.
Lemma proper_field fs k v : proper (JObj fs) -> field fs k = Some v -> proper v.
Proof. intros P F. inversion P as [| | | | |gs Hs Hc]; subst. eapply Hc. apply field_in. exact F. Qed.

(** ** One class of a file *)
Lemma properties_spec kind d allow types : NoDup (map ct_name types) -> forall acc ps,
  ofold (fun schemas t =>
    obind (type_defaults t d) (fun defaults =>
    obind (component_schema kind t defaults allow) (fun s =>
    match s with
    | Some schema => assign schemas (ct_name t) (make_list_schema_of schema)
    | None => Ok schemas
    end))) types (JObj acc) = Ok ps ->
  exists l, ps = JObj l /\
    (forall t, In t types -> exists dt os, type_defaults t d = Ok dt /\ component_schema kind t dt allow = Ok os /\
       field l (ct_name t) = match os with Some s => Some (make_list_schema_of s) | None => field acc (ct_name t) end) /\
    (forall k, ~ In k (map ct_name types) -> field l k = field acc k).
Proof.
  induction types as [|t types IH]; intros N acc ps H; cbn [ofold] in H.
  - injection H as <-. exists acc. split; [reflexivity|]. split; [intros t []|auto].
  - inversion N as [|? ? N1 N2]; subst. apply obind_Ok in H. destruct H as (acc' & H0 & H). apply obind_Ok in H0. destruct H0 as (dt & Ed & H0).
    apply obind_Ok in H0. destruct H0 as (os & Eo & H0).
    assert (E : exists l0, acc' = JObj l0 /\ forall k, field l0 k = if string_dec (ct_name t) k then match os with Some s => Some (make_list_schema_of s) | None => field acc k end else field acc k).
    { destruct os as [s|].
      - cbn [assign] in H0. injection H0 as <-. eexists. split; [reflexivity|]. intro k. rewrite field_set. destruct (string_dec (ct_name t) k) as [->|Nk]; [rewrite String.eqb_refl; reflexivity|].
        destruct (String.eqb_spec (ct_name t) k); [contradiction|reflexivity].
      - injection H0 as <-. exists acc. split; [reflexivity|]. intro k. destruct (string_dec (ct_name t) k); reflexivity. }
    destruct E as (l0 & -> & E). destruct (IH N2 l0 ps H) as (l & -> & K1 & K2). exists l. split; [reflexivity|]. split.
    + intros t' [<-|I].
      * exists dt, os. split; [exact Ed|]. split; [exact Eo|]. rewrite (K2 _ N1), E. destruct (string_dec (ct_name t) (ct_name t)); [reflexivity|congruence].
      * destruct (K1 t' I) as (dt' & os' & Q1 & Q2 & Q3). exists dt', os'. split; [exact Q1|]. split; [exact Q2|]. rewrite Q3. destruct os'; [reflexivity|]. rewrite E.
        destruct (string_dec (ct_name t) (ct_name t')) as [Eq|]; [|reflexivity]. exfalso. apply N1. rewrite Eq. apply in_map. exact I.
    + intros k K. cbn [map In] in K. rewrite K2 by tauto. rewrite E. destruct (string_dec (ct_name t) k); [tauto|reflexivity].
Qed.
Lemma class_plain ps : plain_node (class_schema ps).
Proof. apply plain_fields. cbn [map fst]. unfold node_key. cbn. intuition. Qed.
Lemma V_class l v : canonical v -> (V (class_schema (JObj l)) v = true <->
  exists ts, v = JObj ts /\ forall k w, field ts k = Some w -> exists def, field l k = Some def /\ V def w = true).
Proof.
  intro C. split.
  - intro H. destruct (V_node_object (class_schema (JObj l)) _ _ eq_refl H) as [ts ->]. apply (V_node _ l ts (class_plain _) eq_refl (canonical_nodup ts C)) in H. destruct H as (_ & H2 & H3).
    exists ts. split; [reflexivity|]. intros k w E. destruct (field l k) as [def|] eqn:Ed; [|exfalso; apply (H3 eq_refl k); congruence]. exists def. split; [reflexivity|]. eapply H2; eassumption.
  - intros (ts & -> & H). apply (V_node _ l ts (class_plain _) eq_refl (canonical_nodup ts C)). split; [intros k []|]. split.
    + intros k w def Ew Ed. destruct (H k w Ew) as (def' & Ed' & Q). congruence.
    + intros _ k K. destruct (field ts k) as [w|] eqn:Ew; [|congruence]. destruct (H k w Ew) as (def & Ed & _). congruence.
Qed.
Definition top_schema (n e : json) : json :=
  JObj [("properties", JObj [("connections", class_schema e); ("nodes", class_schema n)]); ("required", JArr [JStr "nodes"; JStr "connections"])].
Lemma V_top n e fs : NoDup (map fst fs) -> (V (top_schema n e) (JObj fs) = true <->
  exists vn ve, field fs "nodes" = Some vn /\ field fs "connections" = Some ve /\ V (class_schema n) vn = true /\ V (class_schema e) ve = true).
Proof.
  intro N. rewrite V_step. unfold vstep.
  change (keyword (top_schema n e) "properties") with (Some (JObj [("connections", class_schema e); ("nodes", class_schema n)])).
  change (keyword (top_schema n e) "required") with (Some (JArr [JStr "nodes"; JStr "connections"])).
  change (keyword (top_schema n e) "type") with (@None json).
  change (keyword (top_schema n e) "items") with (@None json).
  change (keyword (top_schema n e) "minItems") with (@None json).
  change (keyword (top_schema n e) "maxItems") with (@None json).
  change (keyword (top_schema n e) "minimum") with (@None json).
  change (keyword (top_schema n e) "maximum") with (@None json).
  change (keyword (top_schema n e) "contains") with (@None json).
  change (keyword (top_schema n e) "allOf") with (@None json).
  change (keyword (top_schema n e) "additionalProperties") with (@None json).
  change (keyword (top_schema n e) "patternProperties") with (@None json).
  change (keyword (top_schema n e) "oneOf") with (@None json).
  change (keyword (top_schema n e) "pattern") with (@None json).
  cbn iota. rewrite !andb_true_r. cbn [andb forallb]. rewrite !andb_true_r, !andb_true_iff, !contains_obj, forallb_forall. split.
  - intros [[H1 H2] H3]. destruct (field fs "nodes") as [vn|] eqn:En; [|congruence]. destruct (field fs "connections") as [ve|] eqn:Ee; [|congruence].
    exists vn, ve. split; [reflexivity|]. split; [reflexivity|]. split; [apply (H3 _ (field_in _ _ _ En))|apply (H3 _ (field_in _ _ _ Ee))].
  - intros (vn & ve & En & Ee & Vn & Ve). rewrite En, Ee. split; [split; discriminate|]. intros [k v] I. apply (field_nodup _ _ _ N) in I. cbn [fst snd field].
    destruct (String.eqb_spec "connections" k) as [<-|]; [congruence|]. destruct (String.eqb_spec "nodes" k) as [<-|]; [congruence|reflexivity].
Qed.

(** ** The types *)
Lemma types_names class : is_class class -> NoDup (map ct_name (types_of class)).
Proof. intros [-> | ->]; cbn; repeat constructor; cbn; intuition discriminate. Qed.
Lemma wants_known d kind class k P : is_class class -> wants d kind class k = Some P -> In k (map ct_name (types_of class)).
Proof.
  intros Ic H. unfold wants in H.
  assert (Q : forall A (l : list (string * A)) x, look_up l k = Some x -> In k (map fst l)).
  { intros A l x E. apply look_up_in in E. change k with (fst (k, x)). apply in_map. exact E. }
  destruct Ic as [-> | ->]; destruct kind; cbn [string_dec] in H; try discriminate; try (apply Q in H; cbn in H; cbn; tauto).
  - change (fields_of "nodes" k) with (look_up node_fields k) in H. destruct (look_up node_fields k) eqn:E; [|discriminate]. apply Q in E. cbn in E. cbn. tauto.
  - change (fields_of "connections" k) with (look_up edge_fields k) in H. destruct (look_up edge_fields k) eqn:E; [|discriminate]. apply Q in E. cbn in E. cbn. tauto.
Qed.
Lemma V_initial count n xs j : (n <= 2)%nat -> (List.length xs <= 2)%nat -> V (initial_schema count n xs) j = true <-> initial_ok count n xs j.
Proof.
  intros _ L. rewrite <- (V_fuel 9); [apply valid_initial|]. destruct xs as [|a [|b [|c xs]]]; cbn [List.length] in L; try lia; destruct count; vm_compute; repeat constructor.
Qed.
Definition fits (o : option (outcome json)) (w : option (json -> Prop)) : Prop :=
  match o, w with
  | None, None => True
  | Some b, Some P => exists B, b = Ok B /\ (forall j, canonical j -> (V B j = true <-> P j)) /\ with_defaults B (JObj []) false = Ok B
  | _, _ => False
  end.
Ltac fit := first [exact I|eexists; split; [reflexivity|]; split; [intros ? ?; first [apply V_boundary|apply (V_initial None 2 [0%R]); cbn; lia|
  apply (V_initial (Some 1%nat) 2 [0%R]); cbn; lia|apply (V_initial (Some 2%nat) 2 [0%R; 1%R]); cbn; lia]|reflexivity]].
Lemma type_fits class t d : is_class class -> In t (types_of class) ->
  fits (ct_control t) (wants d Control_file class (ct_name t)) /\ fits (ct_initial t) (wants d Initial_file class (ct_name t)) /\
  fits (ct_boundary t) (wants d Boundary_file class (ct_name t)).
Proof.
  intros Ic It. split; [|split].
  1, 2: destruct Ic as [-> | ->];
    [assert (It' : In t node_types) by exact It; clear It; destruct It' as [<-|[<-|[<-|[<-|[<-|[<-|[<-|[<-|[<-|[<-|[]]]]]]]]]]]
    |assert (It' : In t edge_types) by exact It; clear It; destruct It' as [<-|[<-|[<-|[<-|[<-|[<-|[]]]]]]]]; fit.
  destruct (known_type class t Ic It) as (fields & _ & _ & _ & _ & K). change (wants (JObj []) Boundary_file class (ct_name t)) with (wants d Boundary_file class (ct_name t)) in K.
  unfold fits. destruct (ct_boundary t) as [b|]; [|exact K]. destruct (wants d Boundary_file class (ct_name t)) as [P|]; [|exact K].
  destruct K as (B & -> & [F1 F2 F3 F4]). exists B. auto.
Qed.
Definition external_keys : list string := ["boundary_values"; "control_values"; "initial_values"].
Lemma no_external_field class t fields k : is_class class -> In t (types_of class) -> fields_of class (ct_name t) = Some fields -> In k external_keys -> ~ In k (map fst fields).
Proof.
  intros Ic It Ef Ik.
  assert (Q : forall f, fields_of class (ct_name t) = Some f -> forall k, In k external_keys -> existsb (String.eqb k) (map fst f) = false).
  { clear fields k Ef Ik. destruct Ic as [-> | ->].
    - assert (It' : In t node_types) by exact It; clear It; destruct It' as [<-|[<-|[<-|[<-|[<-|[<-|[<-|[<-|[<-|[<-|[]]]]]]]]]]]; intros f E; injection E as <-; intros k [<-|[<-|[<-|[]]]]; reflexivity.
    - assert (It' : In t edge_types) by exact It; clear It; destruct It' as [<-|[<-|[<-|[<-|[<-|[<-|[]]]]]]]; intros f E; injection E as <-; intros k [<-|[<-|[<-|[]]]]; reflexivity. }
  specialize (Q fields Ef k Ik). intro I. assert (X : existsb (String.eqb k) (map fst fields) = true) by (apply existsb_exists; exists k; split; [exact I|apply String.eqb_refl]). congruence.
Qed.

Lemma type_schema d class t dt kind os s2 : is_class class -> In t (types_of class) -> type_defaults t d = Ok dt -> canonical dt ->
  get_schema t dt false false = Ok s2 -> component_schema kind t dt false = Ok os ->
  match os, wants d kind class (ct_name t) with
  | None, None => True
  | Some s, Some P => forall e, canonical e -> (V s e = true <-> P e)
  | _, _ => False
  end.
Proof.
  intros Ic It Ed Cd Hs Ho. destruct (known_type class t Ic It) as (fields & Ef & N & _ & _ & _).
  destruct (topology_schema class t fields dt s2 Ic It Ef Hs) as (s1 & H1 & C1). destruct (defaults_known fields dt s1 N H1) as (ds & ps1 & -> & _ & Kn).
  assert (X : forall k, In k external_keys -> field ds k = None).
  { intros k Ik. destruct (field ds k) eqn:E; [|reflexivity]. destruct (Kn k) as [g I]; [congruence|]. exfalso. apply (no_external_field class t fields k Ic It Ef Ik).
    change k with (fst (k, g)). apply in_map. exact I. }
  assert (Dd : defaults_of d (ct_name t) = JObj ds).
  { unfold type_defaults, value_or in Ed. unfold defaults_of. destruct d; try discriminate. cbn [entry_of]. injection Ed as Ed. rewrite <- Ed. destruct (field fields0 (ct_name t)); reflexivity. }
  destruct (type_fits class t d Ic It) as (Fc & Fi & Fb).
  assert (Ex : forall o key w, In key external_keys -> fits o w -> optional_schema o key (JObj ds) false = Ok os ->
             match os, w with None, None => True | Some s, Some P => forall e, canonical e -> (V s e = true <-> P e) | _, _ => False end).
  { intros o key w Ik F E. unfold optional_schema in E. destruct o as [b|]; [|injection E as <-; exact F]. unfold fits in F. destruct w as [P|]; [|destruct F].
    destruct F as (B & -> & F1 & F2). unfold external_schema in E. cbn [obind value_or] in E. rewrite (X key Ik) in E. cbn [obind] in E. rewrite F2 in E. injection E as <-. exact F1. }
  destruct kind; cbn [component_schema] in Ho.
  - apply (Ex (ct_initial t) "initial_values"); [cbn; tauto|exact Fi|exact Ho].
  - apply (Ex (ct_control t) "control_values"); [cbn; tauto|exact Fc|exact Ho].
  - apply (Ex (ct_boundary t) "boundary_values"); [cbn; tauto|exact Fb|exact Ho].
  - rewrite Hs in Ho. injection Ho as <-. unfold wants. rewrite Ef. cbn [option_map]. rewrite Dd. intros e Ce. apply (described_valid fields (JObj ds) s1 s2 e N H1 C1 Ce).
Qed.

(** ** Files *)
Lemma file_class kind class d l lt : is_class class -> canonical d ->
  class_properties kind (types_of class) d false = Ok (JObj l) -> class_properties Topology_file (types_of class) d false = Ok (JObj lt) ->
  forall v, proper v -> (V (class_schema (JObj l)) v = true <->
    exists ts, v = JObj ts /\ forall type w, field ts type = Some w -> exists P es, wants d kind class type = Some P /\ w = JArr es /\ forall e, In e es -> P e).
Proof.
  intros Ic Cd H Ht v Pv. rewrite (V_class l v (proper_canonical v Pv)).
  destruct (properties_spec kind d false (types_of class) (types_names class Ic) [] _ H) as (l' & E & K1 & K2). injection E as <-.
  destruct (properties_spec Topology_file d false (types_of class) (types_names class Ic) [] _ Ht) as (l' & E & T1 & _). injection E as <-.
  assert (One : forall t, In t (types_of class) ->
            match field l (ct_name t), wants d kind class (ct_name t) with
            | None, None => True
            | Some def, Some P => exists s, def = make_list_schema_of s /\ forall e, canonical e -> (V s e = true <-> P e)
            | _, _ => False
            end).
  { intros t It. destruct (K1 t It) as (dt & os & Ed & Eo & ->). destruct (T1 t It) as (dt' & os' & Ed' & Eo' & _). assert (dt' = dt) by congruence. subst dt'.
    cbn [component_schema] in Eo'. destruct (get_schema t dt false false) as [s2| |] eqn:Es; try discriminate.
    assert (Cdt : canonical dt).
    { unfold type_defaults, value_or in Ed. destruct d; try discriminate. injection Ed as <-. destruct (field fields (ct_name t)) eqn:Ef; [eapply canonical_field; eassumption|].
      constructor; [constructor|intros k w []]. }
    pose proof (type_schema d class t dt kind os s2 Ic It Ed Cdt Es Eo) as Q. destruct os as [s|]; destruct (wants d kind class (ct_name t)) as [P|]; try exact Q. exists s. auto. }
  split; intros (ts & -> & Q); exists ts; (split; [reflexivity|]); intros k w Ew.
  - destruct (Q k w Ew) as (def & Ed & Vd). assert (Ik : In k (map ct_name (types_of class))).
    { destruct (in_dec string_dec k (map ct_name (types_of class))) as [I|I]; [exact I|]. rewrite (K2 k I) in Ed. discriminate. }
    apply in_map_iff in Ik. destruct Ik as (t & <- & It). specialize (One t It). rewrite Ed in One. destruct (wants d kind class (ct_name t)) as [P|]; [|destruct One].
    destruct One as (s & -> & Vs). apply V_list in Vd. destruct Vd as (es & -> & Ve). exists P, es. split; [reflexivity|]. split; [reflexivity|].
    intros e Ie. apply Vs; [|auto]. pose proof (proper_field _ _ _ Pv Ew) as Pw. inversion Pw as [| | | |? Pl|]; subst. apply proper_canonical. auto.
  - destruct (Q k w Ew) as (P & es & EP & -> & Pe). pose proof (wants_known d kind class k P Ic EP) as Ik. apply in_map_iff in Ik. destruct Ik as (t & <- & It).
    specialize (One t It). rewrite EP in One. destruct (field l (ct_name t)) as [def|]; [|destruct One]. destruct One as (s & -> & Vs). exists (make_list_schema_of s). split; [reflexivity|].
    apply V_list. exists es. split; [reflexivity|]. intros e Ie. apply Vs; [|auto]. pose proof (proper_field _ _ _ Pv Ew) as Pw. inversion Pw as [| | | |? Pl|]; subst. apply proper_canonical. auto.
Qed.
Lemma file_schema_inv kind d s : file_schema kind node_types edge_types d false = Ok s ->
  exists ln le, s = top_schema (JObj ln) (JObj le) /\ class_properties kind (types_of "nodes") d false = Ok (JObj ln) /\ class_properties kind (types_of "connections") d false = Ok (JObj le).
Proof.
  intro H. unfold file_schema in H. apply obind_Ok in H. destruct H as (n & Hn & H). apply obind_Ok in H. destruct H as (e & He & H). injection H as <-.
  destruct (properties_spec kind d false node_types (types_names "nodes" (or_introl eq_refl)) [] n Hn) as (ln & -> & _).
  destruct (properties_spec kind d false edge_types (types_names "connections" (or_intror eq_refl)) [] e He) as (le & -> & _).
  exists ln, le. auto.
Qed.
Lemma file_valid kind d s st j : canonical d -> file_schema kind node_types edge_types d false = Ok s -> file_schema Topology_file node_types edge_types d false = Ok st ->
  proper j -> object j -> (V s j = true <-> conforms d kind j).
Proof.
  intros Cd H Ht Pj [fs ->]. destruct (file_schema_inv _ _ _ H) as (ln & le & -> & Hn & He). destruct (file_schema_inv _ _ _ Ht) as (tn & te & -> & Tn & Te).
  rewrite V_top by (apply canonical_nodup, proper_canonical, Pj).
  pose proof (file_class kind "nodes" d ln tn (or_introl eq_refl) Cd Hn Tn) as Fn. pose proof (file_class kind "connections" d le te (or_intror eq_refl) Cd He Te) as Fe.
  split.
  - intros (vn & ve & En & Ee & Vn & Ve) class [-> | ->]; cbn [entry_of].
    + apply (Fn vn (proper_field _ _ _ Pj En)) in Vn. destruct Vn as (ts & -> & Q). exists ts. auto.
    + apply (Fe ve (proper_field _ _ _ Pj Ee)) in Ve. destruct Ve as (ts & -> & Q). exists ts. auto.
  - intro C. destruct (C "nodes" (or_introl eq_refl)) as (tsn & En & Qn). destruct (C "connections" (or_intror eq_refl)) as (tse & Ee & Qe). cbn [entry_of] in En, Ee.
    exists (JObj tsn), (JObj tse). split; [exact En|]. split; [exact Ee|]. split; [apply Fn|apply Fe]; eauto using proper_field.
Qed.
Lemma full_schemas_inv pd s : make_full_factory_schemas pd = Ok s -> exists d, schema_defaults pd = Ok d /\
  (forall kind, file_schema kind node_types edge_types d false = Ok (s kind)).
Proof.
  intro H. unfold make_full_factory_schemas in H. apply obind_Ok in H. destruct H as (d & Ed & H). exists d. split; [exact Ed|].
  apply obind_Ok in H. destruct H as (t & Et & H). apply obind_Ok in H. destruct H as (i & Ei & H). apply obind_Ok in H. destruct H as (b & Eb & H).
  apply obind_Ok in H. destruct H as (c & Ec & H). injection H as <-. intros []; assumption.
Qed.
