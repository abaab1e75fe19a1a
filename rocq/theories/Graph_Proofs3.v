From Coq Require Import List Arith Lia Bool String Sorted Permutation ListDec.
From Verif Require Import Base Json_Model Json_Spec Json_Proofs Json_Proofs2 Json_Proofs3 Json_Props Defaults_Model Defaults_Spec
  Graph_Model Graph_Spec Graph_Proofs Graph_Proofs2.
Import ListNotations.
Local Open Scope string_scope.
Local Open Scope list_scope.

(** ** The shape of the full topology *)
Definition only_arrays (v : json) : Prop :=
  v = JNull \/ exists ts, v = JObj ts /\ forall k w, field ts k = Some w -> exists l, w = JArr l.
Definition shaped (j : json) (class : string) : Prop := forall v, entry_of j class = Some v -> only_arrays v.
Lemma merge_key_shape name sc sub key sub' : only_arrays sub -> merge_key name sc sub key = Ok sub' -> only_arrays sub'.
Proof.
  intros A. unfold merge_key. destruct (contains sub key) eqn:C; [|intro E; injection E as <-; exact A]. intro H.
  destruct A as [->|[ts [-> A]]]; [discriminate|]. cbn [at_const] in H. apply obind_Ok in H. destruct H as [sv [_ H]].
  apply obind_Ok in H. destruct H as [tv [E H]]. destruct (field ts key) as [w|] eqn:F; [|discriminate]. injection E as <-.
  destruct (A key w F) as [lw ->]. apply obind_Ok in H. destruct H as [l [_ H]]. cbn in H. injection H as <-.
  right. eexists. split; [reflexivity|]. intros k v. rewrite field_set. destruct (String.eqb key k).
  - intro E. injection E as <-. eauto.
  - apply A.
Qed.
Lemma merge_keys_shape name sc keys : forall sub sub', only_arrays sub -> merge_keys name sc keys sub = Ok sub' -> only_arrays sub'.
Proof.
  induction keys as [|k keys IH]; intros sub sub' A H; cbn [merge_keys] in H.
  - injection H as <-. exact A.
  - apply obind_Ok in H. destruct H as [s1 [E H]]. eapply IH; [|exact H]. eapply merge_key_shape; eauto.
Qed.
Lemma good_class_shape v : good_class v -> only_arrays v.
Proof.
  intros [ts [-> [N H]]]. right. exists ts. split; [reflexivity|]. intros k w F. destruct (H k w (field_in _ _ _ F)) as [l [-> _]]. eauto.
Qed.
Lemma file_shape j class : good_file j -> In class ["nodes"; "connections"] -> shaped j class.
Proof.
  intros [fs [-> [A B]]] C v E. cbn in E. apply good_class_shape. destruct C as [<-|[<-|[]]]; auto.
Qed.
Definition two_shaped (j : json) : Prop := shaped j "nodes" /\ shaped j "connections".
Lemma merge_class_two name second t class t' : In class ["nodes"; "connections"] -> two_shaped t -> (exists fs, t = JObj fs) ->
  merge_class name second t class = Ok t' -> two_shaped t' /\ exists fs, t' = JObj fs.
Proof.
  intros C [A B] O. unfold merge_class. destruct (contains second class); [|intro E; injection E as <-; split; [split|]; auto].
  intro H. apply obind_Ok in H. destruct H as [sc [_ H]]. destruct (items sc) as [|i is]; [injection H as <-; split; [split|]; auto|].
  destruct O as [fs ->]. apply obind_Ok in H. destruct H as [[t1 v] [E H]]. apply obind_Ok in H. destruct H as [v' [M H]]. cbn [fst snd] in *.
  assert (X : exists fs1, t1 = JObj fs1 /\ only_arrays v /\ forall c, c <> class -> field fs1 c = field fs c).
  { cbn [at_mut] in E. destruct (field fs class) as [w|] eqn:F; injection E as <- <-.
    - exists fs. split; [reflexivity|]. split; [destruct C as [<-|[<-|[]]]; [apply A|apply B]; exact F|reflexivity].
    - eexists. split; [reflexivity|]. split; [left; reflexivity|]. intros c D. rewrite field_set.
      destruct (String.eqb_spec class c); [congruence|reflexivity]. }
  destruct X as [fs1 [-> [V W]]]. cbn [assign] in H. injection H as <-. split; [|eexists; reflexivity].
  assert (Y : forall c, shaped (JObj fs) c -> shaped (JObj (set_field fs1 class v')) c).
  { intros c Sc w. cbn [entry_of]. rewrite field_set. destruct (String.eqb_spec class c) as [->|D].
    - intro Q. injection Q as <-. eapply merge_keys_shape; eauto.
    - rewrite W by congruence. apply Sc. }
  split; apply Y; assumption.
Qed.

Lemma full_nodup topology boundary t : good_file topology -> good_file boundary ->
  build_full_networkproblem_json topology boundary = Ok t -> NoDup (all_ids topology) /\ NoDup (all_ids boundary).
Proof.
  intros Gt Gb H. split.
  - destruct (NoDup_dec string_dec (all_ids topology)) as [N|N]; [exact N|].
    rewrite (C38_duplicates topology boundary Gt Gb (or_introl N)) in H. discriminate.
  - destruct (NoDup_dec string_dec (all_ids boundary)) as [N|N]; [exact N|].
    rewrite (C38_duplicates topology boundary Gt Gb (or_intror N)) in H. discriminate.
Qed.
Lemma full_shape topology boundary t : good_file topology -> good_file boundary ->
  build_full_networkproblem_json topology boundary = Ok t -> two_shaped t /\ exists fs, t = JObj fs.
Proof.
  intros Gt Gb H. destruct (full_nodup _ _ _ Gt Gb H) as [Nt Nb].
  destruct (proj1 (C40_sort topology Gt) Nt) as [t1 [E1 [G1 _]]]. destruct (proj1 (C40_sort boundary Gb) Nb) as [b1 [E2 _]].
  unfold build_full_networkproblem_json in H. rewrite E1, E2 in H. cbn [obind] in H.
  unfold insert_second_json_in_topology_json in H. apply obind_Ok in H. destruct H as [t2 [H2 H3]].
  assert (O : exists fs, t1 = JObj fs) by (destruct G1 as [fs [-> _]]; eauto).
  destruct (merge_class_two "boundary_values" b1 t1 "nodes" t2) as [S2 O2]; [cbn; auto|split; apply file_shape; cbn; auto|exact O|exact H2|].
  exact (merge_class_two "boundary_values" b1 t2 "connections" t (or_intror (or_introl eq_refl)) S2 O2 H3).
Qed.
Lemma extended_text c name s c' k x : extended c name s c' -> k <> name -> (text c' k x <-> text c k x).
Proof. intros [_ E] N. unfold text. rewrite E by exact N. reflexivity. Qed.
(** The components of the full topology: those of the topology, with the same id and ends. *)
Lemma full_components topology boundary t : good_file topology -> good_file boundary ->
  build_full_networkproblem_json topology boundary = Ok t ->
  forall class type, In class ["nodes"; "connections"] ->
    exists l, Permutation l (of_type topology class type) /\
      Forall2 (fun c c' => forall k, k <> "boundary_values" -> entry_of c' k = entry_of c k) l (of_type t class type).
Proof.
  intros Gt Gb H class type C. destruct (full_nodup _ _ _ Gt Gb H) as [Nt Nb].
  destruct (proj1 (C38_attach topology boundary t Gt Gb Nt Nb H) class type C) as [l [P [_ F]]].
  exists l. split; [exact P|]. eapply Forall2_impl_aux; [|exact F]. intros c c' K. cbn beta in K.
  destruct (entry_for (of_type boundary class type) c); [exact (proj2 K)|]. subst c'. reflexivity.
Qed.
Lemma id_entry c : id c = match entry_of c "id" with Some (JStr x) => x | _ => "" end.
Proof. unfold id, entry_of. destruct c; reflexivity. Qed.
Lemma full_map {A} (g : json -> A) topology boundary t : good_file topology -> good_file boundary ->
  build_full_networkproblem_json topology boundary = Ok t ->
  (forall c c', (forall k, k <> "boundary_values" -> entry_of c' k = entry_of c k) -> g c' = g c) ->
  forall class type, In class ["nodes"; "connections"] -> Permutation (map g (of_type t class type)) (map g (of_type topology class type)).
Proof.
  intros Gt Gb H X class type C. destruct (full_components _ _ _ Gt Gb H class type C) as [l [P F]].
  eapply Permutation_trans; [|apply Permutation_map; exact P].
  assert (Z : map g (of_type t class type) = map g l); [|rewrite Z; apply Permutation_refl].
  induction F as [|c c' l l' K F IH]; [reflexivity|]. cbn. rewrite (X c c' K). f_equal.
  clear -F X. induction F as [|c c' l l' K F IH]; [reflexivity|]. cbn. rewrite (X c c' K), IH. reflexivity.
Qed.
Lemma full_in topology boundary t (Q : json -> Prop) : good_file topology -> good_file boundary ->
  build_full_networkproblem_json topology boundary = Ok t ->
  (forall c c', (forall k, k <> "boundary_values" -> entry_of c' k = entry_of c k) -> Q c -> Q c') ->
  forall class type, In class ["nodes"; "connections"] -> (forall c, In c (of_type topology class type) -> Q c) ->
  forall c, In c (of_type t class type) -> Q c.
Proof.
  intros Gt Gb H X class type C B. destruct (full_components _ _ _ Gt Gb H class type C) as [l [P F]].
  assert (B' : forall c, In c l -> Q c) by (intros c K; apply B; eapply Permutation_in; eauto). clear B P.
  induction F as [|c c' l l' K F IH]; [intros c []|]. intros d [<-|D]; [eapply X; [exact K|apply B'; left; reflexivity]|].
  apply IH; [|exact D]. intros; apply B'; right; assumption.
Qed.

(** ** Building the net from a topology *)
Section Topology.
Variables (accepts : json -> json -> bool) (nt et : type_map) (t : json).
Hypothesis Gn : good_types nt.
Hypothesis Ge : good_types et.
Hypothesis Ot : exists fs, t = JObj fs.
Hypothesis St : two_shaped t.
Hypothesis It : forall class type c, In class ["nodes"; "connections"] -> In c (of_type t class type) -> exists x, text c "id" x.
Hypothesis Et : forall type c, In c (of_type t "connections" type) -> has_ends c.

Definition class_value (class : string) : json := match entry_of t class with Some v => v | None => JNull end.
Lemma class_arrays class : In class ["nodes"; "connections"] -> arrays (class_value class).
Proof.
  intro C. unfold class_value. destruct (entry_of t class) as [v|] eqn:E; [|left; reflexivity].
  assert (O : only_arrays v) by (destruct St as [A B]; destruct C as [<-|[<-|[]]]; [apply A|apply B]; exact E).
  destruct O as [->|[ts [-> O]]]; [left; reflexivity|]. right. exists ts. split; [reflexivity|]. intros k w F.
  destruct (O k w F) as [l ->]. exists l. split; [reflexivity|]. intros c I. apply (It class k c C).
  unfold of_type. rewrite types_entry, E, F. exact I.
Qed.
Lemma class_listed class type : listed (class_value class) type = of_type t class type.
Proof.
  unfold class_value, listed, of_type. rewrite types_entry. destruct (entry_of t class) as [[]|]; reflexivity.
Qed.
Definition unknown_type (types : type_map) (class : string) : Prop :=
  exists k v, In (k, v) (Json_Spec.types t class) /\ ~ In k (map fst types).
Lemma known_spec types class : In class ["nodes"; "connections"] ->
  (all_known types (class_value class) = true <-> ~ unknown_type types class).
Proof.
  intro C. unfold all_known, unknown_type. rewrite types_entry. unfold class_value.
  destruct (entry_of t class) as [v|] eqn:E; [|split; [intros _ [k [w [[] _]]]|reflexivity]].
  assert (O : only_arrays v) by (destruct St as [A B]; destruct C as [<-|[<-|[]]]; [apply A|apply B]; exact E).
  destruct O as [->|[ts [-> O]]]; [split; [intros _ [k [w [[] _]]]|reflexivity]|]. cbn [items]. rewrite forallb_forall. split.
  - intros K [k [w [I M]]]. specialize (K _ I). cbn in K. destruct (field types k) eqn:F; [|discriminate].
    apply M. apply field_in in F. apply (in_map fst) in F. exact F.
  - intros K [k w] I. cbn. destruct (field types k) eqn:F; [reflexivity|]. exfalso. apply K. exists k, w. split; [exact I|].
    apply field_none_notin. exact F.
Qed.
Lemma todo_class types class : In class ["nodes"; "connections"] -> good_types types -> todo_ok (entries types (class_value class)).
Proof.
  intros C [N G] ty s c I. apply entries_in in I; [|apply class_arrays; exact C|exact N]. destruct I as [F I].
  split; [apply (G ty s); apply field_in; exact F|]. rewrite class_listed in I. eapply It; eauto.
Qed.
Lemma read_classes : exists t1 t2, at_mut t "nodes" = Ok (t1, class_value "nodes") /\ at_mut t1 "connections" = Ok (t2, class_value "connections").
Proof.
  destruct Ot as [fs E]. unfold class_value. rewrite E. cbn [at_mut entry_of].
  assert (X : forall gs, exists t2, at_mut (JObj gs) "connections" = Ok (t2, match field gs "connections" with Some v => v | None => JNull end)).
  { intro gs. cbn [at_mut]. destruct (field gs "connections"); eauto. }
  destruct (field fs "nodes") as [v|].
  - destruct (X fs) as [t2 Q]. eauto.
  - destruct (X (set_field fs "nodes" JNull)) as [t2 Q]. exists (JObj (set_field fs "nodes" JNull)), t2. split; [reflexivity|].
    rewrite Q, field_set. reflexivity.
Qed.

Definition topology_node_ids : list string := flat_map (fun ty => map id (of_type t "nodes" ty)) (map fst nt).
Definition problem : Prop :=
  unknown_type nt "nodes" \/ unknown_type et "connections" \/
  (exists ty s c, In (ty, s) nt /\ In c (of_type t "nodes" ty) /\ rejected accepts s c) \/
  (exists ty s c, In (ty, s) et /\ In c (of_type t "connections" ty) /\
     (rejected accepts s c \/ bad_ends topology_node_ids c)).
Lemma entries_ids types class : In class ["nodes"; "connections"] ->
  map (fun e => id (snd e)) (entries types (class_value class)) = flat_map (fun ty => map id (of_type t class ty)) (map fst types).
Proof.
  intro C. rewrite entries_listed by (apply class_arrays; exact C). induction types as [|[ty s] types IH]; [reflexivity|].
  cbn [flat_map map fst snd]. rewrite map_app, map_map, IH, class_listed. reflexivity.
Qed.
Lemma topology_cases :
  (exists n, net_of_topology accepts nt et t = Ok n /\ ~ problem /\
     inside (net_heap n) (net_nodes n) (net_edges n) /\ attachments (net_heap n) (net_nodes n) (net_edges n) /\
     NoDup (net_nodes n) /\ NoDup (net_edges n) /\
     map (fun a => (n_type (nodes_at (net_heap n) a), n_id (nodes_at (net_heap n) a))) (net_nodes n)
       = map (fun e => (fst (fst e), id (snd e))) (entries nt (class_value "nodes")) /\
     map (says (net_heap n)) (net_edges n) = map claims (entries et (class_value "connections")))
  \/ (net_of_topology accepts nt et t = Exc /\ problem).
Proof.
  assert (Cn : In "nodes" ["nodes"; "connections"]) by (cbn; auto).
  assert (Ce : In "connections" ["nodes"; "connections"]) by (cbn; auto).
  destruct read_classes as [t1 [t2 [E1 E2]]]. unfold net_of_topology. rewrite E1. cbn [obind fst snd].
  unfold build_node_vector. destruct (all_known nt (class_value "nodes")) eqn:K1.
  2: { right. split; [reflexivity|]. left. destruct (known_spec nt "nodes" Cn) as [_ Y].
       unfold all_known in K1. unfold unknown_type. rewrite types_entry. unfold class_value in K1.
       destruct (entry_of t "nodes") as [v|] eqn:E; [|discriminate]. destruct (proj1 St v E) as [->|[ts [-> O]]]; [discriminate|].
       cbn [items] in K1. clear -K1. induction ts as [|[k w] ts IH]; [discriminate|]. cbn [forallb fst] in K1.
       destruct (field nt k) eqn:F.
       - destruct (IH K1) as [k' [v' [I M]]]. exists k', v'. split; [right; exact I|exact M].
       - exists k, w. split; [left; reflexivity|]. apply field_none_notin. exact F. }
  assert (U1 : ~ unknown_type nt "nodes") by (apply known_spec; assumption).
  destruct (make_nodes_spec accepts (entries nt (class_value "nodes")) (todo_class nt "nodes" Cn Gn) O empty_heap)
    as [[h1 [M1 [R1 [V1 [Q1 _]]]]]|[M1 [ty [s [c [I1 R1]]]]]]; rewrite M1; cbn [obind fst snd].
  2: { right. split; [reflexivity|]. right. right. left. exists ty, s, c.
       apply entries_in in I1; [|apply class_arrays; exact Cn|apply Gn]. destruct I1 as [F I1]. rewrite class_listed in I1.
       split; [apply field_in; exact F|auto]. }
  set (nodes := seq 0 (List.length (entries nt (class_value "nodes")))) in *.
  rewrite E2. cbn [obind fst snd]. unfold build_edge_vector. destruct (all_known et (class_value "connections")) eqn:K2.
  2: { right. split; [reflexivity|]. right. left. unfold all_known in K2. unfold unknown_type. rewrite types_entry. unfold class_value in K2.
       destruct (entry_of t "connections") as [v|] eqn:E; [|discriminate]. destruct (proj2 St v E) as [->|[ts [-> O]]]; [discriminate|].
       cbn [items] in K2. clear -K2. induction ts as [|[k w] ts IH]; [discriminate|]. cbn [forallb fst] in K2.
       destruct (field et k) eqn:F.
       - destruct (IH K2) as [k' [v' [I M]]]. exists k', v'. split; [right; exact I|exact M].
       - exists k, w. split; [left; reflexivity|]. apply field_none_notin. exact F. }
  assert (U2 : ~ unknown_type et "connections") by (apply known_spec; assumption).
  assert (Fr : forall a, In a nodes -> n_starting (nodes_at h1 a) = [] /\ n_ending (nodes_at h1 a) = []).
  { intros a Ia. assert (X : In (nodes_at h1 a) (map (nodes_at h1) nodes)) by (apply in_map; exact Ia). rewrite V1 in X.
    apply in_map_iff in X. destruct X as [e [<- _]]. split; reflexivity. }
  assert (A0 : attachments h1 nodes []) by (intros a Ia; destruct (Fr a Ia) as [-> ->]; split; reflexivity).
  assert (Nm : names h1 nodes = topology_node_ids).
  { unfold names, topology_node_ids. rewrite <- (entries_ids nt "nodes" Cn).
    rewrite <- (map_map (nodes_at h1) n_id), V1, map_map. reflexivity. }
  assert (Te : edge_todo_ok (entries et (class_value "connections"))).
  { split; [apply todo_class; assumption|]. intros ty s c I. apply entries_in in I; [|apply class_arrays; exact Ce|apply Ge].
    destruct I as [_ I]. rewrite class_listed in I. eapply Et. exact I. }
  destruct (make_edges_spec accepts nodes (entries et (class_value "connections")) Te O h1 [] A0)
    as [[h2 [M2 [R2 [A2 [I2 [S2 [_ V2]]]]]]]|[M2 [ty [s [c [I2 R2]]]]]].
  { intros e []. } { constructor. } { intros e []. }
  2: { right. rewrite M2. split; [reflexivity|]. right. right. right. exists ty, s, c.
       apply entries_in in I2; [|apply class_arrays; exact Ce|apply Ge]. destruct I2 as [F I2]. rewrite class_listed in I2.
       rewrite Nm in R2. split; [apply field_in; exact F|auto]. }
  cbn [app] in A2, I2. rewrite M2. cbn [obind fst snd]. set (edges := seq 0 (List.length (entries et (class_value "connections")))) in *.
  rewrite (net_accepts h2 nodes edges A2 I2 edges (fun e K => K)). left. eexists. split; [reflexivity|]. cbn [net_heap net_nodes net_edges].
  split; [|split; [exact I2|split; [exact A2|split; [apply seq_NoDup|split; [apply seq_NoDup|split; [|exact V2]]]]]].
  - intros [P|[P|[[ty [s [c [P1 [P2 P3]]]]]|[ty [s [c [P1 [P2 P3]]]]]]]]; [exact (U1 P)|exact (U2 P)| |].
    + apply (R1 ty s c); [|exact P3]. apply entries_in; [apply class_arrays; exact Cn|apply Gn|].
      rewrite class_listed. split; [|exact P2]. apply field_nodup; [apply Gn|exact P1].
    + rewrite Nm in R2. destruct (R2 ty s c) as [X Y].
      * apply entries_in; [apply class_arrays; exact Ce|apply Ge|].
        rewrite class_listed. split; [|exact P2]. apply field_nodup; [apply Ge|exact P1].
      * tauto.
  - rewrite (map_ext _ (fun a => (n_type (nodes_at h1 a), n_id (nodes_at h1 a)))).
    + rewrite <- (map_map (nodes_at h1) (fun n => (n_type n, n_id n))), V1, map_map. reflexivity.
    + intro a. destruct (S2 a) as [-> ->]. reflexivity.
Qed.
End Topology.

(** ** From the two files *)
Section Files.
Variables (accepts : json -> json -> bool) (nt et : type_map) (topology boundary t : json).
Hypothesis Gt : good_file topology.
Hypothesis Gb : good_file boundary.
Hypothesis Gn : good_types nt.
Hypothesis Ge : good_types et.
Hypothesis H : build_full_networkproblem_json topology boundary = Ok t.
Hypothesis Ends : forall c, In c (components topology "connections") -> has_ends c.

Lemma of_type_components j class type c : In c (of_type j class type) -> In c (components j class).
Proof.
  unfold of_type, components. destruct (field (types j class) type) as [v|] eqn:F; [|intros []]. intro I.
  apply in_flat_map. exists (type, v). split; [apply field_in; exact F|exact I].
Qed.
Lemma t_ids class type c : In class ["nodes"; "connections"] -> In c (of_type t class type) -> exists x, text c "id" x.
Proof.
  intros C. apply (full_in topology boundary t (fun c => exists x, text c "id" x) Gt Gb H); [|exact C|].
  - intros d d' K [x X]. exists x. unfold text. rewrite K by discriminate. exact X.
  - intros d D. destruct (of_type_ids topology class type Gt (proj2 (is_class_in class) C) d D) as [x X]. exists x. apply text_id. exact X.
Qed.
Lemma t_ends type c : In c (of_type t "connections" type) -> has_ends c.
Proof.
  apply (full_in topology boundary t has_ends Gt Gb H); [|cbn; auto|].
  - intros d d' K [x [y [X Y]]]. exists x, y. unfold text. rewrite !K by discriminate. auto.
  - intros d D. apply Ends. eapply of_type_components. exact D.
Qed.
Lemma ends_same c c' : (forall k, k <> "boundary_values" -> entry_of c' k = entry_of c k) -> ends c' = ends c.
Proof. intro K. unfold ends. rewrite !id_entry, !K by discriminate. reflexivity. Qed.
Lemma id_same c c' : (forall k, k <> "boundary_values" -> entry_of c' k = entry_of c k) -> id c' = id c.
Proof. intro K. rewrite !id_entry, K by discriminate. reflexivity. Qed.
Lemma files_cases :
  (exists n, build_net accepts nt et topology boundary = Ok n /\ ~ problem accepts nt et t /\
     inside (net_heap n) (net_nodes n) (net_edges n) /\ attachments (net_heap n) (net_nodes n) (net_edges n) /\
     NoDup (net_nodes n) /\ NoDup (net_edges n) /\
     map (fun a => (n_type (nodes_at (net_heap n) a), n_id (nodes_at (net_heap n) a))) (net_nodes n)
       = map (fun e => (fst (fst e), id (snd e))) (entries nt (class_value t "nodes")) /\
     map (says (net_heap n)) (net_edges n) = map claims (entries et (class_value t "connections")))
  \/ (build_net accepts nt et topology boundary = Exc /\ problem accepts nt et t).
Proof.
  destruct (full_shape topology boundary t Gt Gb H) as [S O]. unfold build_net. rewrite H. cbn [obind].
  apply topology_cases; auto; [apply t_ids|apply t_ends].
Qed.
Lemma t_arrays class : In class ["nodes"; "connections"] -> arrays (class_value t class).
Proof. intro C. apply class_arrays; [exact (proj1 (full_shape topology boundary t Gt Gb H))|apply t_ids|exact C]. Qed.
(** The components of one type among the entries. *)
Lemma entries_type types class type : In class ["nodes"; "connections"] -> good_types types -> ~ unknown_type t types class ->
  map snd (filter (fun e => String.eqb (fst (fst e)) type) (entries types (class_value t class))) = of_type t class type.
Proof.
  intros C [N _] U. rewrite entries_of_type by (try apply t_arrays; auto). rewrite class_listed.
  destruct (field types type) eqn:F; [reflexivity|]. unfold of_type.
  destruct (field (Json_Spec.types t class) type) as [v|] eqn:Q; [|reflexivity]. exfalso. apply U. exists type, v.
  split; [apply field_in; exact Q|apply field_none_notin; exact F].
Qed.
Lemma class_ids_perm types class : In class ["nodes"; "connections"] -> good_types types -> ~ unknown_type t types class ->
  Permutation (map (fun e => id (snd e)) (entries types (class_value t class))) (map id (components topology class)).
Proof.
  intros C [N G] U. rewrite entries_ids by (try exact (proj1 (full_shape topology boundary t Gt Gb H)); try apply t_ids; auto).
  assert (Q : map id (components topology class) = flat_map (fun ty => map id (of_type topology class ty)) (map fst (Json_Spec.types topology class))
              /\ NoDup (map fst (Json_Spec.types topology class))).
  { destruct (file_class topology class Gt (proj2 (is_class_in class) C)) as [fs [E K]]. unfold components, of_type. rewrite types_entry, E. cbn [entry_of].
    destruct (field fs class) as [v|] eqn:F; [|split; [reflexivity|constructor]]. destruct (K v eq_refl) as [ts [-> [Nt _]]].
    split; [|exact Nt].
    assert (Z : forall l, (forall k w, In (k, w) l -> field ts k = Some w) ->
       map id (flat_map (fun tv => list_of (snd tv)) l) =
       flat_map (fun ty => map id match field ts ty with Some v => list_of v | None => [] end) (map fst l)).
    { induction l as [|[k w] l IH]; intro L; [reflexivity|]. cbn [flat_map map fst snd].
      rewrite map_app, (L k w) by (left; reflexivity). f_equal. apply IH. intros; apply L; right; assumption. }
    apply Z. intros k w I. apply field_nodup; assumption. }
  destruct Q as [-> Nk].
  eapply Permutation_trans; [apply flat_map_perm; intro k; apply (full_map id topology boundary t Gt Gb H); [apply id_same|exact C]|].
  apply flat_map_keys; [exact N|exact Nk| |].
  - intros k _ K. unfold of_type. apply field_none_notin in K. rewrite K. reflexivity.
  - intros k _ K.
    assert (X : Permutation (map id (of_type t class k)) (map id (of_type topology class k)))
      by (apply (full_map id topology boundary t Gt Gb H); [apply id_same|exact C]).
    rewrite <- (entries_type types class k C (conj N G) U), entries_of_type in X by (try apply t_arrays; auto).
    apply field_none_notin in K. rewrite K in X. cbn in X. apply Permutation_nil in X. exact X.
Qed.
End Files.
