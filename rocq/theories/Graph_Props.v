(** * Properties C39, C63: the network graph *)
From Coq Require Import Reals List Arith Lia Bool String Sorted Permutation.
From Verif Require Import Base Json_Model Json_Spec Json_Proofs Json_Proofs2 Json_Proofs3 Json_Props Defaults_Model Defaults_Spec Defaults_Props
  Graph_Model Graph_Spec Graph_Proofs Graph_Proofs2 Graph_Proofs3.
Import ListNotations.
Local Open Scope string_scope.
Local Open Scope list_scope.

(** ** Creating and removing edges *)

(** Three nodes for the examples. *)
Definition three : heap :=
  mkHeap (fun a => match a with 0 => mkNode "N" "a" [] [] | 1 => mkNode "N" "b" [] [] | _ => mkNode "N" "c" [] [] end)
         (fun _ => mkEdge "" "" 0 0).
Definition conn (x f t : string) : json := JObj [("from", JStr f); ("id", JStr x); ("to", JStr t)].

(** The constructor of an edge throws exactly for an unknown node or for a loop; otherwise the
    edge is attached at the end of the list of its declared start node and of its declared end
    node, and nothing else changes. *)
Theorem C39_create : forall h nodes e type data x f t,
  text data "id" x -> text data "from" f -> text data "to" t ->
  edge_constructor h nodes e type data <> UB /\
  (edge_constructor h nodes e type data = Exc <->
     (forall a, In a nodes -> n_id (nodes_at h a) <> f) \/ (forall a, In a nodes -> n_id (nodes_at h a) <> t) \/ f = t) /\
  forall h', edge_constructor h nodes e type data = Ok h' ->
    exists a b, node_named h nodes f a /\ node_named h nodes t b /\ a <> b /\
      edges_at h' e = mkEdge type x a b /\ (forall e', e' <> e -> edges_at h' e' = edges_at h e') /\
      n_starting (nodes_at h' a) = n_starting (nodes_at h a) ++ [e] /\
      n_ending (nodes_at h' b) = n_ending (nodes_at h b) ++ [e] /\
      (forall c, c <> a -> n_starting (nodes_at h' c) = n_starting (nodes_at h c)) /\
      (forall c, c <> b -> n_ending (nodes_at h' c) = n_ending (nodes_at h c)) /\
      same_names h h'.
Proof.
  intros h nodes e type data x f t I F T.
  assert (Q : forall y, (~ exists a, node_named h nodes y a) <-> forall a, In a nodes -> n_id (nodes_at h a) <> y).
  { intro y. rewrite named_exists. split.
    - intros K a A E. apply K. rewrite <- E. apply (in_map (fun a => n_id (nodes_at h a))). exact A.
    - intros K J. apply in_map_iff in J. destruct J as [a [E A]]. exact (K a A E). }
  destruct (edge_constructor_spec h nodes e type data x f t I F T) as [[a [b [h' [Na [Nb [Ab [Ft [E Ad]]]]]]]]|[E B]]; rewrite E.
  - split; [discriminate|]. split.
    + split; [discriminate|]. rewrite <- !Q. intros [K|[K|K]]; exfalso; [apply K; eauto|apply K; eauto|contradiction].
    + intros h'' K. injection K as <-. exists a, b. destruct Ad as [Q1 Q2].
      split; [exact Na|]. split; [exact Nb|]. split; [exact Ab|].
      split; [rewrite Q1, Nat.eqb_refl; reflexivity|].
      split; [intros e' Ne; rewrite Q1; destruct (Nat.eqb_spec e' e); [contradiction|reflexivity]|].
      split; [rewrite Q2; cbn; rewrite Nat.eqb_refl; reflexivity|].
      split; [rewrite Q2; cbn; rewrite Nat.eqb_refl; reflexivity|].
      split; [intros c Nc; rewrite Q2; cbn; destruct (Nat.eqb_spec c a); [contradiction|apply app_nil_r]|].
      split; [intros c Nc; rewrite Q2; cbn; destruct (Nat.eqb_spec c b); [contradiction|apply app_nil_r]|].
      apply (added_names h e (mkEdge type x a b)). split; assumption.
  - split; [discriminate|]. split; [|discriminate]. split; [|reflexivity]. rewrite !Q in B. auto.
Qed.
Print Assumptions C39_create.
Example C39_create_ex :
  (exists h', edge_constructor three [0; 1; 2] 7 "P" (conn "p" "a" "c") = Ok h' /\
     n_starting (nodes_at h' 0) = [7] /\ n_ending (nodes_at h' 2) = [7] /\ nodes_at h' 1 = nodes_at three 1) /\
  edge_constructor three [0; 1; 2] 7 "P" (conn "p" "a" "z") = Exc /\
  edge_constructor three [0; 1; 2] 7 "P" (conn "p" "a" "a") = Exc.
Proof. split; [eexists; split; [reflexivity|repeat split]|split; reflexivity]. Qed.

(** After any sequence of creations and removals, starting from any net whose lists are right,
    the lists of every node contain exactly the edges alive that start or end there, in the
    order of their creation, and every edge alive runs between two different nodes. *)
Theorem C39_sequence : forall nodes h live h' live', run nodes h live h' live' ->
  attachments h nodes live -> inside h nodes live -> NoDup live ->
  attachments h' nodes live' /\ inside h' nodes live' /\ NoDup live' /\ same_names h h'.
Proof. exact run_spec. Qed.
Print Assumptions C39_sequence.
(** A net without edges satisfies the assumptions. *)
Example C39_sequence_ex : attachments three [0; 1; 2] [] /\ inside three [0; 1; 2] [] /\
  exists h', run [0; 1; 2] three [] h' [8] /\ n_starting (nodes_at h' 0) = [] /\ n_starting (nodes_at h' 1) = [8] /\ n_ending (nodes_at h' 2) = [8].
Proof.
  split; [intros a [<-|[<-|[<-|[]]]]; split; reflexivity|]. split; [intros e []|].
  eexists. split.
  - eapply (run_create _ _ _ 7 "P" (conn "p" "a" "c")); [intros []|reflexivity|].
    eapply (run_create _ _ _ 8 "P" (conn "q" "b" "c")); [intros [K|[]]; discriminate|reflexivity|].
    apply (run_remove _ _ _ 7); [left; reflexivity|]. apply run_done.
  - repeat split.
Qed.

(** Removing an edge from its two nodes: both calls report success; the edge is gone from both
    lists, everything else stays. *)
Theorem C39_remove : forall h nodes live e, attachments h nodes live -> inside h nodes live -> NoDup live -> In e live ->
  exists h1 h2,
    remove_edge h (e_start (edges_at h e)) e = (h1, true) /\ remove_edge h1 (e_end (edges_at h e)) e = (h2, true) /\
    edges_at h2 = edges_at h /\
    forall a, In a nodes ->
      ~ In e (n_starting (nodes_at h2 a)) /\ ~ In e (n_ending (nodes_at h2 a)) /\
      (forall f, f <> e -> (In f (n_starting (nodes_at h2 a)) <-> In f (n_starting (nodes_at h a))) /\
                           (In f (n_ending (nodes_at h2 a)) <-> In f (n_ending (nodes_at h a)))).
Proof.
  intros h nodes live e A I N E.
  destruct (remove_both h nodes live e A I N E) as [B1 [B2 [Q P]]].
  destruct (removed_attachments h nodes live e A I N E) as [A' _].
  destruct (remove_edge h (e_start (edges_at h e)) e) as [h1 b1]. cbn [fst snd] in *. subst b1.
  destruct (remove_edge h1 (e_end (edges_at h e)) e) as [h2 b2] eqn:R2. cbn [fst snd] in *. subst b2.
  exists h1, h2. split; [reflexivity|]. split; [exact R2|]. split; [exact Q|]. intros a Ia.
  destruct (A' a Ia) as [S2 E2]. destruct (A a Ia) as [S1 E1]. rewrite S2, E2, S1, E1, Q.
  split; [rewrite filter_In, in_without; tauto|]. split; [rewrite filter_In, in_without; tauto|].
  intros f Nf. rewrite !filter_In, !in_without. tauto.
Qed.
Print Assumptions C39_remove.
Example C39_remove_ex : forall h', edge_constructor three [0; 1; 2] 7 "P" (conn "p" "a" "c") = Ok h' ->
  attachments h' [0; 1; 2] [7] /\ inside h' [0; 1; 2] [7].
Proof.
  intros h' E. destruct (run_spec [0; 1; 2] three [] h' [7]) as [A [I _]]; [| | |constructor|auto].
  - eapply run_create; [intros []|exact E|apply run_done].
  - apply C39_sequence_ex.
  - apply C39_sequence_ex.
Qed.

(** The claim does not hold for the destruction of an edge: the destructor does not detach, the
    nodes keep the address of the destroyed edge. *)
Theorem C39_destroy_refuted : exists h nodes e type data h',
  edge_constructor h nodes e type data = Ok h' /\
  exists a, In a nodes /\ In e (n_starting (nodes_at (edge_destructor h' e) a)).
Proof.
  exists three, [0; 1; 2], 7, "P", (conn "p" "a" "c"). eexists. split; [reflexivity|]. exists 0. split; [cbn; auto|]. cbn. auto.
Qed.
Print Assumptions C39_destroy_refuted.

(** ** The constructor of Net *)

(** It accepts exactly the edges both of whose nodes are in the net and know the edge. *)
Theorem C39_net : forall h nodes edges,
  net_constructor h nodes edges <> UB /\
  (forall n, net_constructor h nodes edges = Ok n -> n = mkNet h nodes edges) /\
  (net_constructor h nodes edges <> Exc <->
   forall e, In e edges -> In (e_start (edges_at h e)) nodes /\ In (e_end (edges_at h e)) nodes /\
     In e (n_starting (nodes_at h (e_start (edges_at h e)))) /\ In e (n_ending (nodes_at h (e_end (edges_at h e))))).
Proof.
  intros h nodes edges. destruct (net_constructor_spec h nodes edges) as [[E K]|[E [e [I K]]]]; rewrite E.
  - split; [discriminate|]. split; [intros n Q; injection Q as <-; reflexivity|]. split; [intros _; exact K|discriminate].
  - split; [discriminate|]. split; [discriminate|]. split; [contradiction|]. intro Q. exfalso. apply K. apply Q. exact I.
Qed.
Print Assumptions C39_net.
(** Edges made by the constructor among the nodes of the net are always accepted. *)
Theorem C39_net_accepts : forall nodes h h' live, attachments h nodes [] -> run nodes h [] h' live ->
  net_constructor h' nodes live = Ok (mkNet h' nodes live).
Proof.
  intros nodes h h' live A R. destruct (run_spec nodes h [] h' live R A) as [A' [I' _]]; [intros e []|constructor|].
  apply (net_accepts h' nodes live A' I'). auto.
Qed.
Print Assumptions C39_net_accepts.
(** Taken alone, the constructor of Net neither rejects repeated ids … *)
Theorem C39_net_duplicates_refuted : exists h nodes edges n, net_constructor h nodes edges = Ok n /\
  NoDup nodes /\ ~ NoDup (get_valid_node_ids n).
Proof.
  exists (mkHeap (fun _ => mkNode "N" "a" [] []) (fun _ => mkEdge "" "" 0 0)), [0; 1], []. eexists. split; [reflexivity|].
  split; [repeat constructor; cbn; intuition discriminate|]. cbn. intro K. inversion K as [|? ? K1 _]. apply K1. left. reflexivity.
Qed.
Print Assumptions C39_net_duplicates_refuted.
(** … nor an edge outside the net that is attached to one of its nodes. *)
Theorem C39_net_stray_refuted : exists h nodes h' e n,
  edge_constructor h nodes e "P" (conn "p" "a" "c") = Ok h' /\ net_constructor h' nodes [] = Ok n /\
  exists a, In a (net_nodes n) /\ In e (n_starting (nodes_at (net_heap n) a)) /\ ~ In e (net_edges n).
Proof.
  exists three, [0; 1; 2]. eexists. exists 7. eexists. split; [reflexivity|]. split; [reflexivity|]. exists 0.
  split; [cbn; auto|]. split; [cbn; auto|]. intros [].
Qed.
Print Assumptions C39_net_stray_refuted.

(** ** Building a net from files *)

(** A net built from a topology file has, for every type, exactly the nodes and the connections
    of the file (with their declared ends), no repeated ids, no edge outside, no loops, and
    exactly the attachments of its edges. *)
Theorem C39_build : forall accepts nt et topology boundary n,
  good_file topology -> good_file boundary -> good_types nt -> good_types et ->
  (forall c, In c (components topology "connections") -> has_ends c) ->
  build_net accepts nt et topology boundary = Ok n ->
  NoDup (all_net_ids n) /\
  (forall type, Permutation (node_ids n type) (map id (of_type topology "nodes" type))) /\
  (forall type, Permutation (edge_ends n type) (map ends (of_type topology "connections" type))) /\
  NoDup (net_nodes n) /\ NoDup (net_edges n) /\
  inside (net_heap n) (net_nodes n) (net_edges n) /\ attachments (net_heap n) (net_nodes n) (net_edges n).
Proof.
  intros accepts nt et topology boundary n Gt Gb Gn Ge Ends B.
  assert (Cn : In "nodes" ["nodes"; "connections"]) by (cbn; auto).
  assert (Ce : In "connections" ["nodes"; "connections"]) by (cbn; auto).
  destruct (build_full_networkproblem_json topology boundary) as [t| |] eqn:H; [| |];
    [|unfold build_net in B; rewrite H in B; discriminate|unfold build_net in B; rewrite H in B; discriminate].
  destruct (files_cases accepts nt et topology boundary t Gt Gb Gn Ge H Ends) as [[n' [E [P [I [A [Nn [Ne [V1 V2]]]]]]]]|[E _]];
    rewrite E in B; [|discriminate]. injection B as <-.
  assert (U1 : ~ unknown_type t nt "nodes") by (intro K; apply P; left; exact K).
  assert (U2 : ~ unknown_type t et "connections") by (intro K; apply P; right; left; exact K).
  assert (W1 : map (fun a => n_id (nodes_at (net_heap n') a)) (net_nodes n') = map (fun e => id (snd e)) (entries nt (class_value t "nodes"))).
  { apply (f_equal (map snd)) in V1. rewrite !map_map in V1. exact V1. }
  assert (W2 : map (fun e => e_id (edges_at (net_heap n') e)) (net_edges n') = map (fun e => id (snd e)) (entries et (class_value t "connections"))).
  { apply (f_equal (map (fun s => fst (fst (snd s))))) in V2. rewrite !map_map in V2. exact V2. }
  split.
  - unfold all_net_ids. rewrite W1, W2.
    eapply Permutation_NoDup; [apply Permutation_sym, Permutation_app;
      [apply (class_ids_perm topology boundary t Gt Gb H nt "nodes" Cn Gn U1)|apply (class_ids_perm topology boundary t Gt Gb H et "connections" Ce Ge U2)]|].
    rewrite <- map_app. exact (proj1 (full_nodup _ _ _ Gt Gb H)).
  - split; [|split; [|auto]]; intro type.
    + assert (X : node_ids n' type = map id (of_type t "nodes" type)).
      { unfold node_ids. rewrite <- (entries_type topology boundary t Gt Gb H nt "nodes" type Cn Gn U1).
        apply (f_equal (filter (fun p => String.eqb (fst p) type))) in V1. rewrite !filter_map_comm in V1.
        apply (f_equal (map snd)) in V1. rewrite !map_map in V1. rewrite map_map. exact V1. }
      rewrite X. apply (full_map id topology boundary t Gt Gb H); [apply id_same|exact Cn].
    + assert (X : edge_ends n' type = map ends (of_type t "connections" type)).
      { unfold edge_ends. rewrite <- (entries_type topology boundary t Gt Gb H et "connections" type Ce Ge U2).
        apply (f_equal (filter (fun p => String.eqb (fst p) type))) in V2. rewrite !filter_map_comm in V2.
        apply (f_equal (map snd)) in V2. rewrite !map_map in V2. rewrite map_map. exact V2. }
      rewrite X. apply (full_map ends topology boundary t Gt Gb H); [apply ends_same|exact Ce].
Qed.
Print Assumptions C39_build.

(** When building throws, given the merged topology [t]: an unknown type of component, a
    component that is not accepted, a connection to a node that is not there, or a loop. *)
Theorem C39_build_throws : forall accepts nt et topology boundary t,
  good_file topology -> good_file boundary -> good_types nt -> good_types et ->
  (forall c, In c (components topology "connections") -> has_ends c) ->
  build_full_networkproblem_json topology boundary = Ok t ->
  build_net accepts nt et topology boundary <> UB /\
  (build_net accepts nt et topology boundary = Exc <->
     (exists k v, In (k, v) (types t "nodes") /\ ~ In k (map fst nt)) \/
     (exists k v, In (k, v) (types t "connections") /\ ~ In k (map fst et)) \/
     (exists ty s c, In (ty, s) nt /\ In c (of_type t "nodes" ty) /\
        (apply_defaults c s = Exc \/ exists d, apply_defaults c s = Ok d /\ accepts s d = false)) \/
     (exists ty s c, In (ty, s) et /\ In c (of_type t "connections" ty) /\
        ((apply_defaults c s = Exc \/ exists d, apply_defaults c s = Ok d /\ accepts s d = false) \/
         exists x y, text c "from" x /\ text c "to" y /\
           ((forall ty' c', In ty' (map fst nt) -> In c' (of_type t "nodes" ty') -> id c' <> x) \/
            (forall ty' c', In ty' (map fst nt) -> In c' (of_type t "nodes" ty') -> id c' <> y) \/ x = y)))).
Proof.
  intros accepts nt et topology boundary t Gt Gb Gn Ge Ends H.
  assert (Y : forall x, ~ In x (topology_node_ids nt t) <->
     forall ty' c', In ty' (map fst nt) -> In c' (of_type t "nodes" ty') -> id c' <> x).
  { intro x. unfold topology_node_ids. rewrite in_flat_map. split.
    - intros K ty' c' T I E. apply K. exists ty'. split; [exact T|]. rewrite <- E. apply in_map. exact I.
    - intros K [ty' [T J]]. apply in_map_iff in J. destruct J as [c' [E I]]. exact (K ty' c' T I E). }
  assert (X : problem accepts nt et t <->
     (exists k v, In (k, v) (types t "nodes") /\ ~ In k (map fst nt)) \/
     (exists k v, In (k, v) (types t "connections") /\ ~ In k (map fst et)) \/
     (exists ty s c, In (ty, s) nt /\ In c (of_type t "nodes" ty) /\
        (apply_defaults c s = Exc \/ exists d, apply_defaults c s = Ok d /\ accepts s d = false)) \/
     (exists ty s c, In (ty, s) et /\ In c (of_type t "connections" ty) /\
        ((apply_defaults c s = Exc \/ exists d, apply_defaults c s = Ok d /\ accepts s d = false) \/
         exists x y, text c "from" x /\ text c "to" y /\
           ((forall ty' c', In ty' (map fst nt) -> In c' (of_type t "nodes" ty') -> id c' <> x) \/
            (forall ty' c', In ty' (map fst nt) -> In c' (of_type t "nodes" ty') -> id c' <> y) \/ x = y)))).
  { unfold problem, unknown_type, rejected, bad_ends. split; (intros [K|[K|[K|K]]]; [tauto|tauto|tauto|]); right; right; right;
      destruct K as [ty [s [c [K1 [K2 K3]]]]]; exists ty, s, c; (split; [exact K1|]); (split; [exact K2|]);
      (destruct K3 as [K3|[x [y [K3 [K4 K5]]]]]; [left; exact K3|]); right; exists x, y; (split; [exact K3|]); (split; [exact K4|]);
      rewrite ?Y in *; exact K5. }
  rewrite <- X.
  destruct (files_cases accepts nt et topology boundary t Gt Gb Gn Ge H Ends) as [[n' [E [P _]]]|[E P]]; rewrite E.
  - split; [discriminate|]. split; [discriminate|contradiction].
  - split; [discriminate|]. split; [intros _; exact P|reflexivity].
Qed.
Print Assumptions C39_build_throws.

(** Two sinks and a pipe between them. *)
Definition plain : json := JObj [("properties", JObj [("id", JObj [("type", JStr "string")])]); ("type", JStr "object")].
Definition sinks : type_map := [("Sink", plain)].
Definition pipes : type_map := [("Pipe", plain)].
Lemma plain_good name : good_types [(name, plain)].
Proof.
  split; [repeat constructor; intros []|]. intros t s [K|[]]. injection K as <- <-. eexists. split; [reflexivity|]. constructor.
  - repeat constructor; intros [].
  - intros k v [K|[]]. injection K as <- <-. split; [eexists; reflexivity|discriminate].
  - intros k v q [K|[]] S. injection K as <- <-. discriminate.
Qed.
Example C39_build_ex : good_file (file [comp "b"; comp "a"] [conn "p" "a" "b"]) /\
  (forall c, In c (components (file [comp "b"; comp "a"] [conn "p" "a" "b"]) "connections") -> has_ends c) /\
  (exists n, build_net (fun _ _ => true) sinks pipes (file [comp "b"; comp "a"] [conn "p" "a" "b"]) (file [] []) = Ok n /\
     get_valid_node_ids n = ["a"; "b"] /\ edge_ends n "Pipe" = [("p", "a", "b")] /\ n_starting (nodes_at (net_heap n) 0) = [0]) /\
  build_net (fun _ _ => true) sinks pipes (file [comp "b"; comp "a"] [conn "p" "a" "z"]) (file [] []) = Exc /\
  build_net (fun _ _ => true) sinks pipes (file [comp "b"; comp "a"] [conn "a" "a" "b"]) (file [] []) = Exc.
Proof.
  split.
  { apply file_good; intros c K; cbn in K; repeat (destruct K as [<-|K]; [eexists; eexists; split; reflexivity|]); contradiction. }
  split. { intros c [<-|[]]. exists "a", "b". split; reflexivity. }
  split; [|split; reflexivity]. eexists. split; [reflexivity|]. repeat split.
Qed.

(** ** C63: looking up nodes and edges *)

(** get_node_by_id finds the node with the id, if the ids are different, and nullptr otherwise. *)
Theorem C63_node : forall n x,
  (forall a, get_node_by_id n x = Some a -> In a (net_nodes n) /\ n_id (nodes_at (net_heap n) a) = x) /\
  (get_node_by_id n x = None <-> ~ In x (get_valid_node_ids n)) /\
  (NoDup (get_valid_node_ids n) -> forall a, In a (net_nodes n) -> n_id (nodes_at (net_heap n) a) = x -> get_node_by_id n x = Some a).
Proof.
  intros n x. unfold get_node_by_id, get_valid_node_ids. split; [|split].
  - intros a A. apply find_named in A. apply named_in in A. exact A.
  - rewrite find_not_named, named_exists. reflexivity.
  - intros N a A E. apply find_named. apply in_split in A. destruct A as [p [q A]]. exists p, q. split; [exact A|]. split; [exact E|].
    intros b B K. rewrite A, map_app in N. cbn [map] in N. apply NoDup_remove_2 in N. apply N. apply in_or_app. left.
    rewrite E, <- K. apply (in_map (fun a => n_id (nodes_at (net_heap n) a))). exact B.
Qed.
Print Assumptions C63_node.

Lemma find_none_iff {A} (p : A -> bool) l : find p l = None <-> forall x, In x l -> p x = false.
Proof. split; [intro F; exact (find_none p l F)|apply find_none_iff_aux]. Qed.

(** get_edge_by_id, get_edge_by_node_ids: an edge of the net with this id, or from the first to
    the second node; nullptr exactly if there is none. *)
Theorem C63_edge : forall n x,
  (forall e, get_edge_by_id n x = Some e -> In e (net_edges n) /\ e_id (edges_at (net_heap n) e) = x) /\
  (get_edge_by_id n x = None <-> forall e, In e (net_edges n) -> e_id (edges_at (net_heap n) e) <> x).
Proof.
  intros n x. unfold get_edge_by_id. split.
  - intros e E. apply find_some in E. destruct E as [I E]. apply String.eqb_eq in E. auto.
  - rewrite find_none_iff. split; intros K e I; specialize (K e I).
    + apply String.eqb_neq in K. congruence.
    + apply String.eqb_neq. congruence.
Qed.
Print Assumptions C63_edge.
Definition runs (n : net) (e : nat) (x y : string) : Prop :=
  n_id (nodes_at (net_heap n) (e_start (edges_at (net_heap n) e))) = x /\ n_id (nodes_at (net_heap n) (e_end (edges_at (net_heap n) e))) = y.
Theorem C63_between : forall n x y,
  (forall e, get_edge_by_node_ids n x y = Some e -> In e (net_edges n) /\ runs n e x y) /\
  (get_edge_by_node_ids n x y = None <-> forall e, In e (net_edges n) -> ~ runs n e x y) /\
  (exists_edge_between n x y = true <-> exists e, In e (net_edges n) /\ (runs n e x y \/ runs n e y x)) /\
  exists_edge_between n x y = exists_edge_between n y x.
Proof.
  intros n x y.
  assert (B : forall x y, exists_edge_between n x y = true <-> exists e, In e (net_edges n) /\ (runs n e x y \/ runs n e y x)).
  { clear x y. intros x y. unfold exists_edge_between. destruct (find _ (net_edges n)) as [e|] eqn:F.
    - split; [intros _|reflexivity]. apply find_some in F. destruct F as [I F]. exists e. split; [exact I|].
      apply orb_true_iff in F. rewrite !andb_true_iff, !String.eqb_eq in F. exact F.
    - split; [discriminate|]. intros [e [I K]]. exfalso. rewrite find_none_iff in F. specialize (F e I).
      apply orb_false_iff in F. destruct F as [F1 F2]. unfold runs, start_id, end_id in *. destruct K as [[<- <-]|[<- <-]]; rewrite !String.eqb_refl in *; discriminate. }
  unfold get_edge_by_node_ids. split; [|split; [|split; [apply B|]]].
  - intros e E. apply find_some in E. destruct E as [I E]. rewrite andb_true_iff, !String.eqb_eq in E. auto.
  - rewrite find_none_iff. split; intros K e I; specialize (K e I).
    + intros [<- <-]. unfold start_id, end_id in K. rewrite !String.eqb_refl in K. discriminate.
    + destruct (String.eqb (start_id (net_heap n) e) x && String.eqb (end_id (net_heap n) e) y)%bool eqn:Q; [|reflexivity].
      exfalso. apply K. rewrite andb_true_iff, !String.eqb_eq in Q. exact Q.
  - destruct (exists_edge_between n x y) eqn:P; symmetry.
    + apply B. apply B in P. destruct P as [e [I K]]. exists e. tauto.
    + destruct (exists_edge_between n y x) eqn:Q; [|reflexivity]. apply B in Q.
      assert (Z : exists_edge_between n x y = true) by (apply B; destruct Q as [e [I K]]; exists e; tauto). congruence.
Qed.
Print Assumptions C63_between.
Example C63_ex : exists n,
  build_net (fun _ _ => true) sinks pipes (file [comp "b"; comp "a"] [conn "p" "a" "b"]) (file [] []) = Ok n /\
  NoDup (get_valid_node_ids n) /\ get_node_by_id n "b" = Some 1 /\ get_node_by_id n "c" = None /\ get_edge_by_id n "p" = Some 0 /\
  get_edge_by_node_ids n "a" "b" = Some 0 /\ get_edge_by_node_ids n "b" "a" = None /\ exists_edge_between n "b" "a" = true.
Proof. eexists. split; [reflexivity|]. split; [cbn; repeat constructor; cbn; intuition discriminate|repeat split]. Qed.
