(** * Specification of the network graph *)
From Coq Require Import List Arith String Permutation.
From Verif Require Import Base Json_Model Json_Spec Defaults_Spec Graph_Model.
Import ListNotations.
Local Open Scope string_scope.
Local Open Scope list_scope.

(** The string under a key of a component. *)
Definition text (c : json) (k x : string) : Prop := entry_of c k = Some (JStr x).

(** The node with an id: the first one in the list. *)
Definition node_named (h : heap) (nodes : list nat) (x : string) (a : nat) : Prop :=
  exists before after, nodes = before ++ a :: after /\ n_id (nodes_at h a) = x /\
    forall b, In b before -> n_id (nodes_at h b) <> x.

(** Two heaps whose nodes have the same ids and types. *)
Definition same_names (h h' : heap) : Prop :=
  forall a, n_id (nodes_at h' a) = n_id (nodes_at h a) /\ n_type (nodes_at h' a) = n_type (nodes_at h a).

(** The nodes [nodes] have exactly the attachments of the edges [live], in this order. *)
Definition attachments (h : heap) (nodes live : list nat) : Prop :=
  forall a, In a nodes ->
    n_starting (nodes_at h a) = filter (fun e => Nat.eqb (e_start (edges_at h e)) a) live /\
    n_ending (nodes_at h a) = filter (fun e => Nat.eqb (e_end (edges_at h e)) a) live.
(** Every edge of [live] runs between two different nodes of [nodes]. *)
Definition inside (h : heap) (nodes live : list nat) : Prop :=
  forall e, In e live -> In (e_start (edges_at h e)) nodes /\ In (e_end (edges_at h e)) nodes /\
    e_start (edges_at h e) <> e_end (edges_at h e).

(** A sequence of creations of edges (at a new address each) and of removals of edges from both
    of their nodes; [run] relates the heaps and the edges alive. *)
Inductive run (nodes : list nat) : heap -> list nat -> heap -> list nat -> Prop :=
| run_done h live : run nodes h live h live
| run_create h live e type data h1 h' live' :
    ~ In e live -> edge_constructor h nodes e type data = Ok h1 ->
    run nodes h1 (live ++ [e]) h' live' -> run nodes h live h' live'
| run_remove h live e h' live' :
    In e live ->
    run nodes (fst (remove_edge (fst (remove_edge h (e_start (edges_at h e)) e)) (e_end (edges_at h e)) e))
        (filter (fun f => negb (Nat.eqb f e)) live) h' live' ->
    run nodes h live h' live'.

(** What a component file says about connections. *)
Definition ends (c : json) : string * string * string :=
  let s k := match entry_of c k with Some (JStr x) => x | _ => "" end in (id c, s "from", s "to").
Definition has_ends (c : json) : Prop := exists x y, text c "from" x /\ text c "to" y.

(** What a net says. *)
Definition node_ids (n : net) (type : string) : list string :=
  map (fun a => n_id (nodes_at (net_heap n) a))
      (filter (fun a => String.eqb (n_type (nodes_at (net_heap n) a)) type) (net_nodes n)).
Definition edge_ends (n : net) (type : string) : list (string * string * string) :=
  let h := net_heap n in
  map (fun e => (e_id (edges_at h e), n_id (nodes_at h (e_start (edges_at h e))), n_id (nodes_at h (e_end (edges_at h e)))))
      (filter (fun e => String.eqb (e_type (edges_at h e)) type) (net_edges n)).
Definition all_net_ids (n : net) : list string :=
  map (fun a => n_id (nodes_at (net_heap n) a)) (net_nodes n) ++ map (fun e => e_id (edges_at (net_heap n) e)) (net_edges n).

(** Type maps of a factory: different names, well-formed schemas. *)
Definition good_types (types : type_map) : Prop :=
  NoDup (map fst types) /\ forall t s, In (t, s) types -> exists ps, sub s = Some ps /\ good_props ps.
