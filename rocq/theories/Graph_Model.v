(** * Model of the network graph: nodes, edges, Net and the factory that builds a net

    src/Model/Network/Node.cpp, Edge.cpp, Net.cpp and
    src/Model/Networkproblem (Netfactory.cpp).  Pointers are numbers (addresses) and a heap maps
    them to objects; null pointers do not occur, because the Edge constructor throws instead of
    storing one. *)
From Coq Require Import Reals List Bool Arith String.
From Verif Require Import Base Json_Model Defaults_Model.
Import ListNotations.
Local Open Scope string_scope.
Local Open Scope list_scope.

(** A Node: its type (the name of the derived class in the factory), its id and the two lists of
    Node::attached_edges (Node.hpp).  Other data of the derived classes is not modelled here. *)
Record node := mkNode { n_type : string; n_id : string; n_starting : list nat; n_ending : list nat }.
(** An Edge: type, id, starting_node and ending_node (Edge.hpp). *)
Record edge := mkEdge { e_type : string; e_id : string; e_start : nat; e_end : nat }.
Record heap := mkHeap { nodes_at : nat -> node; edges_at : nat -> edge }.
Definition upd {A} (f : nat -> A) (a : nat) (x : A) : nat -> A := fun b => if Nat.eqb b a then x else f b.

(** ** Node.cpp *)

(** Node::Node, Node.cpp:26-27: no attached edges.  [a] is the address of the new object. *)
Definition node_constructor (h : heap) (a : nat) (type : string) (data : json) : outcome heap :=
  omap (fun id => mkHeap (upd (nodes_at h) a (mkNode type id [] [])) (edges_at h)) (id_of data).

(** vector::erase of the first equal element. *)
Fixpoint erase_first (e : nat) (l : list nat) : option (list nat) :=
  match l with
  | [] => None
  | x :: rest => if Nat.eqb x e then Some rest else option_map (cons x) (erase_first e rest)
  end.
(** Node::remove_edge, Node.cpp:31-49. *)
Definition remove_edge (h : heap) (a e : nat) : heap * bool :=
  let n := nodes_at h a in
  match erase_first e (n_starting n) with
  | Some l => (mkHeap (upd (nodes_at h) a (mkNode (n_type n) (n_id n) l (n_ending n))) (edges_at h), true)
  | None =>
      match erase_first e (n_ending n) with
      | Some l => (mkHeap (upd (nodes_at h) a (mkNode (n_type n) (n_id n) (n_starting n) l)) (edges_at h), true)
      | None => (h, false)
      end
  end.
(** Node::attach_starting_edge and attach_ending_edge, Node.cpp:59-73. *)
Definition attach_starting_edge (h : heap) (a e : nat) : heap * bool :=
  let n := nodes_at h a in
  if Nat.eqb (e_start (edges_at h e)) a
  then (mkHeap (upd (nodes_at h) a (mkNode (n_type n) (n_id n) (n_starting n ++ [e]) (n_ending n))) (edges_at h), true)
  else (h, false).
Definition attach_ending_edge (h : heap) (a e : nat) : heap * bool :=
  let n := nodes_at h a in
  if Nat.eqb (e_end (edges_at h e)) a
  then (mkHeap (upd (nodes_at h) a (mkNode (n_type n) (n_id n) (n_starting n) (n_ending n ++ [e]))) (edges_at h), true)
  else (h, false).

(** ** Edge.cpp *)

(** Edge::get_node_from_json, Edge.cpp:56-93, with key "from" for direction 1 and "to" for -1. *)
Definition get_node_from_json (h : heap) (nodes : list nat) (data : json) (key : string) : outcome nat :=
  obind (obind (at_const data key) get_string) (fun nodeid =>
  match find (fun a => String.eqb nodeid (n_id (nodes_at h a))) nodes with
  | None => Exc
  | Some a => Ok a
  end).
(** Edge::Edge, Edge.cpp:37-48; [e] is the address of the new object. *)
Definition edge_constructor (h : heap) (nodes : list nat) (e : nat) (type : string) (data : json) : outcome heap :=
  obind (id_of data) (fun id =>
  obind (get_node_from_json h nodes data "from") (fun starting_node =>
  obind (get_node_from_json h nodes data "to") (fun ending_node =>
  if Nat.eqb starting_node ending_node then Exc
  else
    let h1 := mkHeap (nodes_at h) (upd (edges_at h) e (mkEdge type id starting_node ending_node)) in
    let h2 := fst (attach_starting_edge h1 starting_node e) in
    Ok (fst (attach_ending_edge h2 ending_node e))))).
(** Edge::~Edge, Edge.cpp:50: the body is empty. *)
Definition edge_destructor (h : heap) (e : nat) : heap := h.

(** ** Net.cpp *)

Record net := mkNet { net_heap : heap; net_nodes : list nat; net_edges : list nat }.
(** Net::exists_node, Net.cpp:126-137. *)
Definition exists_node (nodes : list nat) (a : nat) : option nat := find (Nat.eqb a) nodes.
(** The checks of Net::Net for one edge, Net.cpp:32-79. *)
Definition attached_in (h : heap) (nodes : list nat) (lists : node -> list nat) (a e : nat) : bool :=
  match exists_node nodes a with
  | None => false
  | Some b => existsb (Nat.eqb e) (lists (nodes_at h b))
  end.
Definition edge_checked (h : heap) (nodes : list nat) (e : nat) : bool :=
  (attached_in h nodes n_starting (e_start (edges_at h e)) e
   && attached_in h nodes n_ending (e_end (edges_at h e)) e)%bool.
(** Net::Net, Net.cpp:27-81. *)
Definition net_constructor (h : heap) (nodes edges : list nat) : outcome net :=
  if forallb (edge_checked h nodes) edges then Ok (mkNet h nodes edges) else Exc.
(** Net::get_node_by_id, Net.cpp:115-124; None is nullptr. *)
Definition get_node_by_id (n : net) (id : string) : option nat :=
  find (fun a => String.eqb id (n_id (nodes_at (net_heap n) a))) (net_nodes n).
(** Net::get_valid_node_ids, Net.cpp:139-146. *)
Definition get_valid_node_ids (n : net) : list string := map (fun a => n_id (nodes_at (net_heap n) a)) (net_nodes n).
(** The ids of the end nodes of an edge: get_starting_node()->get_id() and
    get_ending_node()->get_id(). *)
Definition start_id (h : heap) (e : nat) : string := n_id (nodes_at h (e_start (edges_at h e))).
Definition end_id (h : heap) (e : nat) : string := n_id (nodes_at h (e_end (edges_at h e))).
(** Net::get_edge_by_node_ids, Net.cpp:148-163. *)
Definition get_edge_by_node_ids (n : net) (id1 id2 : string) : option nat :=
  find (fun e => (String.eqb (start_id (net_heap n) e) id1 && String.eqb (end_id (net_heap n) e) id2)%bool) (net_edges n).
(** Net::get_edge_by_id, Net.cpp:165-175. *)
Definition get_edge_by_id (n : net) (id : string) : option nat :=
  find (fun e => String.eqb id (e_id (edges_at (net_heap n) e))) (net_edges n).
(** Net::exists_edge_between, Net.cpp:177-193. *)
Definition exists_edge_between (n : net) (id1 id2 : string) : bool :=
  match find (fun e =>
      ((String.eqb (start_id (net_heap n) e) id1 && String.eqb (end_id (net_heap n) e) id2)
       || (String.eqb (start_id (net_heap n) e) id2 && String.eqb (end_id (net_heap n) e) id1))%bool) (net_edges n) with
  | Some _ => true
  | None => false
  end.

(** ** Componentfactory.hpp and Netfactory.cpp *)

(** A type map of the factory: name and schema (get_schema(true, true)) of the component types;
    a std::map, so the names are different. *)
Definition type_map := list (string * json).
(** make_instance, Componentfactory.hpp:301-311 and 405-415, up to the call of the constructor.
    [accepts] stands for validate_json and for the parts of the constructors of the derived
    classes that are not modelled here: given the schema and the data, do they accept? *)
Definition prepared (accepts : json -> json -> bool) (schema data : json) : outcome json :=
  obind (apply_defaults data schema) (fun d => if accepts schema d then Ok d else Exc).
(** The check for unknown types, Netfactory.cpp:84-92 and 122-130. *)
Definition all_known (types : type_map) (topology : json) : bool :=
  forallb (fun kv => match field types (fst kv) with Some _ => true | None => false end) (items topology).
(** The order in which the components are visited, Netfactory.cpp:98-105 and 135-142. *)
Definition entries (types : type_map) (topology : json) : list (string * json * json) :=
  flat_map (fun ts => match at_const topology (fst ts) with
                      | Ok v => map (fun c => (fst ts, snd ts, c)) (elems v)
                      | _ => []
                      end) types.
Fixpoint make_nodes (accepts : json -> json -> bool) (todo : list (string * json * json)) (a : nat) (h : heap)
  : outcome (heap * list nat) :=
  match todo with
  | [] => Ok (h, [])
  | (type, schema, data) :: rest =>
      obind (prepared accepts schema data) (fun d =>
      obind (node_constructor h a type d) (fun h1 =>
      omap (fun r => (fst r, a :: snd r)) (make_nodes accepts rest (S a) h1)))
  end.
(** build_node_vector, Netfactory.cpp:73-108. *)
Definition build_node_vector (accepts : json -> json -> bool) (types : type_map) (topology : json) (h : heap)
  : outcome (heap * list nat) :=
  if all_known types topology then make_nodes accepts (entries types topology) O h else Exc.
Fixpoint make_edges (accepts : json -> json -> bool) (nodes : list nat) (todo : list (string * json * json)) (e : nat) (h : heap)
  : outcome (heap * list nat) :=
  match todo with
  | [] => Ok (h, [])
  | (type, schema, data) :: rest =>
      obind (prepared accepts schema data) (fun d =>
      obind (edge_constructor h nodes e type d) (fun h1 =>
      omap (fun r => (fst r, e :: snd r)) (make_edges accepts nodes rest (S e) h1)))
  end.
(** build_edge_vector, Netfactory.cpp:110-145. *)
Definition build_edge_vector (accepts : json -> json -> bool) (types : type_map) (topology : json) (nodes : list nat) (h : heap)
  : outcome (heap * list nat) :=
  if all_known types topology then make_edges accepts nodes (entries types topology) O h else Exc.
(** Memory before anything is built. *)
Definition empty_heap : heap := mkHeap (fun _ => mkNode "" "" [] []) (fun _ => mkEdge "" "" O O).
(** build_net, Netfactory.cpp:201-214, after the files have been read (see
    [build_full_networkproblem_json] in Json_Model.v).  topology["nodes"] of a mutable json
    creates a missing entry with value null. *)
Definition net_of_topology (accepts : json -> json -> bool) (node_types edge_types : type_map) (topology : json) : outcome net :=
  obind (at_mut topology "nodes") (fun tn =>
  obind (build_node_vector accepts node_types (snd tn) empty_heap) (fun hn =>
  obind (at_mut (fst tn) "connections") (fun tc =>
  obind (build_edge_vector accepts edge_types (snd tc) (snd hn) (fst hn)) (fun he =>
  net_constructor (fst he) (snd hn) (snd he))))).
Definition build_net (accepts : json -> json -> bool) (node_types edge_types : type_map) (topology boundary : json) : outcome net :=
  obind (build_full_networkproblem_json topology boundary) (net_of_topology accepts node_types edge_types).
