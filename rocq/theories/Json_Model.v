(** * Model of nlohmann::json values and of the component helpers

    The library nlohmann::json is not part of /repo; its value type and the few operations the
    code uses are modelled here.  An object is a std::map: a list of fields with pairwise
    different names in ascending order ([JObj]); numbers are reals.  Printing to std::cout and
    error texts are not modelled. *)
From Coq Require Import Reals List Bool Arith String DecimalString Decimal.
From Verif Require Import Base.
Import ListNotations.
Local Open Scope string_scope.
Local Open Scope list_scope.

Inductive json :=
| JNull
| JBool (b : bool)
| JNum (x : R)
| JStr (s : string)
| JArr (l : list json)
| JObj (fields : list (string * json)).

(** std::map::find. *)
Fixpoint field (fs : list (string * json)) (k : string) : option json :=
  match fs with
  | [] => None
  | (k', v) :: rest => if String.eqb k' k then Some v else field rest k
  end.

(** std::map::operator[] followed by an assignment: replace the value or insert a new field at
    its place in the order. *)
Fixpoint set_field (fs : list (string * json)) (k : string) (v : json) : list (string * json) :=
  match fs with
  | [] => [(k, v)]
  | (k', v') :: rest =>
      match String.compare k k' with
      | Eq => (k, v) :: rest
      | Lt => (k, v) :: fs
      | Gt => (k', v') :: set_field rest k v
      end
  end.

(** contains(key): false for anything but objects. *)
Definition contains (j : json) (k : string) : bool :=
  match j with JObj fs => match field fs k with Some _ => true | None => false end | _ => false end.

(** operator[](key) const: a missing key violates an assertion; type_error for other types. *)
Definition at_const (j : json) (k : string) : outcome json :=
  match j with
  | JObj fs => match field fs k with Some v => Ok v | None => UB end
  | _ => Exc
  end.

(** operator[](key) on a mutable value, used for reading: a missing key is created with value
    null, and null becomes an object. *)
Definition at_mut (j : json) (k : string) : outcome (json * json) :=
  match j with
  | JObj fs => match field fs k with Some v => Ok (j, v) | None => Ok (JObj (set_field fs k JNull), JNull) end
  | JNull => Ok (JObj [(k, JNull)], JNull)
  | _ => Exc
  end.

(** j[key] = v. *)
Definition assign (j : json) (k : string) (v : json) : outcome json :=
  match j with
  | JObj fs => Ok (JObj (set_field fs k v))
  | JNull => Ok (JObj [(k, v)])
  | _ => Exc
  end.

(** get<std::string>(). *)
Definition get_string (j : json) : outcome string := match j with JStr s => Ok s | _ => Exc end.

(** Range-based for over a json value: elements, values of the fields, or the value itself. *)
Definition elems (j : json) : list json :=
  match j with
  | JNull => []
  | JArr l => l
  | JObj fs => map snd fs
  | _ => [j]
  end.

(** items(): pairs of key and value; array elements have their index as key. *)
Definition index_key (i : nat) : string := NilZero.string_of_uint (Nat.to_uint i).
Definition items (j : json) : list (string * json) :=
  match j with
  | JNull => []
  | JArr l => combine (map index_key (seq 0 (List.length l))) l
  | JObj fs => fs
  | _ => [("", j)]
  end.

(** Changing the elements of an array or of an object in place. *)
Fixpoint with_values (fs : list (string * json)) (vs : list json) : list (string * json) :=
  match fs, vs with
  | (k, _) :: fs', v :: vs' => (k, v) :: with_values fs' vs'
  | _, _ => []
  end.
Definition with_elems (j : json) (l : list json) : json :=
  match j with
  | JArr _ => JArr l
  | JObj fs => JObj (with_values fs l)
  | JNull => JNull
  | _ => match l with [v] => v | _ => j end
  end.

(** ["id"].get<std::string>() of a component. *)
Definition id_of (j : json) : outcome string := obind (at_const j "id") get_string.

(** ** ComponentJsonHelpers.cpp *)

(** std::sort: ids are strings, and the sorted order of strings is unique, so any sorting
    algorithm gives the result of this insertion sort. *)
Fixpoint insert_string (x : string) (l : list string) : list string :=
  match l with
  | [] => [x]
  | y :: rest => if String.leb x y then x :: l else y :: insert_string x rest
  end.
Fixpoint sort_strings (l : list string) : list string :=
  match l with [] => [] | x :: rest => insert_string x (sort_strings rest) end.

(** The body of the loops in get_sorted_ids_of_json, lines 28-48. *)
Definition component_id (component : json) : outcome string :=
  if contains component "id" then id_of component else Exc.
Definition class_ids (j : json) (component_class : string) : outcome (list string) :=
  if contains j component_class
  then obind (at_const j component_class) (fun sub =>
       omapM component_id (flat_map (fun kv => elems (snd kv)) (items sub)))
  else Ok [].
(** get_sorted_ids_of_json, lines 21-53. *)
Definition get_sorted_ids_of_json (j : json) : outcome (list string) :=
  obind (class_ids j "nodes") (fun a =>
  obind (class_ids j "connections") (fun b =>
  Ok (sort_strings (a ++ b)))).

(** std::adjacent_find(...) != end. *)
Fixpoint adjacent_equal (l : list string) : bool :=
  match l with
  | x :: ((y :: _) as rest) => (String.eqb x y || adjacent_equal rest)%bool
  | _ => false
  end.
(** check_for_duplicates, lines 55-63. *)
Definition check_for_duplicates (j : json) : outcome unit :=
  obind (get_sorted_ids_of_json j) (fun ids => if adjacent_equal ids then Exc else Ok tt).

(** std::sort with id_compare_less, lines 77-84.  The ids are different here (check_for_duplicates
    has passed), so the result does not depend on the algorithm. *)
Fixpoint insert_by_id (x : string * json) (l : list (string * json)) : list (string * json) :=
  match l with
  | [] => [x]
  | y :: rest => if String.ltb (fst y) (fst x) then y :: insert_by_id x rest else x :: l
  end.
Fixpoint sort_by_id (l : list (string * json)) : list (string * json) :=
  match l with [] => [] | x :: rest => insert_by_id x (sort_by_id rest) end.
(** Iterators of objects have no difference: std::sort on a non-empty object throws
    invalid_iterator; null is an empty range; other values are a range of one element. *)
Definition sort_components (j : json) : outcome json :=
  match j with
  | JArr l =>
      omap (fun ids => JArr (map snd (sort_by_id (combine ids l)))) (omapM id_of l)
  | JObj (_ :: _) => Exc
  | _ => Ok j
  end.
(** The loop over the types of one class, lines 73-85: components[component_class] may have
    been an array, then operator[](component_type) throws. *)
Definition sort_class (j : json) : outcome json :=
  match j with
  | JObj fs => omap (fun vs => JObj (with_values fs vs)) (omapM sort_components (map snd fs))
  | JNull => Ok j
  | JArr [] => Ok j
  | _ => Exc
  end.
Definition sort_in (j : json) (component_class : string) : outcome json :=
  if contains j component_class
  then obind (at_const j component_class) (fun sub => obind (sort_class sub) (assign j component_class))
  else Ok j.
(** sort_json_vectors_by_id, lines 65-87. *)
Definition sort_json_vectors_by_id (j : json) : outcome json :=
  obind (check_for_duplicates j) (fun _ =>
  obind (sort_in j "nodes") (fun j1 => sort_in j1 "connections")).

(** ** Netfactory.cpp: insert_second_json_in_topology_json *)

(** id_compare_less, lines 172-175. *)
Definition id_less (a b : json) : outcome bool :=
  obind (id_of a) (fun x => obind (id_of b) (fun y => Ok (String.ltb x y))).
(** The loop, lines 170-196. *)
Fixpoint merge (name : string) (second top : list json) : outcome (list json) :=
  match second, top with
  | s :: second', t :: top' =>
      obind (id_less s t) (fun skip =>
      if skip then merge name second' top
      else obind (id_less t s) (fun missing =>
      if missing then Exc
      else obind (assign t name s) (fun t' => omap (cons t') (merge name second' top'))))
  | _, _ => Ok top
  end.
(** One key of one class, lines 155-197; [sub] is topology[component]. *)
Definition merge_key (name : string) (second_class : json) (sub : json) (key : string) : outcome json :=
  if contains sub key
  then obind (at_const second_class key) (fun sv =>
       obind (at_const sub key) (fun tv =>
       obind (merge name (elems sv) (elems tv)) (fun l => assign sub key (with_elems tv l))))
  else Ok sub.
Fixpoint merge_keys (name : string) (second_class : json) (keys : list string) (sub : json) : outcome json :=
  match keys with
  | [] => Ok sub
  | k :: rest => obind (merge_key name second_class sub k) (merge_keys name second_class rest)
  end.
(** One class, lines 150-198.  topology[component] is evaluated for every key, which creates a
    missing class with value null. *)
Definition merge_class (name : string) (second : json) (topology : json) (component : string) : outcome json :=
  if contains second component
  then obind (at_const second component) (fun sc =>
       match items sc with
       | [] => Ok topology
       | _ :: _ =>
           obind (at_mut topology component) (fun ts =>
           obind (merge_keys name sc (map fst (items sc)) (snd ts)) (assign (fst ts) component))
       end)
  else Ok topology.
Definition insert_second_json_in_topology_json (topology second : json) (name : string) : outcome json :=
  obind (merge_class name second topology "nodes") (fun t1 => merge_class name second t1 "connections").

(** build_full_networkproblem_json, lines 47-56: both files are sorted, then the boundary
    entries are put into the topology.  Replacing the file names by their contents (lines 41-44)
    is not modelled here. *)
Definition build_full_networkproblem_json (topology boundary : json) : outcome json :=
  obind (sort_json_vectors_by_id topology) (fun t =>
  obind (sort_json_vectors_by_id boundary) (fun b =>
  insert_second_json_in_topology_json t b "boundary_values")).

(** ** Networkproblem.cpp: check_components_in_json *)

(** The loop, lines 72-111, on the remaining sorted ids: the ids reported as errors. *)
Fixpoint missing_ids (fuel : nat) (ids json_ids : list string) : list string :=
  match fuel with
  | O => []
  | S f =>
      match json_ids, ids with
      | [], _ => ids
      | _, [] => []
      | j :: js, i :: is =>
          if String.ltb j i then missing_ids f ids js
          else if String.ltb i j then i :: missing_ids f is json_ids
          else missing_ids f is js
      end
  end.
(** check_components_in_json, lines 59-121; [components] are the ids of the components
    (get_ids_of_objects, lines 41-57; every component of a network is an Idobject). *)
Definition check_components_in_json (components : list string) (j : json) : outcome unit :=
  let ids := sort_strings components in
  obind (get_sorted_ids_of_json j) (fun json_ids =>
  match missing_ids (List.length ids + List.length json_ids) ids json_ids with
  | [] => Ok tt
  | _ => Exc
  end).

(** set_initial_values, Networkproblem.cpp:197-219; set_initial_controls and the bounds,
    lines 306-380 and 510-567, are the same: which component is handed which entry, in order.
    The position of a component is the first one with that id (std::find). *)
Fixpoint position (ids : list string) (x : string) : option nat :=
  match ids with
  | [] => None
  | y :: rest => if String.eqb y x then Some O else option_map S (position rest x)
  end.
Definition class_calls (ids : list string) (j : json) (component_class : string)
  : outcome (list (nat * json)) :=
  if contains j component_class
  then obind (at_const j component_class) (fun sub =>
       omap (fun idl => flat_map (fun ie => match position ids (fst ie) with
                                            | Some n => [(n, snd ie)]
                                            | None => []
                                            end)
                                 (combine idl (flat_map elems (elems sub))))
            (omapM id_of (flat_map elems (elems sub))))
  else Ok [].
Definition distribute (ids : list string) (j : json) : outcome (list (nat * json)) :=
  obind (check_components_in_json ids j) (fun _ =>
  obind (class_calls ids j "nodes") (fun a =>
  obind (class_calls ids j "connections") (fun b => Ok (a ++ b)))).
