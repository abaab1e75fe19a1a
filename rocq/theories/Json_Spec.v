(** * Specification of files with components *)
From Coq Require Import List Arith String Sorted Permutation.
From Verif Require Import Base Json_Model.
Import ListNotations.
Local Open Scope string_scope.
Local Open Scope list_scope.

(** Alphabetical order of strings. *)
Definition before (a b : string) : Prop := String.compare a b = Lt.

(** The id of a component. *)
Definition has_id (c : json) (x : string) : Prop :=
  exists fs, c = JObj fs /\ field fs "id" = Some (JStr x).
Definition id (c : json) : string :=
  match c with JObj fs => match field fs "id" with Some (JStr x) => x | _ => "" end | _ => "" end.

(** The component types of a class with their lists of components. *)
Definition types (j : json) (class : string) : list (string * json) :=
  match j with
  | JObj fs => match field fs class with Some (JObj ts) => ts | _ => [] end
  | _ => []
  end.
Definition list_of (v : json) : list json := match v with JArr l => l | _ => [] end.
Definition components (j : json) (class : string) : list json :=
  flat_map (fun tv => list_of (snd tv)) (types j class).
Definition all_components (j : json) : list json := components j "nodes" ++ components j "connections".
Definition all_ids (j : json) : list string := map id (all_components j).

(** A component file: an object whose entries "nodes" and "connections", if there, are objects
    of arrays of components with ids. *)
Definition good_class (v : json) : Prop :=
  exists ts, v = JObj ts /\ NoDup (map fst ts) /\
    forall t w, In (t, w) ts -> exists l, w = JArr l /\ forall c, In c l -> exists x, has_id c x.
Definition good_file (j : json) : Prop :=
  exists fs, j = JObj fs /\
    (forall v, field fs "nodes" = Some v -> good_class v) /\
    (forall v, field fs "connections" = Some v -> good_class v).

(** The list of the components of a type. *)
Definition of_type (j : json) (class type : string) : list json :=
  match field (types j class) type with Some v => list_of v | None => [] end.

(** The lists of a file are sorted by id, without repetitions. *)
Definition sorted_file (j : json) : Prop :=
  forall class type, In class ["nodes"; "connections"] ->
    StronglySorted before (map id (of_type j class type)).

(** Other top-level entries. *)
Definition entry_of (j : json) (k : string) : option json :=
  match j with JObj fs => field fs k | _ => None end.

(** The boundary entry for a component. *)
Definition entry_for (second : list json) (c : json) : option json :=
  find (fun s => String.eqb (id s) (id c)) second.
(** A component with an additional field. *)
Definition extended (c : json) (name : string) (v : json) (c' : json) : Prop :=
  entry_of c' name = Some v /\ forall k, k <> name -> entry_of c' k = entry_of c k.
