(** * Specification of schema defaults, by paths *)
From Coq Require Import List Bool Arith String Sorted.
From Verif Require Import Base Json_Model Json_Spec.
Import ListNotations.
Local Open Scope string_scope.
Local Open Scope list_scope.

(** The value at a path of keys. *)
Fixpoint at_path (j : json) (p : list string) : option json :=
  match p with
  | [] => Some j
  | k :: rest => match entry_of j k with Some v => at_path v rest | None => None end
  end.
Definition object (j : json) : Prop := exists fs, j = JObj fs.

(** The properties below a definition: only for definitions of type "object". *)
Definition sub (def : json) : option json :=
  match entry_of def "type" with
  | Some (JStr s) => if string_dec s "object" then entry_of def "properties" else None
  | _ => None
  end.
(** The definition for a path, starting from the properties of the schema. *)
Fixpoint def_at (ps : json) (p : list string) : option json :=
  match p with
  | [] => None
  | [k] => entry_of ps k
  | k :: rest =>
      match entry_of ps k with
      | Some def => match sub def with Some qs => def_at qs rest | None => None end
      | None => None
      end
  end.
Definition default_at (ps : json) (p : list string) : option json :=
  match def_at ps p with Some def => entry_of def "default" | None => None end.
Definition sub_at (ps : json) (p : list string) : option json :=
  match def_at ps p with Some def => sub def | None => None end.

(** Well-formed properties: an object whose values are objects with a type; the same for the
    properties of definitions of type "object". *)
Inductive good_props : json -> Prop :=
| good_props_obj fs :
    NoDup (map fst fs) ->
    (forall k v, In (k, v) fs -> object v /\ entry_of v "type" <> None) ->
    (forall k v q, In (k, v) fs -> sub v = Some q -> good_props q) ->
    good_props (JObj fs).

(** Fields of objects are in ascending order (the representation of std::map). *)
Inductive canonical : json -> Prop :=
| canonical_null : canonical JNull
| canonical_bool b : canonical (JBool b)
| canonical_num x : canonical (JNum x)
| canonical_str s : canonical (JStr s)
| canonical_arr l : canonical (JArr l)
| canonical_obj fs : StronglySorted before (map fst fs) -> (forall k v, In (k, v) fs -> canonical v) -> canonical (JObj fs).

(** The part of a schema that describes the value at a path. *)
Definition node_at (s : json) (p : list string) : option json :=
  match p with
  | [] => Some s
  | _ => match sub s with Some ps => def_at ps p | None => None end
  end.
(** Schemas whose lists of required keys are lists of strings. *)
Inductive well_required : json -> Prop :=
| well_required_leaf n : sub n = None -> well_required n
| well_required_node n fs :
    sub n = Some (JObj fs) -> NoDup (map fst fs) ->
    (entry_of n "required" = None \/ exists l, entry_of n "required" = Some (JArr (map JStr l))) ->
    (forall k v, In (k, v) fs -> well_required v) -> well_required n.
(** The keys without default. *)
Definition without_default (ps : json) (l : list string) : list string :=
  filter (fun k => match default_at ps [k] with Some _ => false | None => true end) l.
