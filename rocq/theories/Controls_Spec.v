(** * Specification of control files *)
From Coq Require Import Reals List Arith String.
From Verif Require Import Base Json_Model Interp_Model Interp_Spec Controls_Model.
Import ListNotations.
Local Open Scope string_scope.
Local Open Scope list_scope.

(** The document that lists values over a coordinate ("time" or "x"). *)
Definition row_entry (name : string) (tr : R * list R) : json :=
  JObj (set_field [("values", JArr (map JNum (snd tr)))] name (JNum (fst tr))).
Definition document (name x : string) (rows : list (R * list R)) : json :=
  JObj [("data", JArr (map (row_entry name) rows)); ("id", JStr x)].

(** The rows of a component in a vector of controls. *)
Definition component_rows (v : ivec) (start count : nat) : list (R * list R) :=
  map (fun i => (nth i (ipoints v) 0%R, map (fun k => entry (ivalues v) (iinner v) i (start + k)) (seq 0 count)))
      (seq 0 (List.length (ipoints v))).

(** [w] is [v] except for the columns [start .. start+count-1], which are given by [f]. *)
Definition columns_set (v : ivec) (start count : nat) (f : nat -> nat -> R) (w : ivec) : Prop :=
  ipoints w = ipoints v /\ iinner w = iinner v /\ List.length (ivalues w) = List.length (ivalues v) /\
  forall i m, (i < List.length (ipoints v))%nat -> (m < iinner v)%nat ->
    (forall k, m = (start + k)%nat -> (k < count)%nat -> entry (ivalues w) (iinner w) i m = f i k) /\
    ((m < start \/ start + count <= m)%nat -> entry (ivalues w) (iinner w) i m = entry (ivalues v) (iinner v) i m).

(** Documents of controls and boundary values with [n] values per time point: an object with an
    id and a list.  Nothing is asked of list entries that are not objects, and keys may be
    missing. *)
Definition number (j : json) : Prop := exists x, j = JNum x.
Definition numbers (n : nat) (j : json) : Prop := exists l, j = JArr (map JNum l) /\ List.length l = n.
Definition entry_ok (n : nat) (e : json) : Prop :=
  forall fs, e = JObj fs -> (forall v, In ("time", v) fs -> number v) /\ (forall v, In ("values", v) fs -> numbers n v).
Definition control_ok (n : nat) (j : json) : Prop :=
  exists fs, j = JObj fs /\ field fs "id" <> None /\ field fs "data" <> None /\
    (forall v, In ("id", v) fs -> exists x, v = JStr x) /\
    (forall v, In ("data", v) fs -> exists es, v = JArr es /\ forall e, In e es -> entry_ok n e).

(** The components of a class and type, the classes of components, the columns of a component. *)
Definition matches (class type : string) (c : control_component) : bool := (String.eqb (cc_class c) class && String.eqb (cc_type c) type)%bool.
Definition two_classes (comps : list control_component) : Prop := forall c, In c comps -> In (cc_class c) ["nodes"; "connections"].
Definition column_of (c : control_component) (m : nat) : Prop := (cc_start c <= m < cc_start c + cc_count c)%nat.
