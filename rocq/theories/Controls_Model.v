(** * Model of reading and writing controls: SimpleControlcomponent.cpp, construct_from_json and
    the schema of boundary and control values *)
From Coq Require Import Reals List Bool Arith String.
From Verif Require Import Base Interp_Model Json_Model Defaults_Model.
From Verif Require Units_Model.
Import ListNotations.
Local Open Scope string_scope.
Local Open Scope list_scope.

(** ** The validator

    The library nlohmann::json_schema is not part of /repo.  The keywords that occur in the schemas
    of the code are modelled: type, required, properties, items, minItems, maxItems, minimum,
    maximum, contains, allOf, additionalProperties (only the value false occurs), patternProperties
    (only with the pattern "^.*$", which admits every name), oneOf, pattern (only the patterns for
    units, see Units_Model.v); "format" is not checked.  Numbers of type "integer" are those with an
    integral value.  [fuel] bounds the depth of the schema. *)
Definition has_type (t : string) (j : json) : bool :=
  match j with
  | JNull => String.eqb t "null"
  | JBool _ => String.eqb t "boolean"
  | JNum x => (String.eqb t "number" || (String.eqb t "integer" && Reqb x (IZR (Int_part x))))%bool
  | JStr _ => String.eqb t "string"
  | JArr _ => String.eqb t "array"
  | JObj _ => String.eqb t "object"
  end.
Definition keyword (schema : json) (k : string) : option json :=
  match schema with JObj fs => field fs k | _ => None end.
Definition pattern_matches (p s : string) : bool :=
  match find (fun m => String.eqb p (Units_Model.pattern1_text m)) Units_Model.measures with
  | Some m => Units_Model.search (Units_Model.pattern1 m) (Units_Model.chars s)
  | None =>
      match find (fun m => String.eqb p (Units_Model.pattern2_text m)) Units_Model.measures with
      | Some m => Units_Model.search (Units_Model.pattern2 m) (Units_Model.chars s)
      | None => true
      end
  end.
Fixpoint valid (fuel : nat) (schema data : json) : bool :=
  match fuel with
  | O => false
  | S f =>
      (match keyword schema "type" with Some (JStr t) => has_type t data | _ => true end
       && match keyword schema "required", data with
          | Some (JArr ks), JObj _ => forallb (fun k => match k with JStr s => contains data s | _ => true end) ks
          | _, _ => true
          end
       && match keyword schema "properties", data with
          | Some (JObj ps), JObj fs =>
              forallb (fun kd => match field ps (fst kd) with Some s => valid f s (snd kd) | None => true end) fs
          | _, _ => true
          end
       && match keyword schema "items", data with
          | Some s, JArr l => forallb (valid f s) l
          | _, _ => true
          end
       && match keyword schema "minItems", data with
          | Some (JNum n), JArr l => Rleb n (INR (List.length l))
          | _, _ => true
          end
       && match keyword schema "maxItems", data with
          | Some (JNum n), JArr l => Rleb (INR (List.length l)) n
          | _, _ => true
          end
       && match keyword schema "minimum", data with Some (JNum n), JNum x => Rleb n x | _, _ => true end
       && match keyword schema "maximum", data with Some (JNum n), JNum x => Rleb x n | _, _ => true end
       && match keyword schema "contains", data with
          | Some s, JArr l => existsb (valid f s) l
          | _, _ => true
          end
       && match keyword schema "allOf" with
          | Some (JArr ss) => forallb (fun s => valid f s data) ss
          | _ => true
          end
       && match keyword schema "additionalProperties", data with
          | Some (JBool false), JObj fs =>
              forallb (fun kd => match keyword schema "properties" with Some ps => contains ps (fst kd) | None => false end) fs
          | _, _ => true
          end
       && match keyword schema "patternProperties", data with
          | Some (JObj [(_, s)]), JObj fs => forallb (fun kd => valid f s (snd kd)) fs
          | _, _ => true
          end
       && match keyword schema "oneOf" with
          | Some (JArr ss) => Nat.eqb (List.length (filter (fun s => valid f s data) ss)) 1
          | _ => true
          end
       && match keyword schema "pattern", data with
          | Some (JStr p), JStr s => pattern_matches p s
          | _, _ => true
          end)%bool
  end.
(** Aux::schema::validate_json(data, schema), src/Auxillary/json_schema/schema_validation.cpp:57-102:
    throws if the data is not valid. *)
Definition validate_json (data schema : json) : outcome unit :=
  if valid (depth schema) schema data then Ok tt else Exc.

(** make_boundary_schema, src/Auxillary/json_schema/make_schema.cpp:152-171, with
    type::number() (line 46) and make_list_schema_of (lines 71-88) written out.  The entries of
    the list have no type and no required keys. *)
Definition type_number : json := JObj [("type", JStr "number")].
Definition boundary_element (num_values : nat) : json :=
  JObj [("properties", JObj
    [("time", type_number);
     ("values", JObj [("items", type_number); ("maxItems", JNum (INR num_values)); ("minItems", JNum (INR num_values));
                      ("type", JStr "array")])])].
Definition make_boundary_schema (num_values : nat) : json :=
  JObj [("properties", JObj [("data", JObj [("items", boundary_element num_values); ("type", JStr "array")]);
                             ("id", JObj [("type", JStr "string")])]);
        ("required", JArr [JStr "id"; JStr "data"]);
        ("type", JStr "object")].

(** ** InterpolatingVector::construct_from_json *)

(** front(): the first element; an empty array or object has none (undefined behaviour), null
    throws, other values are their own first element. *)
Definition front (j : json) : outcome json :=
  match j with
  | JArr [] => UB
  | JArr (x :: _) => Ok x
  | JObj [] => UB
  | JObj ((_, x) :: _) => Ok x
  | JNull => Exc
  | _ => Ok j
  end.
(** size(). *)
Definition size (j : json) : nat :=
  match j with JNull => 0 | JArr l => List.length l | JObj fs => List.length fs | _ => 1 end.
(** Conversion to double. *)
Definition get_double (j : json) : outcome R := match j with JNum x => Ok x | _ => Exc end.
(** operator[](i) const on the data; out of range is undefined behaviour. *)
Definition at_index (j : json) (i : nat) : outcome json :=
  match j with JArr l => get l i | _ => Exc end.
(** The numbers of one entry, InterpolatingVector.cpp:465-470. *)
Definition row_of (entry : json) : outcome (list R) :=
  obind (at_const entry "values") (fun vs =>
  omapM (fun i => obind (at_index vs i) get_double) (seq 0 (size vs))).
(** The loop of InterpolatingVector.cpp:464-472. *)
Fixpoint fill_rows (data : json) (todo : list nat) (v : ivec) : outcome ivec :=
  match todo with
  | [] => Ok v
  | i :: rest =>
      obind (at_index data i) (fun entry =>
      obind (row_of entry) (fun row =>
      obind (set_row v i row) (fill_rows data rest)))
  end.
(** construct_from_json, src/Auxillary/InterpolatingVector/InterpolatingVector.cpp:443-474.
    [uninit] are the values of the uninitialised memory of the new vector. *)
Definition construct_from_json (uninit : nat -> R) (j schema : json) : outcome ivec :=
  obind (validate_json j schema) (fun _ =>
  obind (at_const j "data") (fun data =>
  obind (front data) (fun first =>
  let name := if contains first "x" then "x" else "time" in
  obind (omapM (fun ie => obind (at_const (snd ie) name) get_double) (items data)) (fun points =>
  obind (at_const first "values") (fun first_values =>
  let inner_length := size first_values in
  obind (ctor_from_vector points inner_length (map uninit (seq 0 (inner_length * List.length points)))) (fun v =>
  fill_rows data (seq 0 (List.length points)) v)))))).

(** ** SimpleControlcomponent.cpp *)

(** A component with controls: componentclass(), componenttype(), id(), get_control_startindex()
    and the number of controls per time point. *)
Record control_component := mkControl {
  cc_class : string; cc_type : string; cc_id : string; cc_start : nat; cc_count : nat }.

(** mut_timestep(i).segment(start, len) = row, see InterpolatingVector.cpp:302-315.  A segment
    outside the row and a row of another length violate Eigen preconditions. *)
Definition set_segment (v : ivec) (i start len : nat) (row : list R) : outcome ivec :=
  let start_index := (iinner v * i)%nat in
  let after_index := (start_index + iinner v)%nat in
  if (List.length (ivalues v) <? after_index)%nat then Exc
  else if negb ((start + len <=? iinner v)%nat && (List.length row =? len)%nat)%bool then UB
  else Ok (mk_ivec (ipoints v) (iinner v)
            (firstn (start_index + start) (ivalues v) ++ row ++ skipn (start_index + start + len) (ivalues v))).
(** set_simple_control_values, src/Model/Networkproblem/Componentclasses/SimpleControlcomponent.cpp:21-43;
    the loop is over the time points of the vector that is filled. *)
Fixpoint set_loop (start : nat) (initialvalues : ivec) (timepoints : list R) (index : nat) (v : ivec) : outcome ivec :=
  match timepoints with
  | [] => Ok v
  | t :: rest =>
      obind (interp_at initialvalues t) (fun row =>
      obind (set_segment v index start (iinner initialvalues) row) (fun v' =>
      set_loop start initialvalues rest (S index) v'))
  end.
Definition set_simple_control_values (uninit : nat -> R) (start : nat) (v : ivec) (initial_json initial_schema : json) : outcome ivec :=
  obind (construct_from_json uninit initial_json initial_schema) (fun initialvalues =>
  set_loop start initialvalues (ipoints v) 0 v).
(** set_initial_controls, set_lower_bounds and set_upper_bounds of Compressorstation.cpp:99-118 and
    Controlvalve.cpp:94-113; both have get_control_schema() = make_boundary_schema(1) and one
    control.  Here for components with any number of controls. *)
Definition component_controls (uninit : nat -> R) (c : control_component) (v : ivec) (j : json) : outcome ivec :=
  set_simple_control_values uninit (cc_start c) v j (make_boundary_schema (cc_count c)).

(** SimpleControlcomponent::save_controls_to_json, SimpleControlcomponent.cpp:54-87: one entry of the data. *)
Definition saved_step (c : control_component) (controls : ivec) (index : nat) : outcome json :=
  obind (get (ipoints controls) index) (fun time =>
  obind (vector_at_index controls index) (fun row =>
  omap (fun values => JObj [("time", JNum time); ("values", JArr (map JNum values))])
       (omapM (fun value_index => get row (cc_start c + value_index)) (seq 0 (cc_count c))))).
Definition push_back (j x : json) : outcome json :=
  match j with JArr l => Ok (JArr (l ++ [x])) | JNull => Ok (JArr [x]) | _ => Exc end.
Definition save_component (c : control_component) (controls : ivec) (j : json) : outcome json :=
  obind (if contains j (cc_class c) then Ok j else assign j (cc_class c) (JObj [])) (fun j1 =>
  obind (at_const j1 (cc_class c)) (fun sub =>
  obind (if contains sub (cc_type c) then Ok sub else assign sub (cc_type c) (JArr [])) (fun sub1 =>
  obind (omapM (saved_step c controls) (seq 0 (List.length (ipoints controls)))) (fun data =>
  obind (at_const sub1 (cc_type c)) (fun list =>
  obind (push_back list (JObj [("data", JArr data); ("id", JStr (cc_id c))])) (fun list1 =>
  obind (assign sub1 (cc_type c) list1) (assign j1 (cc_class c)))))))).

(** ** Networkproblem.cpp *)

(** save_controls_to_json, lines 569-575. *)
Definition save_controls_to_json (components : list control_component) (controls : ivec) (j : json) : outcome json :=
  ofold (fun j c => save_component c controls j) components j.
(** set_initial_controls, set_lower_bounds and set_upper_bounds, lines 306-380.  The calls are
    those of [distribute] in Json_Model.v. *)
Definition set_initial_controls (uninit : nat -> R) (components : list control_component) (v : ivec) (j : json) : outcome ivec :=
  obind (distribute (map cc_id components) j) (fun calls =>
  ofold (fun v call => obind (get components (fst call)) (fun c => component_controls uninit c v (snd call))) calls v).
(** set_control_indices, lines 382-390, with SimpleControlcomponent.cpp:45-52: each component
    takes the next indices. *)
Fixpoint set_control_indices (next_free_index : nat) (components : list control_component)
  : list control_component * nat :=
  match components with
  | [] => ([], next_free_index)
  | c :: rest =>
      let r := set_control_indices (next_free_index + cc_count c) rest in
      (mkControl (cc_class c) (cc_type c) (cc_id c) next_free_index (cc_count c) :: fst r, snd r)
  end.
