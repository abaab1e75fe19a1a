(** * Model of the schema defaults (schema_validation.cpp and make_schema.cpp) *)
From Coq Require Import Reals List Bool Arith String.
From Verif Require Import Base Json_Model.
Import ListNotations.
Local Open Scope string_scope.
Local Open Scope list_scope.

(** Nesting depth of a json value; it bounds the depth of the recursions below. *)
Fixpoint depth (j : json) : nat :=
  match j with
  | JArr l => S (fold_right Nat.max O (map depth l))
  | JObj fs => S (fold_right Nat.max O (map (fun kv => depth (snd kv)) fs))
  | _ => 1%nat
  end.

(** Comparison of a json value with the literal "object". *)
Definition is_object_literal (t : json) : bool :=
  match t with JStr s => String.eqb s "object" | _ => false end.
(** type() == json::value_t::object. *)
Definition is_object (j : json) : bool := match j with JObj _ => true | _ => false end.

(** A loop whose body changes [a] and may throw. *)
Fixpoint ofold {A B} (f : A -> B -> outcome A) (l : list B) (a : A) : outcome A :=
  match l with
  | [] => Ok a
  | x :: rest => obind (f a x) (ofold f rest)
  end.

(** apply_defaults_unsafe, src/Auxillary/json_schema/schema_validation.cpp:104-127.  [schema] is
    const, so a missing key "type" violates an assertion.  [fuel] bounds the recursion. *)
Fixpoint apply_defaults_unsafe (fuel : nat) (schema data : json) : outcome json :=
  match fuel with
  | O => UB
  | S f =>
      ofold (fun data kv =>
        let key := fst kv in let value := snd kv in
        if (contains value "default" && negb (contains data key))%bool
        then obind (at_const value "default") (assign data key)
        else obind (at_const value "type") (fun t =>
             if (is_object_literal t && contains value "properties" && contains data key)%bool
             then obind (at_const data key) (fun d =>
                  if is_object d
                  then obind (at_const value "properties") (fun ps =>
                       obind (apply_defaults_unsafe f ps d) (assign data key))
                  else Exc)
             else Ok data))
        (items schema) data
  end.

(** apply_defaults, schema_validation.cpp:129-148. *)
Definition apply_defaults (data schema : json) : outcome json :=
  if (is_object schema && contains schema "type")%bool
  then obind (at_const schema "type") (fun t =>
       if (is_object_literal t && contains schema "properties")%bool
       then obind (at_const schema "properties") (fun ps => apply_defaults_unsafe (depth ps) ps data)
       else Exc)
  else Exc.

(** add_defaults_unsafe, src/Auxillary/json_schema/make_schema.cpp:186-232.  The loop over
    properties.items() changes the definitions in place.  Line 204 creates an exception without
    throwing it, but then make_schema.cpp:206 throws, because a value that is not an object does not contain
    "type". *)
Definition add_default_step (rec : json -> json -> outcome json) (defaults : json) (name : string) (definition : json)
  : outcome json :=
  if negb (contains definition "type") then Exc
  else if contains defaults name
  then obind (at_const defaults name) (fun d =>
       obind (assign definition "default" d) (fun def1 =>
       obind (at_const def1 "type") (fun t =>
       if (is_object_literal t && contains def1 "properties")%bool
       then if is_object d
            then obind (at_const def1 "properties") (fun ps =>
                 obind (rec ps d) (assign def1 "properties"))
            else Exc
       else Ok def1)))
  else Ok definition.
Fixpoint add_defaults_unsafe (fuel : nat) (properties defaults : json) : outcome json :=
  match fuel with
  | O => UB
  | S f =>
      if forallb (fun kv => contains properties (fst kv)) (items defaults)
      then omap (fun vs => with_elems properties vs)
                (omapM (fun kv => add_default_step (add_defaults_unsafe f) defaults (fst kv) (snd kv))
                       (items properties))
      else Exc
  end.
(** add_defaults, make_schema.cpp:234-258. *)
Definition add_defaults (schema defaults : json) : outcome json :=
  if (is_object schema && contains schema "type")%bool
  then obind (at_const schema "type") (fun t =>
       if (is_object_literal t && contains schema "properties" && is_object defaults)%bool
       then obind (at_const schema "properties") (fun ps =>
            obind (add_defaults_unsafe (depth ps) ps defaults) (assign schema "properties"))
       else Exc)
  else Exc.

(** remove_defaults_from_required, make_schema.cpp:260-300.  value(key, {}) throws unless the properties are
    an object; the elements of the list are converted to strings. *)
Definition has_default (properties : json) (req : json) : outcome bool :=
  obind (get_string req) (fun k =>
  match properties with
  | JObj ps => Ok (match field ps k with Some d => contains d "default" | None => false end)
  | _ => Exc
  end).
Fixpoint erase_defaulted (properties : json) (required : list json) : outcome (list json) :=
  match required with
  | [] => Ok []
  | r :: rest =>
      obind (has_default properties r) (fun b =>
      omap (fun l => if b then l else r :: l) (erase_defaulted properties rest))
  end.
Definition new_required (properties required : json) : outcome json :=
  match required with
  | JArr l =>
      match l with
      | JStr _ :: _ => omap JArr (erase_defaulted properties l)
      | [] => Ok required
      | _ => Exc
      end
  | _ => Exc
  end.
Fixpoint remove_defaults_from_required (fuel : nat) (schema : json) : outcome json :=
  match fuel with
  | O => UB
  | S f =>
      if (is_object schema && contains schema "type")%bool
      then obind (at_const schema "type") (fun t =>
           if (is_object_literal t && contains schema "properties")%bool
           then obind (at_const schema "properties") (fun ps =>
                obind (if contains schema "required"
                       then obind (at_const schema "required") (fun r =>
                            obind (new_required ps r) (assign schema "required"))
                       else Ok schema) (fun schema1 =>
                obind (omapM (remove_defaults_from_required f) (elems ps)) (fun vs =>
                assign schema1 "properties" (with_elems ps vs))))
           else Ok schema)
      else Ok schema
  end.
Definition remove_defaults (schema : json) : outcome json := remove_defaults_from_required (depth schema) schema.
