(** * Specification of data files and of the construction of components *)
From Coq Require Import Reals List Arith String Ascii Sorted.
From Verif Require Import Base Json_Model Json_Spec Defaults_Spec Controls_Spec States_Spec Factory_Model.
From Verif Require Units_Model Units_Spec.
Import ListNotations.
Local Open Scope string_scope.
Local Open Scope list_scope.

(** The keys of objects are in ascending order (the representation of std::map), everywhere. *)
Inductive proper : json -> Prop :=
| proper_null : proper JNull
| proper_bool b : proper (JBool b)
| proper_num x : proper (JNum x)
| proper_str s : proper (JStr s)
| proper_arr l : (forall e, In e l -> proper e) -> proper (JArr l)
| proper_obj fs : StronglySorted before (map fst fs) -> (forall k v, In (k, v) fs -> proper v) -> proper (JObj fs).

(** ** What a topology entry of a type must have *)
Inductive value_kind := Text | Number | Length.
Definition names : list (string * value_kind) := [("id", Text)].
Definition ends : list (string * value_kind) := [("from", Text); ("to", Text)].
Definition admittance : list (string * value_kind) := [("B", Number); ("G", Number)].
Definition stochastic : list (string * value_kind) :=
  [("stability_parameter", Number); ("cut_off_factor", Number); ("sigma_P", Number); ("theta_P", Number);
   ("sigma_Q", Number); ("theta_Q", Number); ("number_of_stochastic_steps", Number)].
Definition pipe_data : list (string * value_kind) :=
  [("length", Length); ("diameter", Length); ("roughness", Length); ("desired_delta_x", Number);
   ("balancelaw", Text); ("scheme", Text)].
Definition node_fields : list (string * list (string * value_kind)) :=
  [("Source", names); ("Sink", names); ("ConstraintSink", names); ("Innode", names); ("Pressureboundarynode", names);
   ("Vphinode", names ++ admittance); ("PQnode", names ++ admittance); ("PVnode", names ++ admittance);
   ("ExternalPowerplant", names ++ admittance); ("StochasticPQnode", names ++ admittance ++ stochastic)].
Definition edge_fields : list (string * list (string * value_kind)) :=
  [("Pipe", names ++ ends ++ pipe_data); ("Shortpipe", names ++ ends); ("Compressorstation", names ++ ends);
   ("Controlvalve", names ++ ends); ("Transmissionline", names ++ ends ++ admittance);
   ("Gaspowerconnection", names ++ ends ++ [("gas2power_q_coeff", Number); ("power2gas_q_coeff", Number)])].
Fixpoint look_up {A} (l : list (string * A)) (k : string) : option A :=
  match l with
  | [] => None
  | (a, x) :: rest => if string_dec a k then Some x else look_up rest k
  end.
Definition table (class : string) : list (string * list (string * value_kind)) :=
  if string_dec class "nodes" then node_fields else if string_dec class "connections" then edge_fields else [].
Definition fields_of (class type : string) : option (list (string * value_kind)) := look_up (table class) type.

(** Unit strings that the schema accepts: a prefix and a unit, perhaps after a numeral and a blank
    (the numeral may lack digits, see C43). *)
Definition unit_text (u : list ascii) : Prop :=
  exists p pf name c, In (p, pf) Units_Model.si_prefixes /\ In (name, c) Units_Model.length_units /\
    (u = Units_Model.chars p ++ Units_Model.chars name \/
     exists n, Units_Spec.numeral_ok n /\ u = Units_Spec.text n ++ " "%char :: Units_Model.chars p ++ Units_Model.chars name).
Definition good_value (g : value_kind) (v : json) : Prop :=
  match g with
  | Text => exists s, v = JStr s
  | Number => exists x, v = JNum x
  | Length => exists u x, v = Units_Spec.measurement u x /\ unit_text (Units_Model.chars u)
  end.

(** The same where parts of a length may come from a default [x]. *)
Definition length_with (x : option json) (v : json) : Prop :=
  exists vs, v = JObj vs /\
    (forall k, field vs k <> None -> k = "unit" \/ k = "value") /\
    (forall u, field vs "unit" = Some u -> exists s, u = JStr s /\ unit_text (Units_Model.chars s)) /\
    (forall y, field vs "value" = Some y -> exists r, y = JNum r) /\
    (forall k, k = "unit" \/ k = "value" -> field vs k = None -> exists x', x = Some x' /\ entry_of x' k <> None).
Definition good_with (g : value_kind) (x : option json) (v : json) : Prop :=
  match g with Length => length_with x v | _ => good_value g v end.
(** An entry of the topology file, with defaults [d] of its type. *)
Definition described (fields : list (string * value_kind)) (d : json) (e : json) : Prop :=
  exists fs, e = JObj fs /\
    forall k g, In (k, g) fields ->
      match field fs k with
      | Some v => good_with g (entry_of d k) v
      | None => entry_of d k <> None
      end.
(** Nothing is missing. *)
Definition complete (fields : list (string * value_kind)) (e : json) : Prop :=
  exists fs, e = JObj fs /\ forall k g, In (k, g) fields -> exists v, field fs k = Some v /\ good_value g v.

(** ** Boundary, control and initial values *)
Definition seeded (j : json) : Prop :=
  forall fs v, j = JObj fs -> field fs "seed" = Some v -> exists l, v = JArr (map JNum l).
Definition boundary_table : list (string * (json -> Prop)) :=
  [("Source", control_ok 1); ("Sink", control_ok 1); ("ConstraintSink", control_ok 1); ("Pressureboundarynode", control_ok 1);
   ("Vphinode", control_ok 2); ("PQnode", control_ok 2); ("PVnode", control_ok 2); ("ExternalPowerplant", control_ok 2);
   ("StochasticPQnode", fun j => control_ok 2 j /\ seeded j)].
Definition control_table : list (string * (json -> Prop)) :=
  [("Compressorstation", control_ok 1); ("Controlvalve", control_ok 1)].
Definition initial_nodes : list (string * (json -> Prop)) :=
  map (fun t => (t, initial_ok (Some 1%nat) 2 [0%R])) ["Vphinode"; "PQnode"; "PVnode"; "ExternalPowerplant"; "StochasticPQnode"].
Definition initial_edges : list (string * (json -> Prop)) :=
  [("Pipe", initial_ok None 2 [0%R]); ("Gaspowerconnection", initial_ok (Some 1%nat) 2 [0%R])]
  ++ map (fun t => (t, initial_ok (Some 2%nat) 2 [0%R; 1%R])) ["Shortpipe"; "Compressorstation"; "Controlvalve"].

(** What a file wants of the entries of a type; [None] for types that do not belong in it.  [d] are
    the defaults of all types. *)
Definition defaults_of (d : json) (type : string) : json := match entry_of d type with Some x => x | None => JObj [] end.
Definition wants (d : json) (kind : file_kind) (class type : string) : option (json -> Prop) :=
  match kind with
  | Topology_file => option_map (fun fs => described fs (defaults_of d type)) (fields_of class type)
  | Boundary_file => if string_dec class "nodes" then look_up boundary_table type else None
  | Control_file => if string_dec class "connections" then look_up control_table type else None
  | Initial_file => if string_dec class "nodes" then look_up initial_nodes type else look_up initial_edges type
  end.
Definition conforms (d : json) (kind : file_kind) (j : json) : Prop :=
  forall class, class = "nodes" \/ class = "connections" ->
    exists ts, entry_of j class = Some (JObj ts) /\
      forall type w, field ts type = Some w ->
        exists P l, wants d kind class type = Some P /\ w = JArr l /\ forall e, In e l -> P e.

(** ** Construction *)

(** All defaults of a type are complete values of the right kind. *)
Definition complete_defaults (fields : list (string * value_kind)) (d : json) : Prop :=
  forall k g x, In (k, g) fields -> entry_of d k = Some x -> good_value g x.
(** Boundary values, for the types that have them. *)
Definition with_boundary (class type : string) (e : json) : Prop :=
  forall P, wants (JObj []) Boundary_file class type = Some P -> exists b, entry_of e "boundary_values" = Some b /\ P b.
(** [e'] is [e] with missing values taken from the defaults [d]. *)
Definition completed (d e e' : json) : Prop :=
  forall k, match entry_of e k with
            | None => entry_of e' k = entry_of d k
            | Some v => exists v', entry_of e' k = Some v' /\
                match v, entry_of d k with
                | JObj _, Some (JObj _ as x) =>
                    object v' /\ forall i, entry_of v' i = match entry_of v i with Some y => Some y | None => entry_of x i end
                | _, _ => v' = v
                end
            end.

(** ** Building a class of the net *)

(** The entries [ts] of a class (lists of objects by type) and the components [r] made of them, each
    with its type: types in ascending order, within a type the order of the file. *)
Definition entries (ts : list (string * json)) (type : string) : list json :=
  match field ts type with Some (JArr l) => l | _ => [] end.
Definition lists_of_objects (ts : list (string * json)) : Prop :=
  forall type w, field ts type = Some w -> exists l, w = JArr l /\ forall e, In e l -> object e.
Definition of_this_type (r : list (string * json)) (type : string) : list json :=
  map snd (filter (fun te => if string_dec (fst te) type then true else false) r).
Definition built (d : json) (class : string) (ts : list (string * json)) (r : list (string * json)) : Prop :=
  StronglySorted (fun a b => a = b \/ before a b) (map fst r) /\
  (forall type, Forall2 (completed (defaults_of d type)) (entries ts type) (of_this_type r type)) /\
  (forall type e, In (type, e) r -> (exists fields, fields_of class type = Some fields /\ complete fields e) /\ with_boundary class type e).

(** ** Defaults *)

(** Defaults from which the schemas can be generated: every type has an object of defaults for its
    fields; the default of a length is an object with no other keys than those of a length. *)
Definition usable (fields : list (string * value_kind)) (d : json) : Prop :=
  object d /\ forall k x, entry_of d k = Some x -> exists g, In (k, g) fields /\
    (g = Length -> object x /\ forall i, entry_of x i <> None -> i = "unit" \/ i = "value").
Definition usable_defaults (d : json) : Prop :=
  object d /\ forall class type fields, fields_of class type = Some fields -> usable fields (defaults_of d type).
(** The defaults in problem_data.json. *)
Definition the_defaults (problem_data : option json) : json :=
  match problem_data with
  | Some j =>
      match entry_of j "problem_data" with
      | Some p => match entry_of p "defaults" with Some d => d | None => JObj [] end
      | None => JObj []
      end
  | None => JObj []
  end.

(** ** problem_data.json *)

(** An object with the keys [required], whose entries under the keys of [kinds] satisfy the
    predicates. *)
Definition object_with (required : list string) (kinds : list (string * (json -> Prop))) (j : json) : Prop :=
  exists fs, j = JObj fs /\ (forall k, In k required -> field fs k <> None) /\
    forall k P v, look_up kinds k = Some P -> field fs k = Some v -> P v.
Definition text (j : json) : Prop := exists s, j = JStr s.
Definition number (j : json) : Prop := exists x, j = JNum x.
Definition boolean (j : json) : Prop := exists b, j = JBool b.
Definition natural (j : json) : Prop := exists n, j = JNum (INR n).
Definition object_of_objects (j : json) : Prop := exists fs, j = JObj fs /\ forall k v, field fs k = Some v -> object v.
(** What the schema for problem_data.json asks for. *)
Definition problem_data_ok : json -> Prop :=
  object_with ["simulation_settings"; "initial_values"; "problem_data"]
    [("simulation_settings",
      object_with ["use_simplified_newton"; "maximal_number_of_newton_iterations"; "tolerance"; "retries"; "start_time"; "end_time"; "desired_delta_t"]
        [("use_simplified_newton", boolean); ("maximal_number_of_newton_iterations", natural); ("tolerance", number);
         ("retries", natural); ("start_time", number); ("end_time", number); ("desired_delta_t", number)]);
     ("initial_values", object_with ["subproblems"] [("subproblems",
        object_with ["Network_problem"] [("Network_problem", object_with ["initial_json"] [("initial_json", text)])])]);
     ("problem_data", object_with ["subproblems"] [("subproblems",
        object_with ["Network_problem"] [("Network_problem",
          object_with ["defaults"; "topology_json"; "boundary_json"; "control_json"]
            [("defaults", object_of_objects); ("topology_json", text); ("boundary_json", text); ("control", text)])])])].

(** The entry [key] of [p], read from a file if it is a file name; relative names are relative to
    the entry "GRAZER_file_directory". *)
Definition content (read : string -> outcome json) (p : json) (key : string) (j : json) : Prop :=
  match entry_of p key with
  | Some (JObj fs) => j = JObj fs
  | Some (JStr (String "/" path)) => read (String "/" path) = Ok j
  | Some (JStr path) => exists directory, entry_of p "GRAZER_file_directory" = Some (JStr directory) /\ read (directory ++ "/" ++ path)%string = Ok j
  | _ => False
  end.
