(** * Model of the component factories, of schema generation and of the construction of a net from
    json files

    Titles, descriptions and the key "$schema" of schemas are left out: the validator does not
    look at them. *)
From Coq Require Import Reals List Bool Arith String.
From Verif Require Import Base Interp_Model Json_Model Defaults_Model Controls_Model States_Model.
From Verif Require Units_Model.
Import ListNotations.
Local Open Scope string_scope.
Local Open Scope list_scope.

(** ** Building schemas: src/Auxillary/json_schema/make_schema.cpp *)

(** type::string(), type::boolean(), make_schema.cpp:54 and 62. *)
Definition type_string : json := JObj [("type", JStr "string")].
Definition type_boolean : json := JObj [("type", JStr "boolean")].
(** make_list_schema_of(element_schema), make_schema.cpp:71-88. *)
Definition make_list_schema_of (element : json) : json := JObj [("items", element); ("type", JStr "array")].
(** schema["properties"][name] = definition, add_property, make_schema.cpp:180-184. *)
Definition add_property (schema : json) (name : string) (definition : json) : outcome json :=
  obind (at_mut schema "properties") (fun sp =>
  obind (assign (snd sp) name definition) (assign (fst sp) "properties")).
(** add_required, make_schema.cpp:173-178. *)
Definition add_required (schema : json) (name : string) (definition : json) : outcome json :=
  obind (at_mut schema "required") (fun sr =>
  obind (push_back (snd sr) (JStr name)) (fun r =>
  obind (assign (fst sr) "required" r) (fun schema1 => add_property schema1 name definition))).
Definition add_all_required (schema : json) (definitions : list (string * json)) : outcome json :=
  ofold (fun s nd => add_required s (fst nd) (snd nd)) definitions schema.

(** Measure::get_schema, src/Auxillary/unit_conversion/unit_conversion.cpp:152-171. *)
Definition measure_schema (m : Units_Model.conversion_map) : json :=
  JObj [("additionalProperties", JBool false);
        ("properties", JObj
          [("unit", JObj [("oneOf", JArr [JObj [("pattern", JStr (Units_Model.pattern1_text m))];
                                          JObj [("pattern", JStr (Units_Model.pattern2_text m))]]);
                          ("type", JStr "string")]);
           ("value", type_number)]);
        ("required", JArr [JStr "value"; JStr "unit"]);
        ("type", JStr "object")].

(** ** The schemas of the components *)

(** Idobject::get_schema, src/Model/Network/Idobject.cpp:23-28; nodes (Node.hpp) use it as it is. *)
Definition idobject_schema : outcome json := add_required (JObj [("type", JStr "object")]) "id" type_string.
(** Edge::get_schema, src/Model/Network/Edge.cpp:26-35. *)
Definition edge_schema : outcome json :=
  obind idobject_schema (fun s => add_all_required s [("from", type_string); ("to", type_string)]).
(** Powernode::get_schema, src/Model/Networkproblem/Power/Powernode.cpp:37-43. *)
Definition powernode_schema : outcome json :=
  obind idobject_schema (fun s => add_all_required s [("B", type_number); ("G", type_number)]).
(** StochasticPQnode::get_schema, Power/StochasticPQnode.cpp:28-42. *)
Definition stochastic_schema : outcome json :=
  obind powernode_schema (fun s => add_all_required s
    [("stability_parameter", type_number); ("cut_off_factor", type_number); ("sigma_P", type_number);
     ("theta_P", type_number); ("sigma_Q", type_number); ("theta_Q", type_number);
     ("number_of_stochastic_steps", type_number)]).
(** Transmissionline::get_schema, Power/Transmissionline.cpp:26-32. *)
Definition transmissionline_schema : outcome json :=
  obind edge_schema (fun s => add_all_required s [("B", type_number); ("G", type_number)]).
(** Pipe::get_schema, Gas/Pipe.cpp:49-63. *)
Definition pipe_schema : outcome json :=
  obind edge_schema (fun s => add_all_required s
    [("length", measure_schema Units_Model.length_units); ("diameter", measure_schema Units_Model.length_units);
     ("roughness", measure_schema Units_Model.length_units); ("desired_delta_x", type_number);
     ("balancelaw", type_string); ("scheme", type_string)]).
(** Gaspowerconnection::get_schema, Gaspowerconnection/Gaspowerconnection.cpp:34-43. *)
Definition gaspower_schema : outcome json :=
  obind edge_schema (fun s => add_all_required s [("gas2power_q_coeff", type_number); ("power2gas_q_coeff", type_number)]).
(** StochasticPQnode::get_boundary_schema, Power/StochasticPQnode.cpp:44-50. *)
Definition stochastic_boundary_schema : outcome json :=
  add_property (make_boundary_schema 2) "seed" (make_list_schema_of type_number).

(** A component type: its name (get_type()), get_schema(), and get_boundary_schema(),
    get_control_schema(), get_initial_schema() if it has boundary values, controls, states. *)
Record component_type := mkType {
  ct_name : string;
  ct_schema : outcome json;
  ct_boundary : option (outcome json);
  ct_control : option (outcome json);
  ct_initial : option (outcome json) }.
Definition flow_boundary : option (outcome json) := Some (Ok (make_boundary_schema 1)).
Definition power_boundary : option (outcome json) := Some (Ok (make_boundary_schema 2)).
Definition power_initial : option (outcome json) := Some (make_initial_schema (Some 1%nat) 2 [0%R]).
Definition short_initial : option (outcome json) := Some (make_initial_schema (Some 2%nat) 2 [0%R; 1%R]).
(** The maps of the Full_factory in the order of std::map: Gas_factory.cpp:31-49,
    Power_factory.cpp:28-42, Full_factory.cpp:37-47 (src/Model/Componentfactory); base classes and
    schemas in the headers of the components and in Flowboundarynode.cpp:43-45,
    Pressureboundarynode.cpp:29-31, Compressorstation.cpp:39-41, Controlvalve.cpp:29-31,
    Shortcomponent.cpp:26-33, Pipe.cpp:65-71, Gaspowerconnection.cpp:45-52, Powernode.cpp:45-55. *)
Definition node_types : list component_type :=
  [mkType "ConstraintSink" idobject_schema flow_boundary None None;
   mkType "ExternalPowerplant" powernode_schema power_boundary None power_initial;
   mkType "Innode" idobject_schema None None None;
   mkType "PQnode" powernode_schema power_boundary None power_initial;
   mkType "PVnode" powernode_schema power_boundary None power_initial;
   mkType "Pressureboundarynode" idobject_schema flow_boundary None None;
   mkType "Sink" idobject_schema flow_boundary None None;
   mkType "Source" idobject_schema flow_boundary None None;
   mkType "StochasticPQnode" stochastic_schema (Some stochastic_boundary_schema) None power_initial;
   mkType "Vphinode" powernode_schema power_boundary None power_initial].
Definition edge_types : list component_type :=
  [mkType "Compressorstation" edge_schema None (Some (Ok (make_boundary_schema 1))) short_initial;
   mkType "Controlvalve" edge_schema None (Some (Ok (make_boundary_schema 1))) short_initial;
   mkType "Gaspowerconnection" gaspower_schema None None (Some (make_initial_schema (Some 1%nat) 2 [0%R]));
   mkType "Pipe" pipe_schema None None (Some (make_initial_schema None 2 [0%R]));
   mkType "Shortpipe" edge_schema None None short_initial;
   mkType "Transmissionline" transmissionline_schema None None None].

(** ** src/Model/Componentfactory/include/Componentfactory.hpp and Componentfactory.cpp *)

(** value(key, default): type_error unless the value is an object. *)
Definition value_or (j : json) (key : string) (default : json) : outcome json :=
  match j with JObj fs => Ok (match field fs key with Some v => v | None => default end) | _ => Exc end.
(** The constructor of NodeType and EdgeType, Componentfactory.hpp:237-238 and 340-341. *)
Definition type_defaults (t : component_type) (all_defaults : json) : outcome json :=
  value_or all_defaults (ct_name t) (JObj []).
(** add_defaults followed by remove_defaults_from_required, Componentfactory.hpp:70-74. *)
Definition with_defaults (schema defaults : json) (allow_required_defaults : bool) : outcome json :=
  obind (add_defaults schema defaults) (fun s => if allow_required_defaults then Ok s else remove_defaults s).
(** get_component_boundary_schema, get_component_control_schema, get_component_initial_schema,
    Componentfactory.hpp:61-110; [key] is "boundary_values", "control_values", "initial_values". *)
Definition external_schema (base : outcome json) (key : string) (defaults : json) (allow_required_defaults : bool) : outcome json :=
  obind base (fun schema =>
  obind (value_or defaults key (JObj [])) (fun d => with_defaults schema d allow_required_defaults)).
(** get_boundary_schema, get_control_schema and get_initial_schema of NodeType and EdgeType,
    Componentfactory.hpp:269-299 and 373-403. *)
Definition optional_schema (base : option (outcome json)) (key : string) (defaults : json) (allow_required_defaults : bool)
  : outcome (option json) :=
  match base with
  | None => Ok None
  | Some b => omap Some (external_schema b key defaults allow_required_defaults)
  end.
(** get_schema of NodeType and EdgeType, Componentfactory.hpp:245-268 and 348-371. *)
Definition get_schema (t : component_type) (defaults : json) (allow_required_defaults include_external : bool) : outcome json :=
  obind (ct_schema t) (fun schema =>
  obind (match include_external, ct_boundary t with
         | true, Some b =>
             obind (external_schema b "boundary_values" defaults allow_required_defaults) (fun boundary =>
             add_required schema "boundary_values" boundary)
         | _, _ => Ok schema
         end) (fun schema1 =>
  with_defaults schema1 defaults allow_required_defaults)).
(** make_instance, Componentfactory.hpp:301-311 and 405-415: the completed topology entry that is handed to the
    constructor of the component. *)
Definition make_instance (t : component_type) (defaults topology : json) : outcome json :=
  obind (get_schema t defaults true true) (fun schema =>
  obind (apply_defaults topology schema) (fun topology1 =>
  obind (validate_json topology1 schema) (fun _ => Ok topology1))).

(** Which kinds of data file a schema describes. *)
Inductive file_kind := Initial_file | Control_file | Boundary_file | Topology_file.
Definition component_schema (kind : file_kind) (t : component_type) (defaults : json) (allow_required_defaults : bool)
  : outcome (option json) :=
  match kind with
  | Initial_file => optional_schema (ct_initial t) "initial_values" defaults allow_required_defaults
  | Control_file => optional_schema (ct_control t) "control_values" defaults allow_required_defaults
  | Boundary_file => optional_schema (ct_boundary t) "boundary_values" defaults allow_required_defaults
  | Topology_file => omap Some (get_schema t defaults allow_required_defaults false)
  end.
(** The loops of Componentfactory.cpp, for instance Componentfactory.cpp:47-54. *)
Definition class_properties (kind : file_kind) (types : list component_type) (all_defaults : json)
    (allow_required_defaults : bool) : outcome json :=
  ofold (fun schemas t =>
    obind (type_defaults t all_defaults) (fun defaults =>
    obind (component_schema kind t defaults allow_required_defaults) (fun s =>
    match s with
    | Some schema => assign schemas (ct_name t) (make_list_schema_of schema)
    | None => Ok schemas
    end))) types (JObj []).
Definition class_schema (properties : json) : json :=
  JObj [("additionalProperties", JBool false); ("properties", properties); ("type", JStr "object")].
(** get_initial_schema, get_control_schema, get_boundary_schema, get_topology_schema (with
    include_external = false), Componentfactory.cpp:31-176.  The top level has no type. *)
Definition file_schema (kind : file_kind) (nodes edges : list component_type) (all_defaults : json)
    (allow_required_defaults : bool) : outcome json :=
  obind (class_properties kind nodes all_defaults allow_required_defaults) (fun n =>
  obind (class_properties kind edges all_defaults allow_required_defaults) (fun e =>
  Ok (JObj [("properties", JObj [("connections", class_schema e); ("nodes", class_schema n)]);
            ("required", JArr [JStr "nodes"; JStr "connections"])]))).

(** ** src/Auxillary/json_schema/schema_generation.cpp *)

(** at(key): out_of_range for a missing key, type_error for other types. *)
Inductive lookup := Found (j : json) | Out_of_range | Type_error.
Definition at_key (j : json) (k : string) : lookup :=
  match j with JObj fs => match field fs k with Some v => Found v | None => Out_of_range end | _ => Type_error end.
(** The defaults used by make_full_factory_schemas, schema_generation.cpp:39-59; [problem_data] is the contents of
    problem_data.json, if it exists.  Only out_of_range is caught. *)
Definition schema_defaults (problem_data : option json) : outcome json :=
  match problem_data with
  | None => Ok (JObj [])
  | Some j =>
      match at_key j "problem_data" with
      | Type_error => Exc
      | Out_of_range => Ok (JObj [])
      | Found p =>
          match at_key p "defaults" with
          | Type_error => Exc
          | Out_of_range => Ok (JObj [])
          | Found d => Ok d
          end
      end
  end.
(** make_full_factory_schemas and make_schemas, schema_generation.cpp:39-78, up to the writing of the files: the
    schemas of the initial, control, boundary and topology files. *)
Definition make_full_factory_schemas (problem_data : option json) : outcome (file_kind -> json) :=
  obind (schema_defaults problem_data) (fun defaults =>
  obind (file_schema Topology_file node_types edge_types defaults false) (fun topology =>
  obind (file_schema Initial_file node_types edge_types defaults false) (fun initial =>
  obind (file_schema Boundary_file node_types edge_types defaults false) (fun boundary =>
  obind (file_schema Control_file node_types edge_types defaults false) (fun control =>
  Ok (fun kind => match kind with
                  | Initial_file => initial | Control_file => control
                  | Boundary_file => boundary | Topology_file => topology
                  end)))))).
(** get_problem_data_schema, schema_generation.cpp:121-218. *)
Definition type_integer : json := JObj [("minimum", JNum 0); ("type", JStr "integer")].
Definition object_schema (required : list string) (properties : list (string * json)) : json :=
  JObj [("properties", JObj properties); ("required", JArr (map JStr required)); ("type", JStr "object")].
Definition problem_data_schema : json :=
  object_schema ["simulation_settings"; "initial_values"; "problem_data"]
    [("initial_values",
      object_schema ["subproblems"]
        [("subproblems",
          object_schema ["Network_problem"]
            [("Network_problem", object_schema ["initial_json"] [("initial_json", type_string)])])]);
     ("problem_data",
      object_schema ["subproblems"]
        [("subproblems",
          object_schema ["Network_problem"]
            [("Network_problem",
              object_schema ["defaults"; "topology_json"; "boundary_json"; "control_json"]
                [("boundary_json", type_string); ("control", type_string);
                 ("defaults", JObj [("patternProperties", JObj [("^.*$", JObj [("type", JStr "object")])]);
                                    ("type", JStr "object")]);
                 ("topology_json", type_string)])])]);
     ("simulation_settings",
      object_schema ["use_simplified_newton"; "maximal_number_of_newton_iterations"; "tolerance"; "retries";
                     "start_time"; "end_time"; "desired_delta_t"]
        [("desired_delta_t", type_number); ("end_time", type_number);
         ("maximal_number_of_newton_iterations", type_integer); ("retries", type_integer);
         ("start_time", type_number); ("tolerance", type_number); ("use_simplified_newton", type_boolean)])].

(** ** src/Model/Netfactory/Netfactory.cpp *)

(** build_node_vector, Netfactory.cpp:73-108, and build_edge_vector, 110-145: the type and the
    completed entry of every component, in the order of construction. *)
Definition instances_of_type (all_defaults class_topology : json) (t : component_type) : outcome (list (string * json)) :=
  if contains class_topology (ct_name t)
  then obind (at_const class_topology (ct_name t)) (fun l =>
       obind (type_defaults t all_defaults) (fun defaults =>
       omapM (fun e => omap (fun e' => (ct_name t, e')) (make_instance t defaults e)) (elems l)))
  else Ok [].
Definition build_vector (types : list component_type) (all_defaults class_topology : json) : outcome (list (string * json)) :=
  if forallb (fun kv => existsb (fun t => String.eqb (ct_name t) (fst kv)) types) (items class_topology)
  then omap (@List.concat _) (omapM (instances_of_type all_defaults class_topology) types)
  else Exc.

(** replace_entry_with_json_from_file, src/Auxillary/aux_json/Aux_json.cpp:25-65.  [read path] is
    get_json_from_file_path; paths are strings, directory / path is written with a slash. *)
Definition is_absolute (path : string) : bool := String.prefix "/" path.
Definition replace_entry (read : string -> outcome json) (super_json : json) (key : string) : outcome json :=
  match super_json with
  | JObj _ =>
      obind (at_mut super_json key) (fun sv =>
      match snd sv with
      | JObj _ => Ok (fst sv)
      | JStr path =>
          if is_absolute path
          then obind (read path) (assign (fst sv) key)
          else if contains (fst sv) "GRAZER_file_directory"
          then obind (obind (at_const (fst sv) "GRAZER_file_directory") get_string) (fun directory =>
               obind (read (directory ++ "/" ++ path)%string) (assign (fst sv) key))
          else Exc
      | _ => Exc
      end)
  | _ => Exc
  end.
(** build_full_networkproblem_json, Netfactory.cpp:36-57; the part after the files are read is in
    Json_Model.v. *)
Definition full_topology (read : string -> outcome json) (problem_json : json) : outcome json :=
  obind (replace_entry read problem_json "topology_json") (fun p1 =>
  obind (replace_entry read p1 "boundary_json") (fun p2 =>
  obind (at_const p2 "topology_json") (fun topology =>
  obind (at_const p2 "boundary_json") (fun boundary =>
  build_full_networkproblem_json topology boundary)))).
(** build_net, Netfactory.cpp:201-214, up to the construction of the components: the completed entries of
    nodes and edges. *)
Definition build_net (read : string -> outcome json) (all_defaults problem_json : json)
  : outcome (list (string * json) * list (string * json)) :=
  obind (full_topology read problem_json) (fun topology =>
  obind (at_mut topology "nodes") (fun tn =>
  obind (build_vector node_types all_defaults (snd tn)) (fun nodes =>
  obind (at_mut (fst tn) "connections") (fun te =>
  obind (build_vector edge_types all_defaults (snd te)) (fun edges => Ok (nodes, edges)))))).

(** ** src/Grazer/commands.cpp *)

(** grazer::run, commands.cpp:71-86: from problem_data.json to the net.  The constructors of Timedata and
    of Timeevolver, commands.cpp:77-79, and the output directory are not part of this definition.  The
    constructor of the factory throws if the defaults are not an object. *)
Definition run_setup (read : string -> outcome json) (directory : string)
  : outcome (json * (list (string * json) * list (string * json))) :=
  obind (read (directory ++ "/problem_data.json")%string) (fun all_json =>
  obind (at_mut all_json "simulation_settings") (fun s =>
  obind (at_mut (fst s) "problem_data") (fun p =>
  obind (assign (snd p) "GRAZER_file_directory" (JStr directory)) (fun problem_json =>
  obind (read (directory ++ "/initial.json")%string) (fun initial_json =>
  obind (value_or problem_json "defaults" (JObj [])) (fun defaults =>
  if is_object defaults
  then obind (build_net read defaults problem_json) (fun net => Ok (initial_json, net))
  else Exc)))))).
