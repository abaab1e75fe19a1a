(** * Model of the command "schema make-full-factory": the files it writes

    src/Auxillary/json_schema/schema_generation.cpp; the schemas themselves are modelled in
    Factory_Model.v.  [dump] is the text of a json value; the values come from parsed files and from
    the source code, so that it does not throw. *)
From Coq Require Import List Arith Bool String.
From Verif Require Import Base Json_Model Files_Model Factory_Model Run_Model.
Import ListNotations.
Local Open Scope string_scope.
Local Open Scope list_scope.

(** What is found at the path "schemas": nothing, a file, or a directory with the names
    directory_iterator lists. *)
Inductive place : Type := Nothing | File | Directory (d : directory) (listing : list string).

(** The std::map of make_schemas, lines 68-78 (in the order of the names). *)
Definition schema_map (s : file_kind -> json) : list (string * json) :=
  [("boundary", s Boundary_file); ("control", s Control_file); ("initial", s Initial_file);
   ("problem_data", problem_data_schema); ("topology", s Topology_file)].

(** key_from_map_is_prefix, lines 111-119: rfind(name, 0) == 0. *)
Definition key_from_map_is_prefix (m : list (string * json)) (s : string) : bool :=
  existsb (fun '(name, _) => String.prefix name s) m.

(** assert_only_known_schemas, lines 94-109. *)
Fixpoint assert_only_known_schemas (d : directory) (listing : list string) (m : list (string * json)) : outcome unit :=
  match listing with
  | [] => Ok tt
  | filename :: rest =>
      match d filename with
      | Some (EDir _) => Exc
      | _ => if negb (key_from_map_is_prefix m filename) then Exc else assert_only_known_schemas d rest m
      end
  end.

(** Lines 86-91: an ofstream does not throw. *)
Fixpoint write_schemas (dump : json -> string) (writing : string -> environment) (d : directory) (m : list (string * json))
  : outcome directory :=
  match m with
  | [] => Ok d
  | (name, schema) :: rest =>
      let file := (name ++ "_schema.json")%string in
      obind (save (writing file) d file (Some (dump schema))) (fun d' => write_schemas dump writing d' rest)
  end.

(** make_schemas, lines 66-92: [can_create] tells whether create_directory succeeds; a file in the
    place of the directory makes directory_iterator throw.  The result is the content of the
    directory. *)
Definition make_schemas (dump : json -> string) (writing : string -> environment) (can_create : bool) (p : place)
  (m : list (string * json)) : outcome directory :=
  obind match p with
        | Nothing => if can_create then Ok (fun _ => None) else Exc
        | File => Exc
        | Directory d listing => omap (fun _ => d) (assert_only_known_schemas d listing m)
        end (fun d => write_schemas dump writing d m).

(** make_full_factory_schemas, lines 39-62. *)
Definition make_schema_files (dump : json -> string) (writing : string -> environment) (can_create : bool) (p : place)
  (problem_data : option json) : outcome directory :=
  obind (make_full_factory_schemas problem_data) (fun s => make_schemas dump writing can_create p (schema_map s)).
