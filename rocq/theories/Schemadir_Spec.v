(** * Specification: the directory of schemas *)
From Coq Require Import List String.
From Verif Require Import Base Json_Model Files_Model Files_Spec Factory_Model Schemadir_Model.
Import ListNotations.
Local Open Scope string_scope.
Local Open Scope list_scope.

Definition kinds : list string := ["boundary"; "control"; "initial"; "problem_data"; "topology"].

(** The listing contains exactly the names that are there. *)
Definition lists (d : directory) (listing : list string) : Prop := forall n, In n listing <-> d n <> None.

(** Only files, and their names begin with the name of a kind. *)
Definition only_known (d : directory) : Prop :=
  forall n e, d n = Some e -> (exists c, e = EFile c) /\ exists k rest, In k kinds /\ n = (k ++ rest)%string.

Definition content (p : place) : directory := match p with Directory d _ => d | _ => fun _ => None end.
Definition usable (can_create : bool) (p : place) : Prop :=
  match p with Nothing => can_create = true | File => False | Directory d _ => only_known d end.

Definition schema_of (s : file_kind -> json) (kind : string) : json :=
  if String.eqb kind "boundary" then s Boundary_file
  else if String.eqb kind "control" then s Control_file
  else if String.eqb kind "initial" then s Initial_file
  else if String.eqb kind "topology" then s Topology_file
  else problem_data_schema.
