(** * Specification: the files of an optimization *)
From Coq Require Import Reals List Arith String.
From Verif Require Import Base Interp_Spec Json_Model Json_Spec Controls_Spec Net_Model Net_Spec Input_Spec.
Import ListNotations.
Local Open Scope string_scope.
Local Open Scope list_scope.

(** The types of edges that have controls. *)
Definition edge_with_controls (type : string) : bool := existsb (String.eqb type) ["Compressorstation"; "Controlvalve"].
(** The document of edge number [i]: its control at the points of time. *)
Definition saved_document (entry : json) (N : network) (points table : list R) (i : nat) : json :=
  document "time" (id entry)
    (map (fun q => (nth q points 0%R, [Interp_Spec.entry table (number_of_controls N) q (fst (control_block N i))])) (seq 0 (List.length points))).
(** The file contains the table of controls: for every edge with a control its values, under its
    type and id, and nothing else. *)
Definition controls_saved (edges : list (string * json)) (N : network) (points table : list R) (j : json) : Prop :=
  good_file j /\
  (forall i entry e, nth_error edges i = Some entry -> nth_error (Net_Model.edges N) i = Some e -> controlled (e_type e) ->
     In (saved_document (snd entry) N points table i) (of_type j "connections" (fst entry))) /\
  (forall type, of_type j "nodes" type = []) /\
  results_listed "connections" edge_with_controls edges j.

(** problem_data.json names this file as topology or boundary file. *)
Definition named_file (all : json) (directory path : string) : Prop :=
  exists key given name, In key ["topology_json"; "boundary_json"] /\ entry_of all "problem_data" = Some given /\
    entry_of given key = Some (JStr name) /\ path = (if String.prefix "/" name then name else directory ++ "/" ++ name)%string.
(** The same files except one, which has the content [j]. *)
Definition with_file (read read' : string -> outcome json) (path : string) (j : json) : Prop :=
  read' path = Ok j /\ forall other, other <> path -> read' other = read other.
