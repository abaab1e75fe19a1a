(** * Model of a simulation from the input files to the states file: the constructors of the
    components, the settings, the controls, and the part of grazer::run that simulates

    Other steps are modelled elsewhere: reading and merging the files and completing the entries
    in Factory_Model.v, the equations in Net_Model.v, initial values and results in States_Model.v,
    controls in Controls_Model.v, the solver and the time evolution in Newton_Model.v and
    Evolve_Model.v.  Here they are put together. *)
From Coq Require Import Reals ZArith List Bool Arith String.
From Verif Require Import Base Interp_Model Json_Model Defaults_Model Controls_Model Calc Euler_Model Newton_Model Evolve_Model
  Net_Model Bounds_Model States_Model Factory_Model Sim_Model.
From Verif Require Units_Model Seed_Model.
Import ListNotations.
Local Open Scope string_scope.
Local Open Scope list_scope.

(** ** Reading numbers *)

(** j[key].get<double>() and get<bool>(). *)
Definition number_at (j : json) (key : string) : outcome R := obind (at_const j key) get_double.
Definition get_bool (j : json) : outcome bool := match j with JBool b => Ok b | _ => Exc end.
(** get<int>(): the number is truncated; a boolean is accepted, too.  Numbers outside the range of
    int: undefined (for integers the library would take them modulo 2^32). *)
Definition get_int (j : json) : outcome Z :=
  match j with
  | JNum x => let n := Seed_Model.truncate x in
              if ((- 2 ^ 31 <=? n) && (n <? 2 ^ 31))%Z%bool then Ok n else UB
  | JBool b => Ok (if b then 1 else 0)%Z
  | _ => Exc
  end.
Definition int_at (j : json) (key : string) : outcome Z := obind (at_const j key) get_int.

(** ** Nodes *)

(** A node object as far as the network needs it: the boundary values are still a table. *)
Inductive node_data :=
| DInnode
| DFlow (boundaryvalue : ivec)
| DPressure (boundaryvalue : ivec)
| DPower (k : powerkind) (external : bool) (G B : R) (boundaryvalue : ivec).
Record made_node := mkMade { mn_type : string; mn_id : string; mn_data : node_data }.

(** Powernode::Powernode, src/Model/Networkproblem/Power/Powernode.cpp:57-62; the constructors of PQnode, PVnode, Vphinode
    and ExternalPowerplant do nothing else (PQnode.hpp:27, PVnode.hpp:27, Vphinode.hpp:30: ExternalPowerplant.hpp:33: inherited). *)
Definition powernode_ctor (uninit : nat -> R) (k : powerkind) (external : bool) (topology : json) : outcome node_data :=
  obind (at_const topology "boundary_values") (fun b =>
  obind (construct_from_json uninit b (make_boundary_schema 2)) (fun boundaryvalue =>
  obind (number_at topology "G") (fun G =>
  obind (number_at topology "B") (fun B => Ok (DPower k external G B boundaryvalue))))).
(** The constructors of the nodes by the name of the type: Innode.hpp:30, Source.hpp:27,
    Sink.cpp:24-25, ConstraintSink.cpp:29-30 (see [source_values] and [sink_values] in
    Bounds_Model.v), Pressureboundarynode.cpp:33-36, and the power nodes.  A StochasticPQnode is
    not modelled here, [UB] stands for that. *)
Definition node_ctor (uninit : nat -> R) (type : string) (topology : json) : outcome node_data :=
  if String.eqb type "Innode" then Ok DInnode
  else if String.eqb type "Source" then omap DFlow (source_values uninit topology)
  else if (String.eqb type "Sink" || String.eqb type "ConstraintSink")%bool then omap DFlow (sink_values uninit topology)
  else if String.eqb type "Pressureboundarynode" then omap DPressure (source_values uninit topology)
  else if String.eqb type "PQnode" then powernode_ctor uninit PQ false topology
  else if String.eqb type "PVnode" then powernode_ctor uninit PV false topology
  else if String.eqb type "Vphinode" then powernode_ctor uninit Vphi false topology
  else if String.eqb type "ExternalPowerplant" then powernode_ctor uninit Vphi true topology
  else UB.
(** Node::Node, src/Model/Network/Node.cpp:26-27, with Idobject::Idobject, Idobject.cpp:30-31, and then
    the constructor of the type. *)
Definition make_node (uninit : nat -> R) (entry : string * json) : outcome made_node :=
  obind (id_of (snd entry)) (fun id => omap (mkMade (fst entry) id) (node_ctor uninit (fst entry) (snd entry))).

(** ** Edges *)

Record made_edge := mkMadeEdge { me_type : string; me_id : string; me_edge : edge }.

(** Edge::Edge, src/Model/Network/Edge.cpp:37-48, with get_node_from_json, lines 56-93; nodes are
    represented by their positions, see Graph_Model.v for pointers. *)
Definition node_named (nodes : list made_node) (topology : json) (key : string) : outcome nat :=
  obind (obind (at_const topology key) get_string) (fun nodeid =>
  match position (map mn_id nodes) nodeid with Some j => Ok j | None => Exc end).
Definition edge_ends (nodes : list made_node) (topology : json) : outcome (nat * nat) :=
  obind (node_named nodes topology "from") (fun starting =>
  obind (node_named nodes topology "to") (fun ending =>
  if Nat.eqb starting ending then Exc else Ok (starting, ending))).
(** unit::length.parse_to_si(topology[key]). *)
Definition length_at (topology : json) (key : string) : outcome R :=
  obind (at_const topology key) (Units_Model.parse_to_si Units_Model.length_units).
(** Pipe::Pipe, src/Model/Networkproblem/Gas/Pipe.cpp:73-87, with Isothermaleulerequation.cpp:24-26 and make_threepointscheme,
    src/Model/Scheme/include/Scheme_factory.hpp:26-35.  With fewer than two points the division by
    number_of_points - 1 gives no usable number, and a negative number of points has no
    meaning: here undefined. *)
Definition pipe_ctor (topology : json) : outcome edgetype :=
  obind (length_at topology "length") (fun length =>
  obind (number_at topology "desired_delta_x") (fun desired_delta_x =>
  obind (pipe_number_of_points length desired_delta_x) (fun number_of_points =>
  if (number_of_points <? 2)%Z then UB
  else
    let Delta_x := (length / IZR (number_of_points - 1))%R in
    obind (length_at topology "diameter") (fun diameter =>
    obind (length_at topology "roughness") (fun roughness =>
    obind (at_const topology "scheme") (fun scheme =>
    match scheme with
    | JStr "Implicitboxscheme" => Ok (EPipe diameter roughness Delta_x (Z.to_nat number_of_points))
    | _ => Exc
    end)))))).
(** The constructors of the edges by the name of the type: Pipe.cpp:73-87, Shortpipe.hpp:27,
    Compressorstation.cpp:30-33 (its cost weight is 1.0, Costcomponent.hpp:73), Controlvalve.cpp:33-36,
    Gaspowerconnection.cpp:54-59, Transmissionline.cpp:36-39. *)
Definition edge_ctor (type : string) (topology : json) : outcome edgetype :=
  if String.eqb type "Pipe" then pipe_ctor topology
  else if String.eqb type "Shortpipe" then Ok EShortpipe
  else if String.eqb type "Compressorstation" then Ok (ECompressor 1)
  else if String.eqb type "Controlvalve" then Ok EControlvalve
  else if String.eqb type "Gaspowerconnection" then
    obind (number_at topology "gas2power_q_coeff") (fun g2p =>
    obind (number_at topology "power2gas_q_coeff") (fun p2g => Ok (EGaspower g2p p2g)))
  else if String.eqb type "Transmissionline" then
    obind (number_at topology "G") (fun G => obind (number_at topology "B") (fun B => Ok (ELine G B)))
  else UB.
Definition make_edge (nodes : list made_node) (entry : string * json) : outcome made_edge :=
  obind (id_of (snd entry)) (fun id =>
  obind (edge_ends nodes (snd entry)) (fun ends =>
  omap (fun t => mkMadeEdge (fst entry) id (mkEdge (fst ends) (snd ends) t)) (edge_ctor (fst entry) (snd entry)))).

(** ** The network *)

(** boundaryvalue(time) as a function. *)
Definition boundary_of (boundaryvalue : ivec) : boundary := fun time => omap vec_of (interp_at boundaryvalue time).
Definition nodetype_of (n : made_node) : nodetype :=
  match mn_data n with
  | DInnode => Innode
  | DFlow iv => Flownode false (boundary_of iv)
  | DPressure iv => Pressurenode (boundary_of iv)
  | DPower k external G B iv => Powernode k external G B (boundary_of iv)
  end.
Definition network_of (nodes : list made_node) (edges : list made_edge) : network :=
  mkNet (map nodetype_of nodes) (map me_edge edges).
(** build_net, src/Model/Netfactory/Netfactory.cpp:201-214, from the completed entries
    (Factory_Model.build_net) on. *)
Definition construct (uninit : nat -> R) (entries : list (string * json) * list (string * json))
  : outcome (list made_node * list made_edge) :=
  obind (omapM (make_node uninit) (fst entries)) (fun nodes =>
  obind (omapM (make_edge nodes) (snd entries)) (fun edges => Ok (nodes, edges))).

(** The components with states, from the nodes and then from the edges, Networkproblem.cpp:130-168; the
    indices are set by [set_state_indices] in States_Model.v, Networkproblem.cpp:170-178. *)
Definition power_values_of (k : powerkind) (boundaryvalue : ivec) : power_values :=
  match k with PQ => PQ_values boundaryvalue | PV => PV_values boundaryvalue | Vphi => Vphi_values end.
Definition node_states_of (N : network) (jn : nat * made_node) : list state_component :=
  match mn_data (snd jn) with
  | DPower k _ G B iv =>
      [mkState "nodes" (mn_type (snd jn)) (mn_id (snd jn)) 0 (KPower G B (power_lines N (fst jn)) (power_values_of k iv))]
  | _ => []
  end.
Definition edge_states_of (e : made_edge) : list state_component :=
  match e_type (me_edge e) with
  | EPipe _ _ dx n => [mkState "connections" (me_type e) (me_id e) 0 (KPipe n dx)]
  | EShortpipe | ECompressor _ | EControlvalve => [mkState "connections" (me_type e) (me_id e) 0 KShort]
  | EGaspower _ _ => [mkState "connections" (me_type e) (me_id e) 0 KGaspower]
  | ELine _ _ => []
  end.
Definition state_components_of (nodes : list made_node) (edges : list made_edge) : list state_component :=
  flat_map (node_states_of (network_of nodes edges)) (combine (seq 0 (List.length nodes)) nodes)
  ++ flat_map edge_states_of edges.
(** The components with controls. *)
Definition control_components_of (edges : list made_edge) : list control_component :=
  flat_map (fun e => match e_type (me_edge e) with
                     | ECompressor _ | EControlvalve => [mkControl "connections" (me_type e) (me_id e) 0 1]
                     | _ => []
                     end) edges.

(** ** Settings *)

(** Timedata::Timedata, src/Auxillary/Timedata/Timedata.cpp:22-27: start, end and desired step. *)
Record timedata := mkTimedata { starttime : R; endtime : R; timesteps : Z }.
Definition timedata_ctor (simulation_settings : json) : outcome timedata :=
  obind (number_at simulation_settings "start_time") (fun tstart =>
  obind (number_at simulation_settings "end_time") (fun tend =>
  obind (number_at simulation_settings "desired_delta_t") (fun desired =>
  omap (mkTimedata tstart tend) (timedata_number tstart tend desired)))).
Definition get_delta_t (t : timedata) : xdouble := timedata_delta (starttime t) (endtime t) (timesteps t).
(** make_from_start_delta_end(starttime, delta_t, endtime) and the points of a vector constructed
    with the result, commands.cpp:93-97 and helpers.cpp:56-58; see [state_grid] in Interp_Model.v. *)
Definition points_of (t : timedata) : outcome (list R) :=
  obind (make_from_start_xdelta_end (starttime t) (get_delta_t t) (endtime t)) (fun '(first, n, d) =>
  match d with
  | Fin dlt => Ok (accumulate_points first dlt n)
  | _ => if (n =? 1)%nat then Ok [first] else UB
  end).
(** Timeevolver::get_schema, make_pointer_instance and the constructor, Timeevolver.cpp:33-64. *)
Definition timeevolver_schema : outcome json :=
  add_all_required (JObj [("type", JStr "object")])
    [("tolerance", type_number); ("maximal_number_of_newton_iterations", type_number); ("retries", type_number);
     ("use_simplified_newton", type_boolean)].
Definition timeevolver_ctor (timeevolver_data : json) : outcome tsettings :=
  obind timeevolver_schema (fun schema =>
  obind (validate_json timeevolver_data schema) (fun _ =>
  obind (number_at timeevolver_data "tolerance") (fun tol =>
  obind (int_at timeevolver_data "maximal_number_of_newton_iterations") (fun iterations =>
  obind (int_at timeevolver_data "retries") (fun tries =>
  obind (obind (at_const timeevolver_data "use_simplified_newton") get_bool) (fun simplified =>
  Ok {| newton := {| tolerance := tol; maximal_iterations := iterations |};
        retries := tries; use_simplified_newton := simplified |})))))).

(** ** Controls *)

(** setup_controls, src/Grazer/helpers.cpp:24-68, for a problem with these components and [n] controls.  A default constructed
    InterpolatingVector has no points and inner length 0. *)
Definition no_controls : ivec := mk_ivec [] 0 [].
Definition control_points (t : timedata) (all_json : json) : outcome (list R) :=
  if contains all_json "control_settings" then
    obind (at_const all_json "control_settings") (fun control_settings =>
    if (contains control_settings "desired_delta_t" && contains control_settings "number_of_steps")%bool then Exc
    else if contains control_settings "desired_delta_t" then
      obind (number_at control_settings "desired_delta_t") (fun control_delta_t =>
      omap equidistant_points (make_from_start_delta_end (starttime t) control_delta_t (endtime t)))
    else if contains control_settings "number_of_steps" then
      obind (int_at control_settings "number_of_steps") (fun number_of_controls =>
      omap equidistant_points (make_from_start_number_end (starttime t) (endtime t) number_of_controls))
    else Exc)
  else points_of t.
Definition setup_controls (uninit : nat -> R) (components : list control_component) (n : nat) (t : timedata) (all_json : json)
    (control_json : outcome json) : outcome ivec :=
  if (0 <? n)%nat then
    obind (control_points t all_json) (fun points =>
    obind control_json (fun j =>
    set_initial_controls uninit components (mk_ivec points n (map uninit (seq 0 (n * List.length points)))) j))
  else Ok no_controls.

(** ** grazer::run without optimization, commands.cpp:70-133 *)

(** Everything before the simulation, lines 70-102: time data, settings of the solver, the components, the
    initial state, the points of time and the controls.  [uninit] are the values of
    uninitialised memory.  Statements that only print are left out. *)
Record prepared := mkPrepared {
  pp_settings : tsettings; pp_nodes : list made_node; pp_edges : list made_edge;
  pp_states : list state_component; pp_number : nat; pp_points : list R; pp_initial : list R; pp_controls : ivec }.
Definition prepare_run (uninit : nat -> R) (read : string -> outcome json) (directory : string) : outcome prepared :=
  obind (read (directory ++ "/problem_data.json")%string) (fun all_json0 =>
  obind (at_mut all_json0 "simulation_settings") (fun s =>
  let simulation_settings := snd s in
  obind (at_mut (fst s) "problem_data") (fun p =>
  let all_json := fst p in
  obind (assign (snd p) "GRAZER_file_directory" (JStr directory)) (fun problem_json =>
  obind (read (directory ++ "/initial.json")%string) (fun initial_json =>
  obind (timedata_ctor simulation_settings) (fun time =>
  obind (timeevolver_ctor simulation_settings) (fun cfg =>
  obind (value_or problem_json "defaults" (JObj [])) (fun defaults =>
  if negb (is_object defaults) then Exc else
  obind (build_net read defaults problem_json) (fun entries =>
  obind (construct uninit entries) (fun components =>
  let '(nodes, edges) := components in
  let (states, n) := set_state_indices 0 (state_components_of nodes edges) in
  let (controls, nc) := set_control_indices 0 (control_components_of edges) in
  if negb (setup_ok (network_of nodes edges)) then Exc else
  obind (set_initial_values uninit states (map uninit (seq 0 n)) initial_json) (fun initial_state =>
  obind (points_of time) (fun points =>
  obind (setup_controls uninit controls nc time all_json (read (directory ++ "/control.json")%string)) (fun full_controls =>
  Ok (mkPrepared cfg nodes edges states n points initial_state full_controls)))))))))))))).

(** The simulation and the states file, lines 122-133 (see [network_problem] in Sim_Model.v: the
    factorisation and the solution of linear systems are arbitrary).  [None]: not finished with
    this fuel. *)
Definition row_of_state (n : nat) (x : vec) : list R := map x (seq 0 n).
Definition simulate_prepared {LU : Type} (factor : unit -> R -> R -> vec -> list R -> vec -> option LU) (linsolve : LU -> vec -> vec)
    (fuel sfuel : nat) (p : prepared) : option (outcome json) :=
  let N := network_of (pp_nodes p) (pp_edges p) in
  match fst (simulate (network_problem unit LU (pp_number p) (fun _ => N) (fun e _ _ _ _ => Ok e) factor linsolve)
               fuel sfuel (pp_settings p) (pp_controls p) (pp_points p) (vec_of (pp_initial p)) tt) with
  | None => None
  | Some Exc => Some Exc
  | Some UB => Some UB
  | Some (Ok rows) =>
      Some (states_file (map (fun c => (c, JNull)) (pp_states p))
              (combine (pp_points p) (map (row_of_state (pp_number p)) rows)))
  end.
Definition run_simulation {LU : Type} (factor : unit -> R -> R -> vec -> list R -> vec -> option LU) (linsolve : LU -> vec -> vec)
    (fuel sfuel : nat) (uninit : nat -> R) (read : string -> outcome json) (directory : string) : option (outcome json) :=
  match prepare_run uninit read directory with
  | Ok p => simulate_prepared factor linsolve fuel sfuel p
  | Exc => Some Exc
  | UB => Some UB
  end.
