(** * Specification: what the input files describe, and what the states file reports *)
From Coq Require Import Reals ZArith List Arith String.
From Coquelicot Require Import Complex.
From Verif Require Import Base Interp_Model Interp_Spec Json_Model Json_Spec Controls_Model Controls_Spec Calc Euler_Model Euler_Spec
  Net_Model Net_Spec States_Model States_Spec Newton_Model Evolve_Model Sim_Spec.
From Verif Require Units_Model Units_Spec.
Import ListNotations.
Local Open Scope string_scope.
Local Open Scope list_scope.

(** ** Entries of the topology with their boundary values *)

(** [b] are the [n] values per time that an entry gives, up to the factor [sign]: the piecewise
    linear functions through the rows of its table, and an exception for times that the table
    does not cover. *)
Definition boundary_given (data : json) (n : nat) (sign : R) (b : boundary) : Prop :=
  forall x rows, entry_of data "boundary_values" = Some (document "time" x rows) -> rows <> [] -> increasing (map fst rows) ->
    (forall tr, In tr rows -> List.length (snd tr) = n) /\
    forall t,
      (covered Interp_Spec.tolerance (map fst rows) t ->
         exists v, b t = Ok v /\ forall k, (k < n)%nat -> at_place rows k t (sign * v k)%R) /\
      (~ covered Interp_Spec.tolerance (map fst rows) t -> b t = Exc).
Definition number_entry (data : json) (key : string) (x : R) : Prop := entry_of data key = Some (JNum x).
(** The node that an entry of this type describes.  A sink's values count what leaves the network. *)
Inductive describes_node (data : json) : string -> nodetype -> Prop :=
| is_innode : describes_node data "Innode" Innode
| is_source b : boundary_given data 1 1 b -> describes_node data "Source" (Flownode false b)
| is_sink type b : In type ["Sink"; "ConstraintSink"] -> boundary_given data 1 (-1) b -> describes_node data type (Flownode false b)
| is_pressure b : boundary_given data 1 1 b -> describes_node data "Pressureboundarynode" (Pressurenode b)
| is_power type k external G B b :
    In (type, k, external) [("PQnode", PQ, false); ("PVnode", PV, false); ("Vphinode", Vphi, false); ("ExternalPowerplant", Vphi, true)] ->
    number_entry data "G" G -> number_entry data "B" B -> boundary_given data 2 1 b ->
    describes_node data type (Powernode k external G B b).

(** A length with its unit. *)
Definition length_entry (data : json) (key : string) (x : R) : Prop :=
  exists u v name f, entry_of data key = Some (Units_Spec.measurement u v) /\
    Units_Spec.reading Units_Model.length_units (Units_Model.chars u) name f /\ x = f v.
(** The first node with the id. *)
Definition first_with_id (ids : list string) (x : string) (j : nat) : Prop :=
  nth_error ids j = Some x /\ forall i, (i < j)%nat -> nth_error ids i <> Some x.
(** The edge that an entry of this type describes, [ids] being the ids of the nodes.  The grid of
    a pipe has the smallest number of equal steps that are not larger than desired. *)
Inductive describes_edgetype (data : json) : string -> edgetype -> Prop :=
| is_pipe L desired d k dx n :
    length_entry data "length" L -> length_entry data "diameter" d -> length_entry data "roughness" k ->
    number_entry data "desired_delta_x" desired -> (2 <= n)%nat -> (dx * INR (n - 1) = L)%R ->
    ((0 < L)%R -> (0 < dx <= desired)%R /\ forall m, (2 <= m)%nat -> (L / INR (m - 1) <= desired)%R -> (n <= m)%nat) ->
    describes_edgetype data "Pipe" (EPipe d k dx n)
| is_shortpipe : describes_edgetype data "Shortpipe" EShortpipe
| is_compressor : describes_edgetype data "Compressorstation" (ECompressor 1)
| is_controlvalve : describes_edgetype data "Controlvalve" EControlvalve
| is_gaspower g p : number_entry data "gas2power_q_coeff" g -> number_entry data "power2gas_q_coeff" p ->
    describes_edgetype data "Gaspowerconnection" (EGaspower g p)
| is_line G B : number_entry data "G" G -> number_entry data "B" B -> describes_edgetype data "Transmissionline" (ELine G B).
Definition describes_edge (ids : list string) (entry : string * json) (e : edge) : Prop :=
  (exists a b, entry_of (snd entry) "from" = Some (JStr a) /\ entry_of (snd entry) "to" = Some (JStr b) /\
     first_with_id ids a (e_from e) /\ first_with_id ids b (e_to e)) /\
  e_from e <> e_to e /\ describes_edgetype (snd entry) (fst entry) (e_type e).
(** Nodes and edges in the order of the entries. *)
Definition describes_network (nodes edges : list (string * json)) (N : network) : Prop :=
  Forall2 (fun entry t => describes_node (snd entry) (fst entry) t) nodes (Net_Model.nodes N) /\
  Forall2 (describes_edge (map (fun entry => id (snd entry)) nodes)) edges (Net_Model.edges N).

(** ** The states file *)

(** Entry number [k] of the component with this class, type and id. *)
Definition result_of (out : json) (class type x : string) (k : nat) (e : json) : Prop :=
  exists r entries, In r (of_type out class type) /\ entry_of r "id" = Some (JStr x) /\
    entry_of r "data" = Some (JArr entries) /\ nth_error entries k = Some e.
(** What is to be reported of edge [i] at a time: pressure (bar) and flow over x. *)
Definition edge_result (N : network) (i : nat) (t : edgetype) (time : R) (x : vec) : option json :=
  let s := fst (edge_block N i) in
  match t with
  | EPipe _ _ dx n =>
      Some (gas_result time (map (fun m => INR m * dx)%R (seq 0 n))
              (map (fun m => p (x (s + 2 * m)%nat) / bar)%R (seq 0 n)) (map (fun m => x (s + 2 * m + 1)%nat) (seq 0 n)))
  | EShortpipe | ECompressor _ | EControlvalve =>
      Some (gas_result time [0; 1]%R [x s; x (s + 2)%nat] [x (s + 1)%nat; x (s + 3)%nat])
  | EGaspower _ _ => Some (gas_result time [0]%R [x s] [x (s + 1)%nat])
  | ELine _ _ => None
  end.
(** What is to be reported of a power node: voltage, angle and complex power, where the given
    ones of the power's parts are reported as given. *)
Definition node_result (N : network) (j : nat) (t : nodetype) (time : R) (x : vec) (e : json) : Prop :=
  match t with
  | Powernode k _ G B b =>
      let s := fst (node_block N j) in
      reports e "time" time /\ reports e "V" (x s) /\ reports e "phi" (x (s + 1)%nat) /\
      exists P_val Q_val, reports e "P" P_val /\ reports e "Q" Q_val /\
        match k with
        | PQ => exists v, b time = Ok v /\ P_val = v 0%nat /\ Q_val = v 1%nat
        | PV => (exists v, b time = Ok v /\ P_val = v 0%nat) /\ Q_val = snd (power N j G B x)
        | Vphi => P_val = fst (power N j G B x) /\ Q_val = snd (power N j G B x)
        end
  | _ => True
  end.
(** The file reports the state [x] of time number [k] for all edges and power nodes. *)
Definition state_reported (nodes edges : list (string * json)) (N : network) (out : json) (k : nat) (time : R) (x : vec) : Prop :=
  (forall i entry e r, nth_error edges i = Some entry -> nth_error (Net_Model.edges N) i = Some e ->
     edge_result N i (e_type e) time x = Some r -> result_of out "connections" (fst entry) (id (snd entry)) k r) /\
  (forall j entry t, nth_error nodes j = Some entry -> nth_error (Net_Model.nodes N) j = Some t ->
     is_power_node N j -> exists r, result_of out "nodes" (fst entry) (id (snd entry)) k r /\ node_result N j t time x r).
(** Nothing else is in the file. *)
Definition results_listed (class : string) (with_states : string -> bool) (entries : list (string * json)) (out : json) : Prop :=
  forall type, map id (of_type out class type)
    = map (fun entry => id (snd entry)) (filter (fun entry => (with_states (fst entry) && String.eqb (fst entry) type)%bool) entries).
(** The types of edges and nodes that have states. *)
Definition edge_with_states (type : string) : bool := negb (String.eqb type "Transmissionline").
Definition node_with_states (type : string) : bool :=
  existsb (String.eqb type) ["PQnode"; "PVnode"; "Vphinode"; "ExternalPowerplant"].

(** ** problem_data.json *)

(** The part that describes the network, with the directory of the file. *)
Definition problem_of (all : json) (directory : string) (problem : json) : Prop :=
  exists given, entry_of all "problem_data" = Some given /\
    entry_of problem "GRAZER_file_directory" = Some (JStr directory) /\
    forall k, k <> "GRAZER_file_directory" -> entry_of problem k = entry_of given k.
(** The integer part of a number. *)
Definition int_entry (settings : json) (key : string) (n : Z) : Prop :=
  exists x, number_entry settings key x /\ ((0 <= x)%R -> (IZR n <= x < IZR n + 1)%R) /\ ((x < 0)%R -> (IZR n - 1 < x <= IZR n)%R).
Definition solver_of (settings : json) (cfg : tsettings) : Prop :=
  number_entry settings "tolerance" (tolerance (newton cfg)) /\
  int_entry settings "maximal_number_of_newton_iterations" (maximal_iterations (newton cfg)) /\
  int_entry settings "retries" (retries cfg) /\
  entry_of settings "use_simplified_newton" = Some (JBool (use_simplified_newton cfg)).
(** The points of time: equidistant from start to end, with the smallest number of steps that are
    not larger than desired. *)
Definition grid_with_step (a b desired : R) (points : list R) : Prop :=
  exists n, (0 < n)%nat /\ equidistant_grid a b n points /\ ((b - a) / INR n <= desired)%R /\
    forall m, (0 < m)%nat -> ((b - a) / INR m <= desired)%R -> (n <= m)%nat.
Definition times_of (settings : json) (points : list R) : Prop :=
  exists a b desired, number_entry settings "start_time" a /\ number_entry settings "end_time" b /\
    number_entry settings "desired_delta_t" desired /\
    ((a < b)%R -> (0 < desired)%R -> grid_with_step a b desired points).

(** ** control.json and initial.json *)

(** The points of time of the controls. *)
Definition control_times_of (all settings : json) (points : list R) : Prop :=
  match entry_of all "control_settings" with
  | None => times_of settings points
  | Some c =>
      exists a b, number_entry settings "start_time" a /\ number_entry settings "end_time" b /\
      match entry_of c "desired_delta_t", entry_of c "number_of_steps" with
      | Some _, None => exists desired, number_entry c "desired_delta_t" desired /\ grid_with_step a b desired points
      | None, Some _ => forall n, int_entry c "number_of_steps" n -> (a < b)%R -> (2 <= n)%Z -> equidistant_grid a b (Z.to_nat n - 1) points
      | _, _ => False
      end
  end.
(** The control of an edge at time [t]: first the rows of the file are interpolated at the points
    of time of the controls, then the values there. *)
Definition control_value (points : list R) (rows : list (R * list R)) (t u : R) : Prop :=
  exists ys, List.length ys = List.length points /\
    (forall m s y, nth_error points m = Some s -> nth_error ys m = Some y -> at_place rows 0 s y) /\
    piecewise_linear Interp_Spec.tolerance points (fun m => nth m ys 0%R) t u.
Definition controlled (t : edgetype) : Prop := match t with ECompressor _ | EControlvalve => True | _ => False end.

(** The file gives all controls: distinct ids, and for every edge with a control increasing times
    that cover the points of time of the controls, with one value each. *)
Definition controls_complete (edges : list (string * json)) (N : network) (j : json) (points : list R) : Prop :=
  good_file j /\ NoDup (all_ids j) /\ NoDup (map (fun entry => id (snd entry)) edges) /\ points <> [] /\ increasing points /\
  forall i entry e, nth_error edges i = Some entry -> nth_error (Net_Model.edges N) i = Some e -> controlled (e_type e) ->
    exists rows, In (document "time" (id (snd entry)) rows) (all_components j) /\ increasing (map fst rows) /\ rows <> [] /\
      (forall tr, In tr rows -> List.length (snd tr) = 1%nat) /\ forall t, In t points -> covered Interp_Spec.tolerance (map fst rows) t.
(** [c] are the controls of the file at time [t]. *)
Definition controls_given (edges : list (string * json)) (N : network) (j : json) (points : list R) (t : R) (c : vec) : Prop :=
  forall i entry e rows, nth_error edges i = Some entry -> nth_error (Net_Model.edges N) i = Some e -> controlled (e_type e) ->
    In (document "time" (id (snd entry)) rows) (all_components j) ->
    control_value points rows t (c (fst (control_block N i))).

(** A document of initial values for a component with this id and kind. *)
Definition initial_given (j : json) (x : string) (kind : state_kind) : Prop :=
  exists rows, In (document "x" x rows) (all_components j) /\ rows_ok kind rows /\ increasing (map fst rows) /\
    forall t, In t (places kind) -> covered Interp_Spec.tolerance (map fst rows) t.
(** The kinds of edges and nodes.  What a document for a power node has to contain does not
    depend on the node. *)
Definition edge_kind (t : edgetype) : option state_kind :=
  match t with
  | EPipe _ _ dx n => Some (KPipe n dx)
  | EShortpipe | ECompressor _ | EControlvalve => Some KShort
  | EGaspower _ _ => Some KGaspower
  | ELine _ _ => None
  end.
Definition node_kind (t : nodetype) : option state_kind :=
  match t with
  | Powernode _ _ G B _ => Some (KPower G B [] Vphi_values)
  | _ => None
  end.
Definition initial_complete (nodes edges : list (string * json)) (N : network) (j : json) : Prop :=
  good_file j /\ NoDup (all_ids j) /\ NoDup (map (fun entry => id (snd entry)) (nodes ++ edges)) /\
  (forall i entry e k, nth_error edges i = Some entry -> nth_error (Net_Model.edges N) i = Some e -> edge_kind (e_type e) = Some k ->
     initial_given j (id (snd entry)) k) /\
  (forall i entry t k, nth_error nodes i = Some entry -> nth_error (Net_Model.nodes N) i = Some t -> node_kind t = Some k ->
     initial_given j (id (snd entry)) k).
(** [x] has the values of the document as a component's state, from index [s] on: at place number
    [m] the first state variable for the first value and the second value. *)
Definition state_given (j : json) (name : string) (k : state_kind) (s : nat) (x : vec) : Prop :=
  forall rows m t, In (document "x" name rows) (all_components j) -> nth_error (places k) m = Some t ->
    exists y q, at_place rows 0 t y /\ at_place rows 1 t q /\ x (s + 2 * m)%nat = first_state k y /\ x (s + 2 * m + 1)%nat = q.
Definition initial_state_given (nodes edges : list (string * json)) (N : network) (j : json) (x : vec) : Prop :=
  (forall i entry e k, nth_error edges i = Some entry -> nth_error (Net_Model.edges N) i = Some e -> edge_kind (e_type e) = Some k ->
     state_given j (id (snd entry)) k (fst (edge_block N i)) x) /\
  (forall i entry t k, nth_error nodes i = Some entry -> nth_error (Net_Model.nodes N) i = Some t -> node_kind t = Some k ->
     state_given j (id (snd entry)) k (fst (node_block N i)) x).
