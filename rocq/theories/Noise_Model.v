(** * Model of a simulation with stochastic power nodes, from the input files to the states file

    Input_Model.v leaves out the type StochasticPQnode.  Here its constructor
    (StochasticPQnode.cpp:54-76), prepare_timestep (lines 89-107), evaluate (78-87) and json_save (150-168) are
    put together with the rest of the program.  The random number generator pcg64 and
    std::normal_distribution are not part of /repo: [pcg] constructs a generator from the words of
    a seed sequence (see Seed_Model.v) and [sampling g] is the sequence of the samples that a
    distribution with this generator gives. *)
From Coq Require Import Reals ZArith List Bool Arith String.
From Verif Require Import Base Interp_Model Json_Model Defaults_Model Controls_Model Calc Euler_Model Newton_Model Evolve_Model
  Net_Model Bounds_Model States_Model Factory_Model Sim_Model Stoch_Model Input_Model.
From Verif Require Seed_Model.
Import ListNotations.
Local Open Scope string_scope.
Local Open Scope list_scope.

(** ** The constructor *)

(** struct StochasticData, src/Model/Networkproblem/Power/include/StochasticPQnode.hpp:69-108. *)
Record stochastic_data (G : Type) := mkStochastic {
  stability_parameter : R; cut_off_factor : R; sigma_P : R; theta_P : R; sigma_Q : R; theta_Q : R;
  number_of_stochastic_steps : Z; distribution : G }.
Arguments mkStochastic {G}. Arguments stability_parameter {G}. Arguments cut_off_factor {G}. Arguments sigma_P {G}.
Arguments theta_P {G}. Arguments sigma_Q {G}. Arguments theta_Q {G}. Arguments number_of_stochastic_steps {G}. Arguments distribution {G}.

(** The value of boundary_values["seed"].  In these json values there is no difference between 3
    and 3.0; it would matter only outside of the range of uint32_t. *)
Definition seed_entry (j : json) : Seed_Model.entry :=
  match j with
  | JNum x => if Reqb x (IZR (Seed_Model.truncate x)) then Seed_Model.Integer (Seed_Model.truncate x) else Seed_Model.Floating x
  | JBool b => Seed_Model.Boolean b
  | _ => Seed_Model.Other
  end.
Definition seed_value_of (boundary_values : json) : Seed_Model.seed_value :=
  match boundary_values with
  | JObj fs =>
      match field fs "seed" with
      | None => Seed_Model.Absent
      | Some (JArr l) => Seed_Model.Listed (map seed_entry l)
      | Some _ => Seed_Model.Otherwise
      end
  | _ => Seed_Model.Absent
  end.
(** output["seed"] = used_seed, StochasticPQnode.cpp:74-75. *)
Definition seed_output (used_seed : list Seed_Model.entry) : json :=
  JObj [("seed", JArr (map (fun e => match e with Seed_Model.Integer z => JNum (IZR z) | _ => JNull end) used_seed))].

(** A node of any type; the data of a stochastic one is that of a PQnode (the constructor of
    Powernode, which comes first, and the mean values) and its stochastic data.  [nn_output] is component_output. *)
Record noisy_node (G : Type) := mkNoisy { nn_node : made_node; nn_noise : option (stochastic_data G); nn_output : json }.
Arguments mkNoisy {G}. Arguments nn_node {G}. Arguments nn_noise {G}. Arguments nn_output {G}.

(** StochasticPQnode::StochasticPQnode, StochasticPQnode.cpp:54-76, with the seed as in [stochastic_node] of
    Seed_Model.v; [entropy] are the words that are collected if there is no seed. *)
Definition stochastic_ctor {G} (pcg : (nat -> list Z) -> G) (entropy : list Z) (topology : json)
  : outcome (stochastic_data G * json) :=
  obind (at_const topology "boundary_values") (fun boundary_values =>
  obind (number_at topology "stability_parameter") (fun stability =>
  obind (number_at topology "cut_off_factor") (fun cut_off =>
  obind (number_at topology "sigma_P") (fun sP =>
  obind (number_at topology "theta_P") (fun tP =>
  obind (number_at topology "sigma_Q") (fun sQ =>
  obind (number_at topology "theta_Q") (fun tQ =>
  obind (int_at topology "number_of_stochastic_steps") (fun steps =>
  obind (Seed_Model.stochastic_node pcg entropy (seed_value_of boundary_values)) (fun gs =>
  Ok (mkStochastic stability cut_off sP tP sQ tQ steps (fst gs), seed_output (snd gs))))))))))).
(** The nodes in order; [fst] of an entry is its number. *)
Definition make_noisy_node {G} (pcg : (nat -> list Z) -> G) (entropy : nat -> list Z) (uninit : nat -> R) (entry : nat * (string * json))
  : outcome (noisy_node G) :=
  if String.eqb (fst (snd entry)) "StochasticPQnode" then
    obind (id_of (snd (snd entry))) (fun id =>
    obind (powernode_ctor uninit PQ false (snd (snd entry))) (fun data =>
    omap (fun so => mkNoisy (mkMade (fst (snd entry)) id data) (Some (fst so)) (snd so))
      (stochastic_ctor pcg (entropy (fst entry)) (snd (snd entry)))))
  else omap (fun m => mkNoisy m None JNull) (make_node uninit (snd entry)).
Definition construct_noisy {G} (pcg : (nat -> list Z) -> G) (entropy : nat -> list Z) (uninit : nat -> R)
    (entries : list (string * json) * list (string * json)) : outcome (list (noisy_node G) * list made_edge) :=
  obind (omapM (make_noisy_node pcg entropy uninit) (combine (seq 0 (List.length (fst entries))) (fst entries))) (fun nodes =>
  obind (omapM (make_edge (map nn_node nodes)) (snd entries)) (fun edges => Ok (nodes, edges))).

(** ** The mutable part of the nodes *)

(** current_P, current_Q and the number of samples taken so far. *)
Record drawn := mkDrawn { current_P : R; current_Q : R; samples : nat }.
(** Before the first draw current_P and current_Q are signalling NaNs (StochasticPQnode.hpp:109-110), here an
    arbitrary number [nan]: prepare_timestep comes before every evaluation. *)
Definition undrawn (nan : R) : drawn := mkDrawn nan nan 0.

(** The node as its evaluate sees it, StochasticPQnode.cpp:78-87: a PQnode with the current values. *)
Definition noisy_type {G} (d : drawn) (n : noisy_node G) : nodetype :=
  match nn_noise n, nodetype_of (nn_node n) with
  | Some _, Powernode k external G B _ => Powernode k external G B (fun _ => Ok (v2 (current_P d) (current_Q d)))
  | _, t => t
  end.
(** The number of a node, the node and its mutable part. *)
Definition with_drawn {G} (nan : R) (nodes : list (noisy_node G)) (e : list drawn) : list (nat * (noisy_node G * drawn)) :=
  map (fun jn => (fst jn, (snd jn, nth (fst jn) e (undrawn nan)))) (combine (seq 0 (List.length nodes)) nodes).
Definition noisy_network {G} (nan : R) (nodes : list (noisy_node G)) (edges : list made_edge) (e : list drawn) : network :=
  mkNet (map (fun jnd => noisy_type (snd (snd jnd)) (fst (snd jnd))) (with_drawn nan nodes e)) (map me_edge edges).

(** euler_maruyama_oup as called in prepare_timestep, with the number of samples it takes. *)
Definition sample_path {G} (s : stochastic_data G) (draw : stream) (k : nat) (last theta mean delta_t sigma : R) : outcome (R * nat) :=
  obind (compute_stable_number_of_oup_steps (stability_parameter s) theta delta_t (number_of_stochastic_steps s)) (fun n =>
  omap (fun v => (v, (k + Z.to_nat n)%nat))
    (euler_maruyama_oup (stability_parameter s) (cut_off_factor s) last theta mean delta_t sigma draw k (number_of_stochastic_steps s))).
(** StochasticPQnode::prepare_timestep, StochasticPQnode.cpp:89-107; [N] gives the node's place and lines. *)
Definition prepare_node {G} (sampling : G -> stream) (N : network) (last_time new_time : R) (last_state : vec)
    (jnd : nat * (noisy_node G * drawn)) : outcome drawn :=
  let '(j, (n, d)) := jnd in
  match nn_noise n, mn_data (nn_node n) with
  | Some s, DPower _ _ _ _ boundaryvalue =>
      let draw := sampling (distribution s) in
      obind (P (power_of N j) last_state) (fun last_P =>
      obind (boundary_at boundaryvalue new_time 0) (fun mean_P =>
      obind (sample_path s draw (samples d) last_P (theta_P s) mean_P (new_time - last_time) (sigma_P s)) (fun p =>
      obind (Q (power_of N j) last_state) (fun last_Q =>
      obind (boundary_at boundaryvalue new_time 1) (fun mean_Q =>
      obind (sample_path s draw (snd p) last_Q (theta_Q s) mean_Q (new_time - last_time) (sigma_Q s)) (fun q =>
      Ok (mkDrawn (fst p) (fst q) (snd q))))))))
  | _, _ => Ok d
  end.
(** Networkproblem::prepare_timestep, Networkproblem.cpp:249-262; the other components do nothing. *)
Definition prepare_all {G} (sampling : G -> stream) (nan : R) (nodes : list (noisy_node G)) (edges : list made_edge)
    (e : list drawn) (last_time new_time : R) (last_state : vec) (control : list R) : outcome (list drawn) :=
  omapM (prepare_node sampling (network_of (map nn_node nodes) edges) last_time new_time last_state) (with_drawn nan nodes e).

(** ** Results *)

(** The components with states and their outputs; a stochastic node reports its current values,
    StochasticPQnode.cpp:150-168. *)
Definition noisy_states_of {G} (N : network) (jnd : nat * (noisy_node G * drawn)) : list with_output :=
  let '(j, (n, d)) := jnd in
  match nn_noise n, mn_data (nn_node n) with
  | Some _, DPower _ _ G B iv =>
      [(mkState "nodes" (mn_type (nn_node n)) (mn_id (nn_node n)) 0
         (KPower G B (power_lines N j) (Stochastic_values iv (current_P d) (current_Q d))), nn_output n)]
  | _, _ => map (fun c => (c, JNull)) (node_states_of N (j, nn_node n))
  end.
Definition noisy_components {G} (nan : R) (nodes : list (noisy_node G)) (edges : list made_edge) (e : list drawn) : list with_output :=
  let all := flat_map (noisy_states_of (network_of (map nn_node nodes) edges)) (with_drawn nan nodes e)
             ++ map (fun c => (c, JNull)) (flat_map edge_states_of edges) in
  combine (fst (set_state_indices 0 (map fst all))) (map snd all).

(** ** grazer::run without optimization, commands.cpp:70-133 *)

(** As [prepare_run] in Input_Model.v.  The values P and Q of a stochastic node do not matter
    here. *)
Definition prepare_noisy {G} (pcg : (nat -> list Z) -> G) (entropy : nat -> list Z) (uninit : nat -> R) (read : string -> outcome json)
    (directory : string) : outcome (prepared * list (noisy_node G)) :=
  obind (read (directory ++ "/problem_data.json")%string) (fun all_json0 =>
  obind (at_mut all_json0 "simulation_settings") (fun s =>
  let simulation_settings := snd s in
  obind (at_mut (fst s) "problem_data") (fun p =>
  let all_json := fst p in
  obind (assign (snd p) "GRAZER_file_directory" (JStr directory)) (fun problem_json =>
  obind (read (directory ++ "/initial.json")%string) (fun initial_json =>
  obind (timedata_ctor simulation_settings) (fun time =>
  obind (timeevolver_ctor simulation_settings) (fun cfg =>
  obind (value_or problem_json "defaults" (JObj [])) (fun defaults =>
  if negb (is_object defaults) then Exc else
  obind (build_net read defaults problem_json) (fun entries =>
  obind (construct_noisy pcg entropy uninit entries) (fun components =>
  let '(noisy, edges) := components in
  let nodes := map nn_node noisy in
  let (states, n) := set_state_indices 0 (state_components_of nodes edges) in
  let (controls, nc) := set_control_indices 0 (control_components_of edges) in
  if negb (setup_ok (network_of nodes edges)) then Exc else
  obind (set_initial_values uninit states (map uninit (seq 0 n)) initial_json) (fun initial_state =>
  obind (points_of time) (fun points =>
  obind (setup_controls uninit controls nc time all_json (read (directory ++ "/control.json")%string)) (fun full_controls =>
  Ok (mkPrepared cfg nodes edges states n points initial_state full_controls, noisy)))))))))))))).

(** The simulation and the states file, lines 122-133. *)
Definition noisy_problem {G LU : Type} (sampling : G -> stream) (nan : R)
    (factor : list drawn -> R -> R -> vec -> list R -> vec -> option LU) (linsolve : LU -> vec -> vec)
    (nodes : list (noisy_node G)) (edges : list made_edge) (n : nat) : problem :=
  network_problem (list drawn) LU n (noisy_network nan nodes edges) (prepare_all sampling nan nodes edges) factor linsolve.
Definition simulate_noisy {G LU : Type} (sampling : G -> stream) (nan : R)
    (factor : list drawn -> R -> R -> vec -> list R -> vec -> option LU) (linsolve : LU -> vec -> vec)
    (fuel sfuel : nat) (p : prepared) (nodes : list (noisy_node G)) : option (outcome json) :=
  match simulate (noisy_problem sampling nan factor linsolve nodes (pp_edges p) (pp_number p))
          fuel sfuel (pp_settings p) (pp_controls p) (pp_points p) (vec_of (pp_initial p)) (map (fun _ => undrawn nan) nodes) with
  | (None, _) => None
  | (Some Exc, _) => Some Exc
  | (Some UB, _) => Some UB
  | (Some (Ok rows), e) =>
      Some (states_file (noisy_components nan nodes (pp_edges p) e) (combine (pp_points p) (map (row_of_state (pp_number p)) rows)))
  end.
Definition run_noisy {G LU : Type} (pcg : (nat -> list Z) -> G) (sampling : G -> stream) (entropy : nat -> list Z) (nan : R)
    (factor : list drawn -> R -> R -> vec -> list R -> vec -> option LU) (linsolve : LU -> vec -> vec)
    (fuel sfuel : nat) (uninit : nat -> R) (read : string -> outcome json) (directory : string) : option (outcome json) :=
  match prepare_noisy pcg entropy uninit read directory with
  | Ok (p, nodes) => simulate_noisy sampling nan factor linsolve fuel sfuel p nodes
  | Exc => Some Exc
  | UB => Some UB
  end.
