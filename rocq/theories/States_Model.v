(** * Model of reading initial states and of writing the states file: SimpleStatecomponent.cpp,
    Statecomponent.cpp, set_initial_values, json_save and add_results_to_json of the components *)
From Coq Require Import Reals ZArith List Bool Arith String.
From Verif Require Import Base Interp_Model Json_Model Defaults_Model Controls_Model Calc Euler_Model Net_Model.
Import ListNotations.
Local Open Scope string_scope.
Local Open Scope list_scope.

(** ** The schema of initial values *)

(** type::number() and make_list_schema_of, src/Auxillary/json_schema/make_schema.cpp:46 and 71-88,
    with minItems = maxItems = n; titles and descriptions are left out. *)
Definition number_list (n : nat) : json :=
  JObj [("items", type_number); ("maxItems", JNum (INR n)); ("minItems", JNum (INR n)); ("type", JStr "array")].
(** The interpolation point of make_initial_schema, make_schema.cpp:107-122. *)
Definition point_schema (num_values : nat) : json :=
  JObj [("properties", JObj [("values", number_list num_values); ("x", type_number)]);
        ("required", JArr [JStr "x"; JStr "values"]);
        ("type", JStr "object")].
(** An element of allOf, make_schema.cpp:141-145; the schemas for x in the code are all of the form
    {"minimum": a, "maximum": a}. *)
Definition contains_x (a : R) : json :=
  JObj [("contains", JObj [("properties", JObj [("x", JObj [("maximum", JNum a); ("minimum", JNum a)])])])].
(** make_initial_schema, make_schema.cpp:90-150. *)
Definition make_initial_schema (num_points : option nat) (num_values : nat) (xs : list R) : outcome json :=
  omap (fun bounds =>
    JObj [("properties", JObj [("data", JObj ([("allOf", JArr (map contains_x xs)); ("items", point_schema num_values)]
                                               ++ bounds ++ [("type", JStr "array")]));
                               ("id", JObj [("type", JStr "string")])]);
          ("required", JArr [JStr "id"; JStr "data"]);
          ("type", JStr "object")])
  (match num_points with
   | None => Ok []
   | Some O => Exc
   | Some (S n) => Ok [("maxItems", JNum (INR (S n))); ("minItems", JNum (INR (S n)))]
   end).

(** ** Components with states *)

(** Where a power node gets the values P and Q of its results from: PQnode.cpp:60-65,
    PVnode.cpp:60-65, Vphinode.cpp:57-62 and ExternalPowerplant.cpp:86-91 (same as Vphinode),
    StochasticPQnode.cpp:150-168 (with the current values of the members current_P and
    current_Q). *)
Inductive power_values :=
| PQ_values (boundaryvalue : ivec)
| PV_values (boundaryvalue : ivec)
| Vphi_values
| Stochastic_values (boundaryvalue : ivec) (current_P current_Q : R).
(** Pipes; Shortpipe, Compressorstation and Controlvalve; Gaspowerconnection; power nodes, see
    [powernode] in Net_Model.v. *)
Inductive state_kind :=
| KPipe (number_of_points : nat) (Delta_x : R)
| KShort
| KGaspower
| KPower (G B : R) (lines : list (R * R * option nat)) (values : power_values).
(** componentclass, type, id and get_state_startindex(). *)
Record state_component := mkState {
  sc_class : string; sc_type : string; sc_id : string; sc_start : nat; sc_kind : state_kind }.

(** needed_number_of_states: Pipe.cpp:194-196, Shortcomponent.cpp:41-43 with Shortcomponent.hpp:59,
    Gaspowerconnection.cpp:110, Powernode.cpp:64-66 with Powernode.hpp:76. *)
Definition needed_number_of_states (k : state_kind) : nat :=
  match k with KPipe n _ => 2 * n | KShort => 4 | KGaspower => 2 | KPower _ _ _ _ => 2 end.

(** The constructor of Pipe, Pipe.cpp:73-87: number_of_points and Delta_x from the length and the
    desired step.  For one point the division 0/0 gives NaN, for a step of 0 the conversion of
    the quotient to int is undefined: both [None] resp. [UB]. *)
Definition pipe_number_of_points (length desired_delta_x : R) : outcome Z :=
  if Reqb desired_delta_x 0 then UB
  else
    let n := Rceil (length / desired_delta_x) in
    if ((- 2 ^ 31 <=? n) && (n <? 2 ^ 31 - 1))%Z%bool then Ok (n + 1)%Z else UB.
Definition pipe_Delta_x (length : R) (number_of_points : Z) : option R :=
  if (number_of_points =? 1)%Z then None else Some (length / IZR (number_of_points - 1))%R.

(** get_initial_schema: Pipe.cpp:65-71, Shortcomponent.cpp:26-33, Gaspowerconnection.cpp:45-52,
    Powernode.cpp:49-55. *)
Definition get_initial_schema (k : state_kind) : outcome json :=
  match k with
  | KPipe _ _ => make_initial_schema None 2 [0%R]
  | KShort => make_initial_schema (Some 2%nat) 2 [0%R; 1%R]
  | KGaspower => make_initial_schema (Some 1%nat) 2 [0%R]
  | KPower _ _ _ _ => make_initial_schema (Some 1%nat) 2 [0%R]
  end.

(** set_state_indices, SimpleStatecomponent.cpp:61-68 and Networkproblem.cpp:221-228. *)
Fixpoint set_state_indices (next_free_index : nat) (components : list state_component)
  : list state_component * nat :=
  match components with
  | [] => ([], next_free_index)
  | c :: rest =>
      let r := set_state_indices (next_free_index + needed_number_of_states (sc_kind c)) rest in
      (mkState (sc_class c) (sc_type c) (sc_id c) next_free_index (sc_kind c) :: fst r, snd r)
  end.

(** vector.segment(start, len) = row. *)
Definition assign_segment (v : list R) (start len : nat) (row : list R) : outcome (list R) :=
  if ((start + len <=? List.length v)%nat && (List.length row =? len)%nat)%bool
  then Ok (firstn start v ++ row ++ skipn (start + len) v)
  else UB.

(** The loop of set_simple_initial_values, SimpleStatecomponent.cpp:54-58; [i] is the loop
    variable, [todo] the number of remaining rounds. *)
Fixpoint initial_loop (values : ivec) (Delta_x : R) (convert : list R -> outcome (list R))
    (todo i current_index : nat) (v : list R) : outcome (list R) :=
  match todo with
  | O => Ok v
  | S todo' =>
      obind (interp_at values (INR i * Delta_x)%R) (fun row =>
      obind (convert row) (fun converted =>
      obind (assign_segment v current_index (iinner values) converted) (fun v' =>
      initial_loop values Delta_x convert todo' (S i) (current_index + iinner values) v')))
  end.
(** set_simple_initial_values, SimpleStatecomponent.cpp:31-59; [number_of_states] is component->get_number_of_states(). *)
Definition set_simple_initial_values (uninit : nat -> R) (start number_of_states : nat) (v : list R)
    (initial_json initial_schema : json) (number_of_points : nat) (Delta_x : R)
    (convert : list R -> outcome (list R)) : outcome (list R) :=
  obind (validate_json initial_json initial_schema) (fun _ =>
  obind (construct_from_json uninit initial_json initial_schema) (fun values =>
  if (number_of_states <? iinner values * number_of_points)%nat then Exc
  else initial_loop values Delta_x convert number_of_points 0 start v)).
(** The lambda of Pipe::set_initial_values, Pipe.cpp:239-251. *)
Definition pipe_transform (row : list R) : outcome (list R) :=
  match row with
  | [p_bar; q] =>
      let s := state_of (p_qvol_from_p_qvol_bar (v2 p_bar q)) in Ok [s 0%nat; s 1%nat]
  | _ => Exc
  end.
(** set_initial_values of the components: Pipe.cpp:231-256, Shortcomponent.cpp:76-81,
    Gaspowerconnection.cpp:139-144, Powernode.cpp:68-73; the default arguments of
    set_simple_initial_values are one point, Delta_x = 1.0 and the identity
    (SimpleStatecomponent.hpp:24-31). *)
Definition component_initial (uninit : nat -> R) (c : state_component) (v : list R) (j : json) : outcome (list R) :=
  obind (get_initial_schema (sc_kind c)) (fun schema =>
  let number := needed_number_of_states (sc_kind c) in
  match sc_kind c with
  | KPipe n dx => set_simple_initial_values uninit (sc_start c) number v j schema n dx pipe_transform
  | KShort => set_simple_initial_values uninit (sc_start c) number v j schema 2 1%R (fun row => Ok row)
  | _ => set_simple_initial_values uninit (sc_start c) number v j schema 1 1%R (fun row => Ok row)
  end).
(** Networkproblem::set_initial_values, Networkproblem.cpp:197-219; the calls are those of
    [distribute] in Json_Model.v. *)
Definition set_initial_values (uninit : nat -> R) (components : list state_component) (v : list R) (j : json) : outcome (list R) :=
  obind (distribute (map sc_id components) j) (fun calls =>
  ofold (fun v call => obind (get components (fst call)) (fun c => component_initial uninit c v (snd call))) calls v).

(** ** Results *)

Definition vec_of (state : list R) : vec := fun i => nth i state 0%R.
(** {"x": x, "value": v}. *)
Definition point_value (x v : R) : json := JObj [("value", JNum v); ("x", JNum x)].
(** The values pushed by json_save of the gas edges: Pipe.cpp:204-229, Shortcomponent.cpp:45-74,
    Gaspowerconnection.cpp:118-137.  For a pipe without points the keys would be missing. *)
Definition gas_entry (time : R) (rows : list (R * (R * R))) : json :=
  match rows with
  | [] => JObj [("time", JNum time)]
  | _ => JObj [("flow", JArr (map (fun r => point_value (fst r) (snd (snd r))) rows));
               ("pressure", JArr (map (fun r => point_value (fst r) (fst (snd r))) rows));
               ("time", JNum time)]
  end.
(** state.segment<2>(start) as a pair. *)
Definition pair_at (state : list R) (start : nat) : outcome (R * R) :=
  obind (get state start) (fun a => obind (get state (start + 1)) (fun b => Ok (a, b))).
Definition pipe_rows (start number_of_points : nat) (Delta_x : R) (state : list R) : outcome (list (R * (R * R))) :=
  omapM (fun i =>
    omap (fun current_state =>
      (INR i * Delta_x, (p_bar_from_p_pascal (p (fst current_state)), snd current_state))%R)
    (pair_at state (start + 2 * i))) (seq 0 number_of_points).
(** boundaryvalue(time)[i]. *)
Definition boundary_at (boundaryvalue : ivec) (time : R) (i : nat) : outcome R :=
  obind (interp_at boundaryvalue time) (fun row => get row i).
Definition power_fields (P_val Q_val V phi time : R) : list (string * json) :=
  [("P", JNum P_val); ("Q", JNum Q_val); ("V", JNum V); ("phi", JNum phi); ("time", JNum time)].
(** json_save_power, Powernode.cpp:117-130, and StochasticPQnode.cpp:150-168. *)
Definition power_entry (start : nat) (G B : R) (lines : list (R * R * option nat)) (values : power_values) (time : R) (state : list R)
  : outcome json :=
  let node := mkPower start G B lines in
  let state_values := pair_at state start in
  match values with
  | PQ_values b =>
      obind (boundary_at b time 0) (fun P_val => obind (boundary_at b time 1) (fun Q_val =>
      omap (fun s => JObj (power_fields P_val Q_val (fst s) (snd s) time)) state_values))
  | PV_values b =>
      obind (boundary_at b time 0) (fun P_val => obind (Q node (vec_of state)) (fun Q_val =>
      omap (fun s => JObj (power_fields P_val Q_val (fst s) (snd s) time)) state_values))
  | Vphi_values =>
      obind (P node (vec_of state)) (fun P_val => obind (Q node (vec_of state)) (fun Q_val =>
      omap (fun s => JObj (power_fields P_val Q_val (fst s) (snd s) time)) state_values))
  | Stochastic_values b P_val Q_val =>
      obind (boundary_at b time 0) (fun P_mean => obind (boundary_at b time 1) (fun Q_mean =>
      omap (fun s => JObj (set_field (set_field (power_fields P_val Q_val (fst s) (snd s) time)
                            "P_deviation" (JNum (P_val - P_mean))) "Q_deviation" (JNum (Q_val - Q_mean)))) state_values))
  end.
Definition saved_entry (c : state_component) (time : R) (state : list R) : outcome json :=
  match sc_kind c with
  | KPipe n dx => omap (gas_entry time) (pipe_rows (sc_start c) n dx state)
  | KShort =>
      obind (pair_at state (sc_start c)) (fun start_state =>
      omap (fun end_state => gas_entry time [(0%R, start_state); (1%R, end_state)]) (pair_at state (sc_start c + 4 - 2)))
  | KGaspower => omap (fun start_state => gas_entry time [(0%R, start_state)]) (pair_at state (sc_start c))
  | KPower G B lines values => power_entry (sc_start c) G B lines values time state
  end.

(** setup_output_json_helper, Statecomponent.cpp:22-26; the argument is component_output before:
    null, or an object with the seed (StochasticPQnode.cpp:74-75). *)
Definition setup_output (component_output : json) (id : string) : outcome json :=
  obind (assign component_output "id" (JStr id)) (fun j => assign j "data" (JArr [])).
(** output_json["data"].push_back(entry), the last line of each json_save. *)
Definition push_entry (component_output entry : json) : outcome json :=
  obind (at_mut component_output "data") (fun jd =>
  obind (push_back (snd jd) entry) (assign (fst jd) "data")).
(** A component with its member component_output. *)
Definition with_output := (state_component * json)%type.
Definition setup_components (comps : list with_output) : outcome (list with_output) :=
  omapM (fun c => omap (pair (fst c)) (setup_output (snd c) (sc_id (fst c)))) comps.
(** Networkproblem::json_save, Networkproblem.cpp:184-189. *)
Definition json_save (time : R) (state : list R) (comps : list with_output) : outcome (list with_output) :=
  omapM (fun c => obind (saved_entry (fst c) time state) (fun e => omap (pair (fst c)) (push_entry (snd c) e))) comps.
(** add_results_to_json: new_output[class][type].push_back(std::move(component_output)), Pipe.cpp:198-202,
    Shortcomponent.cpp:34-39 with Shortpipe.cpp:67-70, Compressorstation.cpp:129-132 and
    Controlvalve.cpp:119-122, Gaspowerconnection.cpp:112-116, Powernode.cpp:110-115. *)
Definition add_component (new_output : json) (c : with_output) : outcome json :=
  obind (at_mut new_output (sc_class (fst c))) (fun jc =>
  obind (at_mut (snd jc) (sc_type (fst c))) (fun jt =>
  obind (push_back (snd jt) (snd c)) (fun l =>
  obind (assign (fst jt) (sc_type (fst c)) l) (assign (fst jc) (sc_class (fst c)))))).
(** Networkproblem::add_results_to_json, Networkproblem.cpp:191-195; the moved-from members are
    null afterwards. *)
Definition add_results_to_json (comps : list with_output) (new_output : json) : outcome json :=
  ofold add_component comps new_output.
(** What grazer::run does with the states of all time points, src/Grazer/commands.cpp:122-133 and
    275-279, 305-308: one call of json_save per time point, then add_results_to_json. *)
Definition states_file (comps : list with_output) (saved_states : list (R * list R)) : outcome json :=
  obind (setup_components comps) (fun comps1 =>
  obind (ofold (fun cs ts => json_save (fst ts) (snd ts) cs) saved_states comps1) (fun comps2 =>
  add_results_to_json comps2 JNull)).
