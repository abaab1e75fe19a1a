(** * Specification: simulations with stochastic power nodes *)
From Coq Require Import Reals ZArith List Arith String.
From Verif Require Import Base Interp_Model Interp_Spec Json_Model Json_Spec Controls_Model Controls_Spec Calc Euler_Model
  Net_Model Net_Spec States_Model States_Spec Sim_Spec Input_Spec.
Import ListNotations.
Local Open Scope string_scope.
Local Open Scope list_scope.

Definition stochastic_type : string := "StochasticPQnode".
(** With the mean values for the power a stochastic node is a PQnode. *)
Definition mean_entry (entry : string * json) : string * json :=
  (if String.eqb (fst entry) stochastic_type then "PQnode" else fst entry, snd entry).
(** The mean values of an entry, whose boundary values may have more keys, for instance a seed:
    the piecewise linear functions through the rows. *)
Definition means_given (data : json) (b : boundary) : Prop :=
  forall fs rows, entry_of data "boundary_values" = Some (JObj fs) ->
    field fs "data" = Some (JArr (map (row_entry "time") rows)) -> rows <> [] -> increasing (map fst rows) ->
    (forall tr, In tr rows -> List.length (snd tr) = 2%nat) /\
    forall t,
      (covered Interp_Spec.tolerance (map fst rows) t ->
         exists v, b t = Ok v /\ forall k, (k < 2)%nat -> at_place rows k t (v k)) /\
      (~ covered Interp_Spec.tolerance (map fst rows) t -> b t = Exc).

(** The parameters of one process: of the active or of the reactive power. *)
Record process := mkProcess { stability : R; cut_off : R; theta : R; sigma : R; steps : Z }.
Definition describes_process (data : json) (theta_key sigma_key : string) (p : process) : Prop :=
  number_entry data "stability_parameter" (stability p) /\ number_entry data "cut_off_factor" (cut_off p) /\
  number_entry data theta_key (theta p) /\ number_entry data sigma_key (sigma p) /\
  (forall x, number_entry data "number_of_stochastic_steps" x -> int_entry data "number_of_stochastic_steps" (steps p)).
(** [w] is the number nearest to [v] that differs from the mean by no more than the given part
    of the mean.  (For the mean zero nothing is cut off.) *)
Definition cut_to (c mean v w : R) : Prop :=
  (mean = 0 -> w = v)%R /\
  (mean <> 0 -> 0 <= c -> Rabs (w - mean) <= c * Rabs mean /\
     forall z, Rabs (z - mean) <= c * Rabs mean -> Rabs (v - w) <= Rabs (v - z))%R.
(** [v] is the end of a path of the process over a time [dt], with as many steps as needed for
    stability; it starts at [last] and uses the samples number [k], ..., [k' - 1]. *)
Definition path_end (p : process) (sample : nat -> R -> R -> R) (k k' : nat) (last mean dt v : R) : Prop :=
  exists n h path,
    k' = (k + n)%nat /\ (0 <= steps p <= Z.of_nat n)%Z /\ (0 < stability p < 2)%R /\ (0 <= theta p)%R /\
    ((0 < n)%nat -> h * INR n = dt /\ theta p * h < stability p)%R /\
    (n = 0%nat -> steps p = 0%Z /\ ~ (0 < theta p /\ 0 < dt))%R /\
    ((steps p < Z.of_nat n)%Z -> (0 < steps p)%Z -> (stability p <= theta p * (dt / IZR (steps p)))%R) /\
    path 0%nat = last /\ path n = v /\
    forall i, (i < n)%nat ->
      cut_to (cut_off p) mean (path i + theta p * (mean - path i) * h + sigma p * sample (k + i)%nat 0 (sqrt h)) (path (S i)).

(** A step of a stochastic node: the powers [PQ], drawn from the powers [last] of the last state,
    with means [mean]; first the active, then the reactive power. *)
Definition powers_drawn (data : json) (sample : nat -> R -> R -> R) (k k' : nat) (last mean : R * R) (dt : R) (PQ : R * R) : Prop :=
  exists pP pQ middle, describes_process data "theta_P" "sigma_P" pP /\ describes_process data "theta_Q" "sigma_Q" pQ /\
    path_end pP sample k middle (fst last) (fst mean) dt (fst PQ) /\
    path_end pQ sample middle k' (snd last) (snd mean) dt (snd PQ).

(** The network with these powers instead of the mean values at the stochastic nodes. *)
Definition with_powers (entries : list (string * json)) (powers : nat -> R * R) (N : network) : network :=
  mkNet (map (fun jet => match jet with
                         | (j, (entry, Powernode k external G B b)) =>
                             if String.eqb (fst entry) stochastic_type
                             then Powernode k external G B (fun _ => Ok (v2 (fst (powers j)) (snd (powers j))))
                             else Powernode k external G B b
                         | (_, (_, t)) => t
                         end) (combine (seq 0 (List.length entries)) (combine entries (Net_Model.nodes N))))
        (Net_Model.edges N).

(** What the file contains: the edges and the other nodes as in [state_reported] ... *)
Definition edges_reported (edges : list (string * json)) (N : network) (out : json) (k : nat) (time : R) (x : vec) : Prop :=
  forall i entry e r, nth_error edges i = Some entry -> nth_error (Net_Model.edges N) i = Some e ->
    edge_result N i (e_type e) time x = Some r -> result_of out "connections" (fst entry) (id (snd entry)) k r.
Definition nodes_reported (nodes : list (string * json)) (N : network) (out : json) (k : nat) (time : R) (x : vec) : Prop :=
  forall j entry t, nth_error nodes j = Some entry -> nth_error (Net_Model.nodes N) j = Some t -> fst entry <> stochastic_type ->
    is_power_node N j -> exists r, result_of out "nodes" (fst entry) (id (snd entry)) k r /\ node_result N j t time x r.
(** ... and voltage, angle, powers and their deviations from the mean of a stochastic node. *)
Definition stochastic_reported (nodes : list (string * json)) (N : network) (out : json) (k : nat) (time : R) (x : vec)
    (powers : nat -> R * R) : Prop :=
  forall j entry kd external G B b, nth_error nodes j = Some entry -> fst entry = stochastic_type ->
    nth_error (Net_Model.nodes N) j = Some (Powernode kd external G B b) ->
    exists r v, result_of out "nodes" stochastic_type (id (snd entry)) k r /\ b time = Ok v /\
      reports r "time" time /\ reports r "V" (x (fst (node_block N j))) /\ reports r "phi" (x (fst (node_block N j) + 1)%nat) /\
      reports r "P" (fst (powers j)) /\ reports r "Q" (snd (powers j)) /\
      reports r "P_deviation" (fst (powers j) - v 0%nat) /\ reports r "Q_deviation" (snd (powers j) - v 1%nat).
Definition noisy_with_states (type : string) : bool := (node_with_states type || String.eqb type stochastic_type)%bool.

(** A seed in a json file, and the one that an entry gives. *)
Definition seed_json (seed : list Z) : json := JArr (map (fun z => JNum (IZR z)) seed).
Definition seed_given (data : json) : option json :=
  match entry_of data "boundary_values" with Some (JObj fs) => field fs "seed" | _ => None end.
(** The seed that the file reports for the stochastic node with this id. *)
Definition seed_reported (out : json) (x : string) (seed : json) : Prop :=
  exists r, In r (of_type out "nodes" stochastic_type) /\ entry_of r "id" = Some (JStr x) /\ entry_of r "seed" = Some seed.
(** The entry has this seed, and else is the same. *)
Definition reseeded (entry : string * json) (seed : json) (entry' : string * json) : Prop :=
  fst entry' = fst entry /\
  (forall k, k <> "boundary_values" -> entry_of (snd entry') k = entry_of (snd entry) k) /\
  exists fs fs', entry_of (snd entry) "boundary_values" = Some (JObj fs) /\ entry_of (snd entry') "boundary_values" = Some (JObj fs') /\
    fs' = set_field fs "seed" seed.
