(** * Properties of simulations from their input files: C94, C95, C96 *)
From Coq Require Import Reals ZArith Lra Lia List Bool Arith String.
From Verif Require Import Base Interp_Model Interp_Spec Interp_Proofs Json_Model Json_Spec Json_Proofs Json_Proofs2 Defaults_Model Defaults_Spec Controls_Model Controls_Spec Controls_Proofs
  Calc Euler_Model Euler_Spec Newton_Model Evolve_Model Evolve_Spec Net_Model Net_Spec States_Model States_Spec Factory_Model Factory_Spec Factory_Proofs8 Factory_Props2 Sim_Model Sim_Spec Sim_Props
  Input_Model Input_Spec Input_Proofs Input_Proofs2 Input_Proofs3 Input_Proofs4 Input_Proofs5.
From Verif Require Units_Model Units_Spec Units_Props.
Import ListNotations.
Local Open Scope string_scope.
Local Open Scope list_scope.

(** ** C94: the input files become the network, the settings and the time grid they describe *)

(** From entries to objects: ids and types are kept, and the network is the described one. *)
Theorem C94_network : forall uninit ns es nodes edges, construct uninit (ns, es) = Ok (nodes, edges) ->
  describes_network ns es (network_of nodes edges) /\
  map (fun m => (mn_type m, mn_id m)) nodes = map (fun entry => (fst entry, id (snd entry))) ns /\
  map (fun m => (me_type m, me_id m)) edges = map (fun entry => (fst entry, id (snd entry))) es.
Proof.
  intros uninit ns es nodes edges H. split; [apply (construct_describes _ _ _ _ _ H)|].
  destruct (construct_ids _ _ _ _ _ H) as [A B]. split; symmetry; assumption.
Qed.
Print Assumptions C94_network.
Example C94_network_case : forall uninit, construct uninit (small_nodes_json, small_edges_json) = Ok (small_nodes, small_edges).
Proof. exact small_construct. Qed.

(** The whole preparation of a run.  The entries are those of the topology file and the boundary
    file with the defaults of problem_data.json (C80, C38). *)
Theorem C94_files : forall uninit read directory p, prepare_run uninit read directory = Ok p ->
  exists all settings problem ns es,
    read (directory ++ "/problem_data.json")%string = Ok all /\ entry_of all "simulation_settings" = Some settings /\
    problem_of all directory problem /\
    (usable_defaults (the_defaults (Some all)) -> canonical (the_defaults (Some all)) -> exists topology boundary full,
       content read problem "topology_json" topology /\ content read problem "boundary_json" boundary /\
       build_full_networkproblem_json topology boundary = Ok full /\
       forall fn fc, proper full -> entry_of full "nodes" = Some (JObj fn) -> entry_of full "connections" = Some (JObj fc) ->
         lists_of_objects fn -> lists_of_objects fc ->
         built (the_defaults (Some all)) "nodes" fn ns /\ built (the_defaults (Some all)) "connections" fc es) /\
    describes_network ns es (network_of (pp_nodes p) (pp_edges p)) /\
    solver_of settings (pp_settings p) /\ times_of settings (pp_points p).
Proof.
  intros uninit read directory p H.
  destruct (prepare_inv _ _ _ _ H) as (all & settings & problem & ns & es & t & initial & controls & nc & A & B & C & D & E & F & G & I & J & K & _).
  exists all, settings, problem, ns, es. split; [exact A|]. split; [exact B|]. split; [exact C|]. split; [|split; [|split]].
  - intros U Cd. apply (C80_net _ _ _ _ _ U Cd D).
  - apply (construct_describes _ _ _ _ _ E).
  - apply (timeevolver_of _ _ K).
  - apply (points_grid _ _ _ I J).
Qed.
Print Assumptions C94_files.
Example C94_files_case : forall uninit, prepare_run uninit small_files "p" = Ok small_prepared.
Proof. exact small_prepare. Qed.

(** The balance law that the entry of a pipe names makes no difference: any text is accepted. *)
Theorem C94_balancelaw_ignored : forall nodes fs law,
  make_edge nodes ("Pipe", JObj (set_field fs "balancelaw" law)) = make_edge nodes ("Pipe", JObj fs).
Proof.
  intros nodes fs law. assert (Q : forall k, k <> "balancelaw" -> at_const (JObj (set_field fs "balancelaw" law)) k = at_const (JObj fs) k).
  { intros k N. cbn [at_const]. rewrite field_set. destruct (String.eqb_spec "balancelaw" k); [congruence|reflexivity]. }
  unfold make_edge, id_of, edge_ends, node_named, edge_ctor, pipe_ctor, length_at, number_at. cbn [fst snd]. rewrite !Q by discriminate. reflexivity.
Qed.
Print Assumptions C94_balancelaw_ignored.
Definition odd_pipe : json :=
  JObj [("balancelaw", JStr "no such law"); ("desired_delta_x", JNum 1); ("diameter", Units_Spec.measurement "m" 1); ("from", JStr "a"); ("id", JStr "q");
        ("length", Units_Spec.measurement "m" 2); ("roughness", Units_Spec.measurement "m" 0); ("scheme", JStr "Implicitboxscheme"); ("to", JStr "b")].
Theorem C94_balancelaw_refuted : exists nodes t data e,
  In t edge_types /\ ct_name t = "Pipe" /\ entry_of data "balancelaw" = Some (JStr "no such law") /\
  make_instance t (JObj []) data = Ok data /\ make_edge nodes ("Pipe", data) = Ok e.
Proof.
  assert (U : forall v, Units_Model.parse_to_si Units_Model.length_units (Units_Spec.measurement "m" v) = Ok v).
  { intro v. apply (Units_Props.plain_si Units_Model.length_units "m" 0 2 v v); [left; reflexivity|]. cbn. split; [reflexivity|]. split; [reflexivity|]. ring. }
  exists small_nodes, (mkType "Pipe" pipe_schema None None (Some (make_initial_schema None 2 [0%R]))), odd_pipe, (mkMadeEdge "Pipe" "q" (mkEdge 0 1 (EPipe 1 0 (2 / IZR (3 - 1)) 3))).
  split; [cbn; tauto|]. split; [reflexivity|]. split; [reflexivity|]. split.
  - cbv -[Rleb Rltb Reqb INR IZR]. compare. reflexivity.
  - unfold make_edge. cbn [fst snd]. change (id_of odd_pipe) with (Ok "q"). cbn [obind].
    change (edge_ends small_nodes odd_pipe) with (Ok (0, 1)%nat). cbn [obind fst snd].
    change (edge_ctor "Pipe" odd_pipe) with (pipe_ctor odd_pipe). unfold pipe_ctor, length_at, number_at.
    change (at_const odd_pipe "length") with (Ok (Units_Spec.measurement "m" 2)).
    change (at_const odd_pipe "diameter") with (Ok (Units_Spec.measurement "m" 1)).
    change (at_const odd_pipe "roughness") with (Ok (Units_Spec.measurement "m" 0)).
    change (at_const odd_pipe "desired_delta_x") with (Ok (JNum 1)).
    change (at_const odd_pipe "scheme") with (Ok (JStr "Implicitboxscheme")). cbn [obind get_double]. rewrite !U. cbn [obind].
    unfold pipe_number_of_points. replace (Reqb 1 0) with false by (symmetry; unfold Reqb; destruct (Req_EM_T 1 0); [lra|reflexivity]).
    rewrite (Rceil_unique _ 2) by lra. reflexivity.
Qed.
Print Assumptions C94_balancelaw_refuted.

(** ** C95: the states file of a finished simulation *)

(** Whatever the linear solver does and whatever uninitialised memory contains: the file reports,
    for the described network and the time grid of the settings, the initial values and then
    states that satisfy the equations of the network within the tolerance of the settings, with
    the controls of control.json. *)
Theorem C95_simulation : forall LU (factor : unit -> R -> R -> vec -> list R -> vec -> option LU) linsolve fuel sfuel uninit read directory out,
  run_simulation factor linsolve fuel sfuel uninit read directory = Some (Ok out) ->
  exists all settings problem ns es N cfg points initial,
    read (directory ++ "/problem_data.json")%string = Ok all /\ entry_of all "simulation_settings" = Some settings /\
    problem_of all directory problem /\ build_net read (the_defaults (Some all)) problem = Ok (ns, es) /\
    describes_network ns es N /\ solver_of settings cfg /\ times_of settings points /\
    read (directory ++ "/initial.json")%string = Ok initial /\
    results_listed "nodes" node_with_states ns out /\ results_listed "connections" edge_with_states es out /\
    (well_formed N -> pipes_ok N -> (forall t, In t points -> boundary_defined N t) ->
     (0 <= maximal_iterations (newton cfg))%Z -> (tolerance (newton cfg) < 1000000)%R ->
     exists states, List.length states = List.length points /\
       (initial_complete ns es N initial -> forall x, nth_error states 0 = Some x -> initial_state_given ns es N initial x) /\
       (forall k t x, nth_error points k = Some t -> nth_error states k = Some x -> state_reported ns es N out k t x) /\
       forall k t0 t1 u v, nth_error points k = Some t0 -> nth_error points (S k) = Some t1 ->
         nth_error states k = Some u -> nth_error states (S k) = Some v ->
         exists c, network_equations_within N (tolerance (newton cfg)) t0 t1 u v c /\
           ((0 < number_of_controls N)%nat -> exists control control_points,
              read (directory ++ "/control.json")%string = Ok control /\ control_times_of all settings control_points /\
              (controls_complete es N control control_points -> controls_given es N control control_points t1 c))).
Proof.
  intros LU factor linsolve fuel sfuel uninit read directory out H. unfold run_simulation in H.
  destruct (prepare_run uninit read directory) as [p| |] eqn:Ep; try discriminate.
  destruct (prepare_inv _ _ _ _ Ep) as (all & settings & problem & ns & es & t & initial & comps & nc & A & B & C & D & E & F & G & I & J & K & L & M & O & Q).
  destruct (simulate_inv _ _ _ _ _ _ H) as (rows & e' & Sim & Out).
  exists all, settings, problem, ns, es, (network_of (pp_nodes p) (pp_edges p)), (pp_settings p), (pp_points p), initial.
  split; [exact A|]. split; [exact B|]. split; [exact C|]. split; [exact D|]. split; [apply (construct_describes _ _ _ _ _ E)|].
  split; [apply (timeevolver_of _ _ K)|]. split; [apply (points_grid _ _ _ I J)|]. split; [exact L|].
  destruct (all_listed _ _ _ _ _ _ _ _ _ E F Out) as [L1 L2]. split; [exact L1|]. split; [exact L2|].
  intros W Pk Bd Mi Tol. destruct (components_placed _ _ _ _ F) as (En & _ & _).
  destruct (C90_simulation unit LU (pp_number p) (fun _ => network_of (pp_nodes p) (pp_edges p)) (fun e _ _ _ _ => Ok e) factor linsolve fuel sfuel
    (pp_settings p) (pp_controls p) (pp_points p) (States_Model.vec_of (pp_initial p)) tt rows e') as (S1 & S2 & S3); auto.
  exists rows. split; [exact S1|]. split; [|split].
  - intros Ic x Ex. pose proof (eq_trans (eq_sym S2) Ex) as Ey. injection Ey as <-. apply (run_initial _ _ _ _ _ _ _ _ _ E F M Ic).
  - intros k t' x Et Ex. apply (all_reported _ _ _ _ _ _ _ _ _ _ _ _ _ E F W Out Et Ex).
  - intros k t0 t1 u v H0 H1 H2 H3. destruct (S3 k t0 t1 u v H0 H1 H2 H3) as (c & _ & _ & Hc & _ & Eq). exists (control_vector c). split; [exact Eq|].
    intro Pos. destruct (run_controls _ _ _ _ _ _ _ _ _ _ _ E O Q) as [R1 R2]. destruct (R2 Pos) as (cpoints & cj & R3 & R4 & R5).
    exists cj, cpoints. split; [exact R4|]. split; [apply (control_grid _ _ _ _ I R3)|]. intro Cc. apply (R5 Cc).
    destruct Hc as [[Z _]|[_ Hc]]; [rewrite R1 in Z; lia|exact Hc].
Qed.
Print Assumptions C95_simulation.

(** Every simulation ends: there is a bound on the work that depends on the settings only. *)
Theorem C95_terminates : forall LU (factor : unit -> R -> R -> vec -> list R -> vec -> option LU) linsolve uninit read directory,
  exists bound, forall sfuel, (bound <= sfuel)%nat -> run_simulation factor linsolve 1075 sfuel uninit read directory <> None.
Proof.
  intros LU factor linsolve uninit read directory. unfold run_simulation.
  destruct (prepare_run uninit read directory) as [p| |]; [|exists 0%nat; discriminate|exists 0%nat; discriminate].
  exists (Z.to_nat (attempt_bound (use_simplified_newton (pp_settings p)) (retries (pp_settings p)))). intros sfuel Hs. unfold simulate_prepared. cbv zeta.
  pose proof (C90_terminates unit LU (pp_number p) (fun _ => network_of (pp_nodes p) (pp_edges p)) (fun e _ _ _ _ => Ok e) factor linsolve sfuel
    (pp_settings p) (pp_controls p) (pp_points p) (States_Model.vec_of (pp_initial p)) tt ltac:(lia)) as T.
  destruct (fst _) as [[rows| |]|]; [discriminate|discriminate|discriminate|congruence].
Qed.
Print Assumptions C95_terminates.

(** A compressor between a node with pressure 50 and a sink of 3: all hypotheses hold. *)
Lemma small_complete : controls_complete small_edges_json small_network small_control [0; 2]%R /\
  initial_complete small_nodes_json small_edges_json small_network small_initial.
Proof.
  assert (Good : forall a x rows, good_file (JObj [("connections", JObj [("Compressorstation", JArr [document a x rows])]); ("nodes", JObj [])])).
  { intros a x rows. eexists. split; [reflexivity|]. split; intros v E; cbn in E; injection E as <-.
    - exists []. split; [reflexivity|]. split; [constructor|]. intros t w [].
    - eexists. split; [reflexivity|]. split; [repeat constructor; cbn; tauto|]. intros t w [E|[]]. injection E as <- <-. eexists. split; [reflexivity|].
      intros c [<-|[]]. exists x. eexists. split; reflexivity. }
  split.
  - split; [apply Good|]. split; [repeat constructor; cbn; tauto|]. split; [repeat constructor; cbn; tauto|]. split; [discriminate|]. split; [repeat constructor; lra|].
    intros i entry e E1 E2 _. destruct i as [|[|i]]; [|discriminate|discriminate]. injection E1 as <-. exists [(0, [10]); (2, [10])]%R.
    split; [left; reflexivity|]. split; [repeat constructor; cbn; lra|]. split; [discriminate|]. split; [intros tr [<-|[<-|[]]]; reflexivity|].
    intros t It. exists 0%R, 2%R. split; [reflexivity|]. split; [reflexivity|]. unfold Interp_Spec.tolerance. destruct It as [<-|[<-|[]]]; lra.
  - split; [apply Good|]. split; [repeat constructor; cbn; tauto|]. split; [repeat constructor; cbn; intuition discriminate|]. split.
    + intros i entry e k E1 E2 K. destruct i as [|[|i]]; [|discriminate|discriminate]. injection E1 as <-. injection E2 as <-. injection K as <-.
      exists [(0, [50; 3]); (1, [60; 3])]%R. split; [left; reflexivity|]. split; [|split].
      * split; [intros tr [<-|[<-|[]]]; reflexivity|]. split; [intros n E; cbn in E; injection E as <-; reflexivity|]. intros a I. exact I.
      * repeat constructor; cbn; lra.
      * intros t It. exists 0%R, 1%R. split; [reflexivity|]. split; [reflexivity|]. unfold Interp_Spec.tolerance. destruct It as [<-|[<-|[]]]; lra.
    + intros i entry t k E1 E2 K. destruct i as [|[|[|i]]]; try discriminate; injection E2 as <-; discriminate K.
Qed.
Example C95_case :
  (forall LU (factor : unit -> R -> R -> vec -> list R -> vec -> option LU) linsolve fuel uninit,
     run_simulation factor linsolve fuel 1 uninit small_files "p" = Some (Ok small_output)) /\
  well_formed small_network /\ pipes_ok small_network /\ (forall t, In t [0; 1; 2]%R -> boundary_defined small_network t) /\
  number_of_controls small_network = 1%nat /\
  controls_complete small_edges_json small_network small_control [0; 2]%R /\
  initial_complete small_nodes_json small_edges_json small_network small_initial.
Proof.
  split; [exact small_simulation|]. split; [|split; [|split; [|split; [reflexivity|exact small_complete]]]].
  - unfold well_formed. cbn. repeat constructor; cbn; auto; discriminate.
  - unfold pipes_ok. cbn. repeat constructor.
  - intros t It j. assert (T : (0 <= t <= 2)%R) by (destruct It as [<-|[<-|[<-|[]]]]; lra).
    destruct j as [|[|j]]; cbn [small_network network_of small_nodes nodes map nodetype_of mn_data nth_error].
    + unfold Input_Model.boundary_of. rewrite small_interp by lra. eexists. reflexivity.
    + unfold Input_Model.boundary_of. rewrite small_interp by lra. eexists. reflexivity.
    + destruct j; exact Logic.I.
Qed.

(** ** C96: controls and initial values of a run *)

(** The initial state has the values of initial.json at the places where the equations expect them. *)
Theorem C96_initial : forall uninit read directory p, prepare_run uninit read directory = Ok p ->
  exists all settings problem ns es initial,
    read (directory ++ "/problem_data.json")%string = Ok all /\ entry_of all "simulation_settings" = Some settings /\
    problem_of all directory problem /\ build_net read (the_defaults (Some all)) problem = Ok (ns, es) /\
    read (directory ++ "/initial.json")%string = Ok initial /\
    let N := network_of (pp_nodes p) (pp_edges p) in
    describes_network ns es N /\
    (initial_complete ns es N initial -> initial_state_given ns es N initial (States_Model.vec_of (pp_initial p))).
Proof.
  intros uninit read directory p H.
  destruct (prepare_inv _ _ _ _ H) as (all & settings & problem & ns & es & t & initial & comps & nc & A & B & C & D & E & F & G & I & J & K & L & M & O & Q).
  exists all, settings, problem, ns, es, initial. repeat (split; [assumption|]). split; [apply (construct_describes _ _ _ _ _ E)|].
  intro Ic. apply (run_initial _ _ _ _ _ _ _ _ _ E F M Ic).
Qed.
Print Assumptions C96_initial.

(** The controls at a time are those of control.json, first at the points of time of the controls,
    then between them. *)
Theorem C96_controls : forall uninit read directory p, prepare_run uninit read directory = Ok p ->
  let N := network_of (pp_nodes p) (pp_edges p) in
  iinner (pp_controls p) = number_of_controls N /\
  ((0 < number_of_controls N)%nat -> exists all settings problem ns es control points,
    read (directory ++ "/problem_data.json")%string = Ok all /\ entry_of all "simulation_settings" = Some settings /\
    problem_of all directory problem /\ build_net read (the_defaults (Some all)) problem = Ok (ns, es) /\ describes_network ns es N /\
    read (directory ++ "/control.json")%string = Ok control /\ control_times_of all settings points /\
    (controls_complete es N control points ->
       forall t c, interp_at (pp_controls p) t = Ok c -> controls_given es N control points t (control_vector c))).
Proof.
  cbv zeta. intros uninit read directory p H.
  destruct (prepare_inv _ _ _ _ H) as (all & settings & problem & ns & es & t & initial & comps & nc & A & B & C & D & E & F & G & I & J & K & L & M & O & Q).
  destruct (run_controls _ _ _ _ _ _ _ _ _ _ _ E O Q) as [R1 R2]. split; [exact R1|]. intro Pos. destruct (R2 Pos) as (cpoints & cj & R3 & R4 & R5).
  exists all, settings, problem, ns, es, cj, cpoints. repeat (split; [assumption|]). split; [apply (construct_describes _ _ _ _ _ E)|].
  split; [exact R4|]. split; [apply (control_grid _ _ _ _ I R3)|exact R5].
Qed.
Print Assumptions C96_controls.
Example C96_case : forall uninit, prepare_run uninit small_files "p" = Ok small_prepared /\
  controls_complete small_edges_json small_network small_control [0; 2]%R /\
  initial_complete small_nodes_json small_edges_json small_network small_initial.
Proof. intro uninit. split; [apply small_prepare|exact small_complete]. Qed.

(** "number_of_steps" is not a number of steps: with 2 there is one step, and 1 is not usable. *)
Theorem C96_number_of_steps_refuted : exists all c settings t points,
  entry_of all "control_settings" = Some c /\ entry_of all "simulation_settings" = Some settings /\ timedata_ctor settings = Ok t /\
  int_entry c "number_of_steps" 2 /\ control_points t all = Ok points /\ ~ equidistant_grid (starttime t) (endtime t) 2 points.
Proof.
  exists small_problem, (JObj [("number_of_steps", JNum 2)]), small_settings, (mkTimedata 0 2 3), [0; 2]%R.
  split; [reflexivity|]. split; [reflexivity|]. split; [exact (proj1 small_time)|]. split.
  - exists 2%R. split; [reflexivity|]. split; intro; lra.
  - split; [exact small_points|]. intros [L _]. discriminate L.
Qed.
Print Assumptions C96_number_of_steps_refuted.
Theorem C96_one_step_refuted : exists all c settings t,
  entry_of all "control_settings" = Some c /\ entry_of all "simulation_settings" = Some settings /\ timedata_ctor settings = Ok t /\
  int_entry c "number_of_steps" 1 /\ control_points t all = UB.
Proof.
  exists (JObj [("control_settings", JObj [("number_of_steps", JNum 1)]); ("simulation_settings", small_settings)]),
    (JObj [("number_of_steps", JNum 1)]), small_settings, (mkTimedata 0 2 3).
  split; [reflexivity|]. split; [reflexivity|]. split; [exact (proj1 small_time)|]. split.
  - exists 1%R. split; [reflexivity|]. split; intro; lra.
  - unfold control_points. cbn [contains field String.eqb Ascii.eqb Bool.eqb at_const obind andb]. unfold int_at. cbn [at_const field String.eqb Ascii.eqb Bool.eqb obind get_int].
    rewrite truncate_IZR. cbn [andb Z.leb Z.ltb Z.compare Z.opp Z.pow Z.pow_pos Pos.iter Z.mul Pos.mul Pos.compare Pos.compare_cont obind starttime endtime].
    unfold make_from_start_number_end. compare. reflexivity.
Qed.
Print Assumptions C96_one_step_refuted.
