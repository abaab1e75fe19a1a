(** * Runs from input files that describe impossible loads or pressures (C111, C112) *)
From Coq Require Import Reals ZArith Lra Lia List Bool Arith String.
From Coquelicot Require Import Complex.
From Verif Require Import Base Interp_Model Interp_Spec Interp_Proofs Json_Model Json_Spec Defaults_Model Controls_Model Controls_Spec
  Calc Euler_Model Euler_Spec Newton_Model Evolve_Model Net_Model Net_Spec States_Model Factory_Model Bounds_Model Sim_Model Sim_Spec Sim_Props
  Input_Model Input_Spec Input_Proofs Input_Proofs2 Input_Proofs3 Input_Proofs5 Input_Props Level_Spec Load_Spec Load_Props Walk_Spec Walk_Props.
Import ListNotations.
Local Open Scope string_scope.
Local Open Scope list_scope.

Definition file_time (points : list R) (t : R) : Prop := exists i, nth_error points (S i) = Some t.

(** If a node of the network of the files is overloaded at a time of the grid after the first, the run delivers no states
    file, whatever the linear solver does. *)
Theorem C111_files : forall LU (factor : unit -> R -> R -> vec -> list R -> vec -> option LU) linsolve fuel sfuel uninit read directory p t j out,
  prepare_run uninit read directory = Ok p ->
  let N := network_of (pp_nodes p) (pp_edges p) in
  let tol := tolerance (newton (pp_settings p)) in
  well_formed N -> pipes_ok N -> (forall t, In t (pp_points p) -> boundary_defined N t) ->
  (0 <= maximal_iterations (newton (pp_settings p)))%Z -> (0 <= tol < 1000000)%R ->
  file_time (pp_points p) t -> overloaded N tol t j ->
  run_simulation factor linsolve fuel sfuel uninit read directory <> Some (Ok out).
Proof.
  intros LU factor linsolve fuel sfuel uninit read directory p t j out Ep N tol W HP HB Hm Ht (i & Hi) O H.
  unfold run_simulation in H. rewrite Ep in H. destruct (simulate_inv _ _ _ _ _ _ H) as (rows & e' & Sim & _).
  destruct (prepare_inv _ _ _ _ Ep) as (all & settings & problem & ns & es & t' & initial & comps & nc & _ & _ & _ & _ & _ & F & _).
  destruct (components_placed _ _ _ _ F) as (En & _ & _).
  destruct (nth_error (pp_points p) i) as [t0|] eqn:E0.
  - apply (C111_simulation unit LU (pp_number p) (fun _ => N) (fun e _ _ _ _ => Ok e) factor linsolve fuel sfuel (pp_settings p) (pp_controls p) (pp_points p)
      (States_Model.vec_of (pp_initial p)) tt rows e' i t0 t); auto. intros _. exists j. exact O.
  - apply nth_error_None in E0. assert (S i < List.length (pp_points p))%nat by (apply nth_error_Some; congruence). lia.
Qed.
Print Assumptions C111_files.

(** The same for controls that do not fit the pressures. *)
Theorem C112_files : forall LU (factor : unit -> R -> R -> vec -> list R -> vec -> option LU) linsolve fuel sfuel uninit read directory p t out,
  prepare_run uninit read directory = Ok p ->
  let N := network_of (pp_nodes p) (pp_edges p) in
  let tol := tolerance (newton (pp_settings p)) in
  well_formed N -> pipes_ok N -> (forall t, In t (pp_points p) -> boundary_defined N t) ->
  (0 <= maximal_iterations (newton (pp_settings p)))%Z -> (0 <= tol < 1000000)%R ->
  file_time (pp_points p) t ->
  (forall c, (iinner (pp_controls p) = 0%nat /\ c = [] \/ (0 < iinner (pp_controls p))%nat /\ interp_at (pp_controls p) t = Ok c) ->
     misfit N tol t (control_vector c)) ->
  run_simulation factor linsolve fuel sfuel uninit read directory <> Some (Ok out).
Proof.
  intros LU factor linsolve fuel sfuel uninit read directory p t out Ep N tol W HP HB Hm Ht (i & Hi) O H.
  unfold run_simulation in H. rewrite Ep in H. destruct (simulate_inv _ _ _ _ _ _ H) as (rows & e' & Sim & _).
  destruct (prepare_inv _ _ _ _ Ep) as (all & settings & problem & ns & es & t' & initial & comps & nc & _ & _ & _ & _ & _ & F & _).
  destruct (components_placed _ _ _ _ F) as (En & _ & _).
  destruct (nth_error (pp_points p) i) as [t0|] eqn:E0.
  - apply (C112_simulation unit LU (pp_number p) (fun _ => N) (fun e _ _ _ _ => Ok e) factor linsolve fuel sfuel (pp_settings p) (pp_controls p) (pp_points p)
      (States_Model.vec_of (pp_initial p)) tt rows e' i t0 t); auto.
  - apply nth_error_None in E0. assert (S i < List.length (pp_points p))%nat by (apply nth_error_Some; congruence). lia.
Qed.
Print Assumptions C112_files.

(** Case: a compressor with control 10 between nodes with given pressures 50 and 70. *)
Definition tight_files (path : string) : outcome json :=
  if String.eqb path "p/problem_data.json" then Ok small_problem
  else if String.eqb path "p/topology.json" then
    Ok (JObj [("connections", JObj [("Compressorstation", JArr [JObj [("from", JStr "a"); ("id", JStr "c"); ("to", JStr "b")]])]);
              ("nodes", JObj [("Pressureboundarynode", JArr [JObj [("id", JStr "a")]; JObj [("id", JStr "b")]])])])
  else if String.eqb path "p/boundary.json" then
    Ok (JObj [("connections", JObj []); ("nodes", JObj [("Pressureboundarynode", JArr [small_table "a" 50; small_table "b" 70])])])
  else if String.eqb path "p/initial.json" then Ok small_initial
  else if String.eqb path "p/control.json" then Ok small_control
  else Exc.
Definition tight_nodes_json : list (string * json) :=
  [("Pressureboundarynode", JObj [("boundary_values", small_table "a" 50); ("id", JStr "a")]);
   ("Pressureboundarynode", JObj [("boundary_values", small_table "b" 70); ("id", JStr "b")])].
Lemma tight_net : build_net tight_files (JObj [])
    (JObj [("GRAZER_file_directory", JStr "p"); ("boundary_json", JStr "boundary.json"); ("topology_json", JStr "topology.json")])
  = Ok (tight_nodes_json, small_edges_json).
Proof. cbv -[Rleb Rltb Reqb INR IZR]. compare. reflexivity. Qed.
Definition tight_nodes : list made_node :=
  [mkMade "Pressureboundarynode" "a" (DPressure (mk_ivec [0; 2]%R 1 [50; 50]%R)); mkMade "Pressureboundarynode" "b" (DPressure (mk_ivec [0; 2]%R 1 [70; 70]%R))].
Lemma tight_construct uninit : construct uninit (tight_nodes_json, small_edges_json) = Ok (tight_nodes, small_edges).
Proof.
  cbv -[Rleb Rltb Reqb INR IZR Ropp]. compare. cbv -[Rleb Rltb Reqb INR IZR Ropp]. compare. reflexivity.
Qed.
Definition tight_prepared : prepared := mkPrepared small_solver tight_nodes small_edges small_states 4 [0; 1; 2]%R [50; 3; 60; 3]%R (mk_ivec [0; 2]%R 1 [10; 10]%R).
Lemma tight_prepare uninit : prepare_run uninit tight_files "p" = Ok tight_prepared.
Proof.
  unfold prepare_run. change (tight_files ("p" ++ "/problem_data.json")) with (Ok small_problem). cbn [obind].
  change (at_mut small_problem "simulation_settings") with (Ok (small_problem, small_settings)). cbn [obind fst snd].
  change (at_mut small_problem "problem_data") with (Ok (small_problem, JObj [("boundary_json", JStr "boundary.json"); ("topology_json", JStr "topology.json")])). cbn [obind fst snd].
  change (assign (JObj [("boundary_json", JStr "boundary.json"); ("topology_json", JStr "topology.json")]) "GRAZER_file_directory" (JStr "p"))
    with (Ok (JObj [("GRAZER_file_directory", JStr "p"); ("boundary_json", JStr "boundary.json"); ("topology_json", JStr "topology.json")])). cbn [obind].
  change (tight_files ("p" ++ "/initial.json")) with (Ok small_initial). cbn [obind].
  destruct small_time as [-> Et]. cbn [obind]. rewrite small_evolver. cbn [obind].
  change (value_or (JObj [("GRAZER_file_directory", JStr "p"); ("boundary_json", JStr "boundary.json"); ("topology_json", JStr "topology.json")]) "defaults" (JObj [])) with (Ok (JObj [])).
  cbn [obind]. change (negb (is_object (JObj []))) with false. cbv iota. rewrite tight_net. cbn [obind]. rewrite tight_construct. cbn [obind].
  change (set_state_indices 0 (state_components_of tight_nodes small_edges)) with (small_states, 4%nat).
  change (set_control_indices 0 (control_components_of small_edges)) with (small_controlled, 1%nat). cbv iota.
  change (negb (setup_ok (network_of tight_nodes small_edges))) with false. cbv iota. rewrite small_values. cbn [obind]. rewrite Et. cbn [obind].
  change (tight_files ("p" ++ "/control.json")) with (Ok small_control). rewrite small_setup. reflexivity.
Qed.
Example C112_files_case : forall uninit,
  prepare_run uninit tight_files "p" = Ok tight_prepared /\
  (forall LU (factor : unit -> R -> R -> vec -> list R -> vec -> option LU) linsolve fuel sfuel out,
     run_simulation factor linsolve fuel sfuel uninit tight_files "p" <> Some (Ok out)).
Proof.
  intro uninit. split; [apply tight_prepare|]. intros LU factor linsolve fuel sfuel out.
  apply (C112_files LU factor linsolve fuel sfuel uninit tight_files "p" tight_prepared 1%R out (tight_prepare uninit)).
  - repeat constructor; cbn; auto; discriminate.
  - repeat constructor.
  - intros t It j. assert (T : (0 <= t <= 2)%R) by (destruct It as [<-|[<-|[<-|[]]]]; lra).
    destruct j as [|[|j]]; cbn [tight_prepared pp_nodes pp_edges network_of tight_nodes nodes map nodetype_of mn_data nth_error].
    + unfold Input_Model.boundary_of. rewrite small_interp by lra. eexists. reflexivity.
    + unfold Input_Model.boundary_of. rewrite small_interp by lra. eexists. reflexivity.
    + destruct j; exact Logic.I.
  - cbn. lia.
  - cbn. lra.
  - exists 0%nat. reflexivity.
  - intros c [(Z & _)|(_ & Hc)]; [discriminate|]. cbn [tight_prepared pp_controls] in Hc. rewrite small_interp in Hc by lra. injection Hc as <-.
    exists 0%nat, [mkStep 0 (mkEdge 0 1 (ECompressor 1)) true], 1%nat. split; [cbn; auto|]. right.
    eexists _, _, _, _. split; [discriminate|]. split; [reflexivity|]. split; [reflexivity|].
    unfold Input_Model.boundary_of. rewrite !small_interp by lra. split; [reflexivity|]. split; [reflexivity|].
    unfold slack, joint, rise, gain. cbn.
    rewrite Rabs_pos_eq by lra. lra.
Qed.

(** Case: a load of 1 at the end of a line of admittance 1 from a node with voltage 1 (see C111_case). *)
Definition pair_table (x : string) (a b : R) : json := document "time" x [(0, [a; b]); (2, [a; b])]%R.
Definition heavy_initial : json :=
  JObj [("connections", JObj []);
        ("nodes", JObj [("PQnode", JArr [document "x" "b" [(0, [1; 0])]%R]); ("Vphinode", JArr [document "x" "a" [(0, [1; 0])]%R])])].
Definition heavy_files (path : string) : outcome json :=
  if String.eqb path "p/problem_data.json" then Ok small_problem
  else if String.eqb path "p/topology.json" then
    Ok (JObj [("connections", JObj [("Transmissionline", JArr [JObj [("B", JNum 0); ("G", JNum (-1)); ("from", JStr "a"); ("id", JStr "c"); ("to", JStr "b")]])]);
              ("nodes", JObj [("PQnode", JArr [JObj [("B", JNum 0); ("G", JNum 1); ("id", JStr "b")]]); ("Vphinode", JArr [JObj [("B", JNum 0); ("G", JNum 1); ("id", JStr "a")]])])])
  else if String.eqb path "p/boundary.json" then
    Ok (JObj [("connections", JObj []); ("nodes", JObj [("PQnode", JArr [pair_table "b" (-1) 0]); ("Vphinode", JArr [pair_table "a" 1 0])])])
  else if String.eqb path "p/initial.json" then Ok heavy_initial
  else Exc.
Definition heavy_nodes_json : list (string * json) :=
  [("PQnode", JObj [("B", JNum 0); ("G", JNum 1); ("boundary_values", pair_table "b" (-1) 0); ("id", JStr "b")]);
   ("Vphinode", JObj [("B", JNum 0); ("G", JNum 1); ("boundary_values", pair_table "a" 1 0); ("id", JStr "a")])].
Definition heavy_edges_json : list (string * json) :=
  [("Transmissionline", JObj [("B", JNum 0); ("G", JNum (-1)); ("from", JStr "a"); ("id", JStr "c"); ("to", JStr "b")])].
Lemma heavy_net : build_net heavy_files (JObj [])
    (JObj [("GRAZER_file_directory", JStr "p"); ("boundary_json", JStr "boundary.json"); ("topology_json", JStr "topology.json")])
  = Ok (heavy_nodes_json, heavy_edges_json).
Proof. cbv -[Rleb Rltb Reqb INR IZR]. compare. reflexivity. Qed.
Definition heavy_nodes : list made_node :=
  [mkMade "PQnode" "b" (DPower PQ false 1 0 (mk_ivec [0; 2]%R 2 [-1; 0; -1; 0]%R)); mkMade "Vphinode" "a" (DPower Vphi false 1 0 (mk_ivec [0; 2]%R 2 [1; 0; 1; 0]%R))].
Definition heavy_edges : list made_edge := [mkMadeEdge "Transmissionline" "c" (mkEdge 1 0 (ELine (-1) 0))].
Lemma heavy_construct uninit : construct uninit (heavy_nodes_json, heavy_edges_json) = Ok (heavy_nodes, heavy_edges).
Proof.
  cbv -[Rleb Rltb Reqb INR IZR Ropp]. compare. cbv -[Rleb Rltb Reqb INR IZR Ropp]. compare. reflexivity.
Qed.
Definition heavy_states : list state_component := fst (set_state_indices 0 (state_components_of heavy_nodes heavy_edges)).
Lemma heavy_point a b t : t = 0%R -> interp_at (mk_ivec [0]%R 2 [a; b]) t = Ok [a; b].
Proof. intros ->. cbv -[Rleb Rltb Reqb IZR EPSILON Rplus Rminus Rmult Rdiv]. pose proof EPSILON_pos. compare. reflexivity. Qed.
Lemma heavy_values uninit : set_initial_values uninit heavy_states (map uninit (seq 0 4)) heavy_initial = Ok [1; 0; 1; 0]%R.
Proof.
  cbv -[Rleb Rltb Reqb INR IZR interp_at]. compare. cbv -[Rleb Rltb Reqb INR IZR interp_at].
  rewrite !heavy_point by (simpl; lra). reflexivity.
Qed.
Definition heavy_prepared : prepared := mkPrepared small_solver heavy_nodes heavy_edges heavy_states 4 [0; 1; 2]%R [1; 0; 1; 0]%R no_controls.
Lemma heavy_prepare uninit : prepare_run uninit heavy_files "p" = Ok heavy_prepared.
Proof.
  unfold prepare_run. change (heavy_files ("p" ++ "/problem_data.json")) with (Ok small_problem). cbn [obind].
  change (at_mut small_problem "simulation_settings") with (Ok (small_problem, small_settings)). cbn [obind fst snd].
  change (at_mut small_problem "problem_data") with (Ok (small_problem, JObj [("boundary_json", JStr "boundary.json"); ("topology_json", JStr "topology.json")])). cbn [obind fst snd].
  change (assign (JObj [("boundary_json", JStr "boundary.json"); ("topology_json", JStr "topology.json")]) "GRAZER_file_directory" (JStr "p"))
    with (Ok (JObj [("GRAZER_file_directory", JStr "p"); ("boundary_json", JStr "boundary.json"); ("topology_json", JStr "topology.json")])). cbn [obind].
  change (heavy_files ("p" ++ "/initial.json")) with (Ok heavy_initial). cbn [obind].
  destruct small_time as [-> Et]. cbn [obind]. rewrite small_evolver. cbn [obind].
  change (value_or (JObj [("GRAZER_file_directory", JStr "p"); ("boundary_json", JStr "boundary.json"); ("topology_json", JStr "topology.json")]) "defaults" (JObj [])) with (Ok (JObj [])).
  cbn [obind]. change (negb (is_object (JObj []))) with false. cbv iota. rewrite heavy_net. cbn [obind]. rewrite heavy_construct. cbn [obind].
  change (set_state_indices 0 (state_components_of heavy_nodes heavy_edges)) with (heavy_states, 4%nat).
  change (set_control_indices 0 (control_components_of heavy_edges)) with (@nil control_component, 0%nat). cbv iota.
  change (negb (setup_ok (network_of heavy_nodes heavy_edges))) with false. cbv iota. rewrite heavy_values. cbn [obind]. rewrite Et. reflexivity.
Qed.
Lemma heavy_interp a b t : (0 <= t <= 2)%R -> interp_at (mk_ivec [0; 2]%R 2 [a; b; a; b]) t = Ok [a; b].
Proof.
  intro Ht. apply (constant_table [0; 2]%R 2 [a; b] t); [repeat constructor; lra|discriminate|reflexivity|].
  exists 0%R, 2%R. split; [reflexivity|]. split; [reflexivity|]. unfold Interp_Spec.tolerance. lra.
Qed.
Example C111_files_case : forall uninit,
  prepare_run uninit heavy_files "p" = Ok heavy_prepared /\
  (forall LU (factor : unit -> R -> R -> vec -> list R -> vec -> option LU) linsolve fuel sfuel out,
     run_simulation factor linsolve fuel sfuel uninit heavy_files "p" <> Some (Ok out)).
Proof.
  intro uninit. split; [apply heavy_prepare|]. intros LU factor linsolve fuel sfuel out.
  apply (C111_files LU factor linsolve fuel sfuel uninit heavy_files "p" heavy_prepared 1%R 0 out (heavy_prepare uninit)).
  - repeat constructor; cbn; auto; discriminate.
  - repeat constructor.
  - intros t It j. assert (T : (0 <= t <= 2)%R) by (destruct It as [<-|[<-|[<-|[]]]]; lra).
    destruct j as [|[|j]]; cbn [heavy_prepared pp_nodes pp_edges network_of heavy_nodes nodes map nodetype_of mn_data nth_error].
    + unfold Input_Model.boundary_of. rewrite heavy_interp by lra. eexists. reflexivity.
    + unfold Input_Model.boundary_of. rewrite heavy_interp by lra. eexists. reflexivity.
    + destruct j; exact Logic.I.
  - cbn. lia.
  - cbn. lra.
  - exists 0%nat. reflexivity.
  - eexists _, _, _, _, _, (fun _ => 1%R). split; [reflexivity|]. split; [unfold Input_Model.boundary_of; rewrite heavy_interp by lra; reflexivity|]. split.
    + intros e g b [<-|[]] _. split; intro E; [discriminate|]. exists 1%R. split; [|rewrite Rabs_R1; lra].
      unfold given_voltage. cbn [heavy_prepared pp_nodes pp_edges network_of heavy_nodes nodes map nodetype_of mn_data nth_error me_edge heavy_edges e_from].
      unfold Input_Model.boundary_of. rewrite heavy_interp by lra. reflexivity.
    + unfold line_reach. cbn. change (-1, 0)%R with (RtoC (-1)). rewrite mod_real by lra. rewrite Cmod_R, Rabs_left by lra. lra.
Qed.
