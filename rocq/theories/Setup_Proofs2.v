(** * An optimization problem from its input files: the case of Input_Proofs5.v with a sink with a
    constraint and constraints at every second time *)
From Coq Require Import Reals ZArith Lra Lia List Bool Arith String.
From Verif Require Import Base Interp_Model Interp_Spec Interp_Proofs Interp_Props Json_Model Json_Spec Defaults_Model Controls_Model Controls_Spec Controls_Proofs Calc Euler_Model
  Newton_Model Evolve_Model Net_Model Net_Spec States_Model Factory_Model Seed_Model Bounds_Model Jac_Model Ctimes_Model Ctimes_Spec Iface_Model Iface_Spec Ctimes_Proofs Iface_Props
  Input_Model Input_Spec Input_Proofs3 Input_Proofs5 Setup_Model Setup_Spec.
Import ListNotations.
Local Open Scope string_scope.
Local Open Scope list_scope.

Definition opt_problem : json :=
  JObj [("constraint_settings", JObj [("evaluate_constraints_every_n", JNum 2)]); ("control_settings", JObj [("number_of_steps", JNum 2)]);
        ("problem_data", JObj [("boundary_json", JStr "boundary.json"); ("topology_json", JStr "topology.json")]); ("simulation_settings", small_settings)].
Definition opt_controls (y : R) : json :=
  JObj [("connections", JObj [("Compressorstation", JArr [small_table "c" y])]); ("nodes", JObj [])].
Definition opt_constraints (y : R) : json :=
  JObj [("connections", JObj []); ("nodes", JObj [("ConstraintSink", JArr [small_table "b" y])])].
Definition opt_files (path : string) : outcome json :=
  if String.eqb path "p/problem_data.json" then Ok opt_problem
  else if String.eqb path "p/topology.json" then
    Ok (JObj [("connections", JObj [("Compressorstation", JArr [JObj [("from", JStr "a"); ("id", JStr "c"); ("to", JStr "b")]])]);
              ("nodes", JObj [("ConstraintSink", JArr [JObj [("id", JStr "b")]]); ("Pressureboundarynode", JArr [JObj [("id", JStr "a")]])])])
  else if String.eqb path "p/boundary.json" then
    Ok (JObj [("connections", JObj []); ("nodes", JObj [("ConstraintSink", JArr [small_table "b" 3]); ("Pressureboundarynode", JArr [small_table "a" 50])])])
  else if String.eqb path "p/initial.json" then Ok small_initial
  else if String.eqb path "p/control.json" then Ok (opt_controls 10)
  else if String.eqb path "p/lower_bounds.json" then Ok (opt_controls 5)
  else if String.eqb path "p/upper_bounds.json" then Ok (opt_controls 20)
  else if String.eqb path "p/constraint_lower_bounds.json" then Ok (opt_constraints 40)
  else if String.eqb path "p/constraint_upper_bounds.json" then Ok (opt_constraints 70)
  else Exc.

Definition opt_nodes_json : list (string * json) :=
  [("ConstraintSink", JObj [("boundary_values", small_table "b" 3); ("id", JStr "b")]);
   ("Pressureboundarynode", JObj [("boundary_values", small_table "a" 50); ("id", JStr "a")])].
Definition opt_data : json := JObj [("GRAZER_file_directory", JStr "p"); ("boundary_json", JStr "boundary.json"); ("topology_json", JStr "topology.json")].
Lemma opt_net : build_net opt_files (JObj []) opt_data = Ok (opt_nodes_json, small_edges_json).
Proof. cbv -[Rleb Rltb Reqb INR IZR]. compare. reflexivity. Qed.
Definition opt_nodes : list made_node :=
  [mkMade "ConstraintSink" "b" (DFlow (mk_ivec [0; 2]%R 1 [- (3); - (3)]%R)); mkMade "Pressureboundarynode" "a" (DPressure (mk_ivec [0; 2]%R 1 [50; 50]%R))].
Definition opt_edges : list made_edge := [mkMadeEdge "Compressorstation" "c" (mkEdge 1 0 (ECompressor 1))].
Lemma opt_construct uninit : construct uninit (opt_nodes_json, small_edges_json) = Ok (opt_nodes, opt_edges).
Proof.
  cbv -[Rleb Rltb Reqb INR IZR Ropp]. compare. cbv -[Rleb Rltb Reqb INR IZR Ropp]. compare. reflexivity.
Qed.
Lemma opt_setup uninit y : set_initial_controls uninit small_controlled (mk_ivec [0; 2]%R 1 [uninit 0%nat; uninit 1%nat]) (opt_controls y) = Ok (mk_ivec [0; 2]%R 1 [y; y]).
Proof. cbv -[Rleb Rltb Reqb INR IZR interp_at]. compare. cbv -[Rleb Rltb Reqb INR IZR interp_at]. rewrite !small_interp by lra. reflexivity. Qed.
Definition opt_constrained : list constraint_component := [mkConstraint "b" 0 1].
Lemma opt_bounds uninit y : set_constraint_lower_bounds uninit opt_constrained (mk_ivec [2]%R 1 [uninit 0%nat]) (opt_constraints y) = Ok (mk_ivec [2]%R 1 [y]).
Proof. cbv -[Rleb Rltb Reqb INR IZR interp_at]. compare. cbv -[Rleb Rltb Reqb INR IZR interp_at]. rewrite !small_interp by lra. reflexivity. Qed.
Definition opt_prepared : prepared := mkPrepared small_solver opt_nodes opt_edges small_states 4 [0; 1; 2]%R [50; 3; 60; 3]%R (mk_ivec [0; 2]%R 1 [10; 10]%R).
Lemma opt_prepare uninit : prepare_run uninit opt_files "p" = Ok opt_prepared.
Proof.
  unfold prepare_run. change (opt_files ("p" ++ "/problem_data.json")) with (Ok opt_problem). cbn [obind].
  change (at_mut opt_problem "simulation_settings") with (Ok (opt_problem, small_settings)). cbn [obind fst snd].
  change (at_mut opt_problem "problem_data") with (Ok (opt_problem, JObj [("boundary_json", JStr "boundary.json"); ("topology_json", JStr "topology.json")])). cbn [obind fst snd].
  change (assign (JObj [("boundary_json", JStr "boundary.json"); ("topology_json", JStr "topology.json")]) "GRAZER_file_directory" (JStr "p")) with (Ok opt_data). cbn [obind].
  change (opt_files ("p" ++ "/initial.json")) with (Ok small_initial). cbn [obind].
  destruct small_time as [-> Et]. cbn [obind]. rewrite small_evolver. cbn [obind].
  change (value_or opt_data "defaults" (JObj [])) with (Ok (JObj [])).
  cbn [obind]. change (negb (is_object (JObj []))) with false. cbv iota. rewrite opt_net. cbn [obind]. rewrite opt_construct. cbn [obind].
  change (set_state_indices 0 (state_components_of opt_nodes opt_edges)) with (small_states, 4%nat).
  change (set_control_indices 0 (control_components_of opt_edges)) with (small_controlled, 1%nat). cbv iota.
  change (negb (setup_ok (network_of opt_nodes opt_edges))) with false. cbv iota. rewrite small_values. cbn [obind]. rewrite Et. cbn [obind].
  change (opt_files ("p" ++ "/control.json")) with (Ok (opt_controls 10)).
  unfold setup_controls. change (0 <? 1)%nat with true. cbv iota.
  change (control_points (mkTimedata 0 2 3) opt_problem) with (control_points (mkTimedata 0 2 3) small_problem). rewrite small_points. cbn [obind].
  change (map uninit (seq 0 (1 * List.length [0%R; 2%R]))) with [uninit 0%nat; uninit 1%nat]. rewrite opt_setup. reflexivity.
Qed.
Definition opt_init : init_values :=
  mk_init (mk_ivec [0; 2]%R 1 [10; 10]%R) (mk_ivec [0; 2]%R 1 [5; 5]%R) (mk_ivec [0; 2]%R 1 [20; 20]%R) (mk_ivec [2]%R 1 [40]%R) (mk_ivec [2]%R 1 [70]%R).
Lemma opt_ctor : exists o, optimizer_ctor 4 1 1 [0; 1; 2]%R [0; 2]%R [2]%R [50; 3; 60; 3]%R opt_init = Ok o.
Proof.
  apply C85_accepts. destruct case_fits as (_ & _ & _ & F). split; [reflexivity|]. split; [|split; [|exact F]].
  - exists [0; 2]%R. intros v [<-|[<-|[<-|[]]]]; split; reflexivity.
  - exists [2]%R. intros v [<-|[<-|[]]]; split; reflexivity.
Qed.
Lemma opt_every : constraints_every opt_problem = Ok 2%Z.
Proof.
  unfold constraints_every. change (contains opt_problem "constraint_settings") with true. cbv iota.
  change (at_const opt_problem "constraint_settings") with (Ok (JObj [("evaluate_constraints_every_n", JNum 2)])). cbn [obind].
  change (contains (JObj [("evaluate_constraints_every_n", JNum 2)]) "evaluate_constraints_every_n") with true. cbv iota.
  change (at_const (JObj [("evaluate_constraints_every_n", JNum 2)]) "evaluate_constraints_every_n") with (Ok (JNum 2)). cbn [obind].
  rewrite truncate_IZR. unfold Reqb. destruct (Req_EM_T 2 2) as [_|N]; [reflexivity|]. exfalso. apply N. reflexivity.
Qed.
Lemma opt_setup_problem uninit : exists o, prepare_optimization uninit opt_files "p" = Ok (opt_prepared, o) /\
  optimizer_ctor 4 1 1 [0; 1; 2]%R [0; 2]%R [2]%R [50; 3; 60; 3]%R opt_init = Ok o.
Proof.
  destruct opt_ctor as [o Ho]. exists o. split; [|exact Ho]. unfold prepare_optimization. rewrite opt_prepare. cbn [obind].
  change (opt_files ("p" ++ "/problem_data.json")) with (Ok opt_problem). cbn [obind]. rewrite opt_every. cbn [obind].
  change (select_constraint_times (pp_points opt_prepared) 2) with (Ok [2%R]). cbn [obind].
  change (opt_files ("p" ++ "/lower_bounds.json")) with (Ok (opt_controls 5)). change (opt_files ("p" ++ "/upper_bounds.json")) with (Ok (opt_controls 20)).
  change (opt_files ("p" ++ "/constraint_lower_bounds.json")) with (Ok (opt_constraints 40)). change (opt_files ("p" ++ "/constraint_upper_bounds.json")) with (Ok (opt_constraints 70)).
  cbn [obind]. change (set_control_indices 0 (control_components_of (pp_edges opt_prepared))) with (small_controlled, 1%nat).
  change (set_constraint_indices 0 (constraint_components_of (pp_nodes opt_prepared))) with (opt_constrained, 1%nat). cbv iota zeta.
  change (ipoints (pp_controls opt_prepared)) with [0; 2]%R. unfold new_vector.
  rewrite (is_sorted_increasing [0; 2]%R) by (repeat constructor; lra). rewrite (is_sorted_increasing [2]%R) by (repeat constructor). cbn [obind].
  change (map uninit (seq 0 (1 * List.length [0%R; 2%R]))) with [uninit 0%nat; uninit 1%nat]. change (map uninit (seq 0 (1 * List.length [2%R]))) with [uninit 0%nat].
  unfold initialize_bounds. rewrite !opt_setup. cbn [obind]. change set_constraint_upper_bounds with set_constraint_lower_bounds. rewrite !opt_bounds. cbn [obind].
  change (optimizer_ctor (pp_number opt_prepared) 1 1 (pp_points opt_prepared) [0%R; 2%R] [2%R] (pp_initial opt_prepared) _)
    with (optimizer_ctor 4 1 1 [0; 1; 2]%R [0; 2]%R [2]%R [50; 3; 60; 3]%R opt_init). rewrite Ho. reflexivity.
Qed.
Definition opt_network : network := network_of opt_nodes opt_edges.
Lemma opt_complete y z : controls_complete small_edges_json opt_network (opt_controls y) [0; 2]%R /\
  constraints_complete opt_nodes_json (opt_constraints z) [2]%R.
Proof.
  split.
  - split.
    { eexists. split; [reflexivity|]. split; intros v E; cbn in E; injection E as <-.
      - exists []. split; [reflexivity|]. split; [constructor|]. intros t w [].
      - eexists. split; [reflexivity|]. split; [repeat constructor; cbn; tauto|]. intros t w [E|[]]. injection E as <- <-. eexists. split; [reflexivity|].
        intros c [<-|[]]. eexists. eexists. split; reflexivity. }
    split; [repeat constructor; cbn; tauto|]. split; [repeat constructor; cbn; tauto|]. split; [discriminate|]. split; [repeat constructor; lra|].
    intros i entry e E1 E2 _. destruct i as [|[|i]]; [|discriminate|discriminate]. injection E1 as <-. exists [(0, [y]); (2, [y])]%R.
    split; [left; reflexivity|]. split; [repeat constructor; cbn; lra|]. split; [discriminate|]. split; [intros tr [<-|[<-|[]]]; reflexivity|].
    intros t It. exists 0%R, 2%R. split; [reflexivity|]. split; [reflexivity|]. unfold Interp_Spec.tolerance. destruct It as [<-|[<-|[]]]; lra.
  - split.
    { eexists. split; [reflexivity|]. split; intros v E; cbn in E; injection E as <-.
      - eexists. split; [reflexivity|]. split; [repeat constructor; cbn; tauto|]. intros t w [E|[]]. injection E as <- <-. eexists. split; [reflexivity|].
        intros c [<-|[]]. eexists. eexists. split; reflexivity.
      - exists []. split; [reflexivity|]. split; [constructor|]. intros t w []. }
    split; [repeat constructor; cbn; tauto|]. split; [repeat constructor; cbn; intuition discriminate|].
    intros entry [<-|[]]. exists [(0, [z]); (2, [z])]%R.
    split; [left; reflexivity|]. split; [repeat constructor; cbn; lra|]. split; [discriminate|]. split; [intros tr [<-|[<-|[]]]; reflexivity|].
    intros t It. exists 0%R, 2%R. split; [reflexivity|]. split; [reflexivity|]. unfold Interp_Spec.tolerance. destruct It as [<-|[]]; lra.
Qed.
