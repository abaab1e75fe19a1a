(** * An optimization whose printed violation does not belong to its solution: the problem of
    Setup_Proofs2.v with a smaller upper bound of the constraint *)
From Coq Require Import Reals ZArith Lra Lia List Bool Arith String.
From Verif Require Import Base Interp_Model Interp_Spec Interp_Proofs Interp_Props Json_Model Json_Spec Defaults_Model Controls_Model Controls_Spec Controls_Proofs Calc Euler_Model
  Newton_Model Evolve_Model Net_Model Net_Spec States_Model Factory_Model Seed_Model Bounds_Model Jac_Model Ctimes_Model Ctimes_Spec Iface_Model Iface_Spec Ctimes_Proofs Iface_Props
  Input_Model Input_Spec Input_Proofs3 Input_Proofs5 Setup_Model Setup_Spec Setup_Proofs2.
Import ListNotations.
Local Open Scope string_scope.
Local Open Scope list_scope.

Definition tight_files (path : string) : outcome json :=
  if String.eqb path "p/constraint_upper_bounds.json" then Ok (opt_constraints 65) else opt_files path.
Lemma tight_net : build_net tight_files (JObj []) opt_data = Ok (opt_nodes_json, small_edges_json).
Proof. cbv -[Rleb Rltb Reqb INR IZR]. compare. reflexivity. Qed.
Lemma tight_prepare uninit : prepare_run uninit tight_files "p" = Ok opt_prepared.
Proof.
  unfold prepare_run. change (tight_files ("p" ++ "/problem_data.json")) with (Ok opt_problem). cbn [obind].
  change (at_mut opt_problem "simulation_settings") with (Ok (opt_problem, small_settings)). cbn [obind fst snd].
  change (at_mut opt_problem "problem_data") with (Ok (opt_problem, JObj [("boundary_json", JStr "boundary.json"); ("topology_json", JStr "topology.json")])). cbn [obind fst snd].
  change (assign (JObj [("boundary_json", JStr "boundary.json"); ("topology_json", JStr "topology.json")]) "GRAZER_file_directory" (JStr "p")) with (Ok opt_data). cbn [obind].
  change (tight_files ("p" ++ "/initial.json")) with (Ok small_initial). cbn [obind].
  destruct small_time as [-> Et]. cbn [obind]. rewrite small_evolver. cbn [obind].
  change (value_or opt_data "defaults" (JObj [])) with (Ok (JObj [])).
  cbn [obind]. change (negb (is_object (JObj []))) with false. cbv iota. rewrite tight_net. cbn [obind]. rewrite opt_construct. cbn [obind].
  change (set_state_indices 0 (state_components_of opt_nodes opt_edges)) with (small_states, 4%nat).
  change (set_control_indices 0 (control_components_of opt_edges)) with (small_controlled, 1%nat). cbv iota.
  change (negb (setup_ok (network_of opt_nodes opt_edges))) with false. cbv iota. rewrite small_values. cbn [obind]. rewrite Et. cbn [obind].
  change (tight_files ("p" ++ "/control.json")) with (Ok (opt_controls 10)).
  unfold setup_controls. change (0 <? 1)%nat with true. cbv iota.
  change (control_points (mkTimedata 0 2 3) opt_problem) with (control_points (mkTimedata 0 2 3) small_problem). rewrite small_points. cbn [obind].
  change (map uninit (seq 0 (1 * List.length [0%R; 2%R]))) with [uninit 0%nat; uninit 1%nat]. rewrite opt_setup. reflexivity.
Qed.
Definition tight_init : init_values :=
  mk_init (mk_ivec [0; 2]%R 1 [10; 10]%R) (mk_ivec [0; 2]%R 1 [5; 5]%R) (mk_ivec [0; 2]%R 1 [20; 20]%R) (mk_ivec [2]%R 1 [40]%R) (mk_ivec [2]%R 1 [65]%R).
Lemma tight_ctor : exists o, optimizer_ctor 4 1 1 [0; 1; 2]%R [0; 2]%R [2]%R [50; 3; 60; 3]%R tight_init = Ok o.
Proof.
  apply C85_accepts. destruct case_fits as (_ & _ & _ & F). split; [reflexivity|]. split; [|split; [|exact F]].
  - exists [0; 2]%R. intros v [<-|[<-|[<-|[]]]]; split; reflexivity.
  - exists [2]%R. intros v [<-|[<-|[]]]; split; reflexivity.
Qed.
Lemma tight_setup_problem uninit : exists o, prepare_optimization uninit tight_files "p" = Ok (opt_prepared, o) /\
  optimizer_ctor 4 1 1 [0; 1; 2]%R [0; 2]%R [2]%R [50; 3; 60; 3]%R tight_init = Ok o.
Proof.
  destruct tight_ctor as [o Ho]. exists o. split; [|exact Ho]. unfold prepare_optimization. rewrite tight_prepare. cbn [obind].
  change (tight_files ("p" ++ "/problem_data.json")) with (Ok opt_problem). cbn [obind]. rewrite opt_every. cbn [obind].
  change (select_constraint_times (pp_points opt_prepared) 2) with (Ok [2%R]). cbn [obind].
  change (tight_files ("p" ++ "/lower_bounds.json")) with (Ok (opt_controls 5)). change (tight_files ("p" ++ "/upper_bounds.json")) with (Ok (opt_controls 20)).
  change (tight_files ("p" ++ "/constraint_lower_bounds.json")) with (Ok (opt_constraints 40)). change (tight_files ("p" ++ "/constraint_upper_bounds.json")) with (Ok (opt_constraints 65)).
  cbn [obind]. change (set_control_indices 0 (control_components_of (pp_edges opt_prepared))) with (small_controlled, 1%nat).
  change (set_constraint_indices 0 (constraint_components_of (pp_nodes opt_prepared))) with (opt_constrained, 1%nat). cbv iota zeta.
  change (ipoints (pp_controls opt_prepared)) with [0; 2]%R. unfold new_vector.
  rewrite (is_sorted_increasing [0; 2]%R) by (repeat constructor; lra). rewrite (is_sorted_increasing [2]%R) by (repeat constructor). cbn [obind].
  change (map uninit (seq 0 (1 * List.length [0%R; 2%R]))) with [uninit 0%nat; uninit 1%nat]. change (map uninit (seq 0 (1 * List.length [2%R]))) with [uninit 0%nat].
  unfold initialize_bounds. rewrite !opt_setup. cbn [obind]. change set_constraint_upper_bounds with set_constraint_lower_bounds. rewrite !opt_bounds. cbn [obind].
  change (optimizer_ctor (pp_number opt_prepared) 1 1 (pp_points opt_prepared) [0%R; 2%R] [2%R] (pp_initial opt_prepared) _)
    with (optimizer_ctor 4 1 1 [0; 1; 2]%R [0; 2]%R [2]%R [50; 3; 60; 3]%R tight_init). rewrite Ho. reflexivity.
Qed.
