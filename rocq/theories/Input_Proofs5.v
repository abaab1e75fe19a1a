(** * A simulation from its input files: a compressor with control 10 between a node with
    pressure 50 and a sink of 3 *)
From Coq Require Import Reals ZArith Lra Lia List Bool Arith String FunctionalExtensionality.
From Verif Require Import Base Interp_Model Interp_Spec Interp_Proofs Interp_Props Json_Model Json_Spec Defaults_Model Controls_Model Controls_Spec Controls_Proofs Calc Euler_Model
  Newton_Model Evolve_Model Net_Model Net_Spec States_Model Factory_Model Seed_Model Sim_Model Sim_Proofs3 Bounds_Model Input_Model Input_Spec Input_Proofs3.
Import ListNotations.
Local Open Scope string_scope.
Local Open Scope list_scope.

Definition small_table (x : string) (y : R) : json := document "time" x [(0, [y]); (2, [y])]%R.
Definition small_settings : json :=
  JObj [("desired_delta_t", JNum 1); ("end_time", JNum 2); ("maximal_number_of_newton_iterations", JNum 10); ("retries", JNum 0);
        ("start_time", JNum 0); ("tolerance", JNum (1 / 100)); ("use_simplified_newton", JBool true)].
Definition small_problem : json :=
  JObj [("control_settings", JObj [("number_of_steps", JNum 2)]);
        ("problem_data", JObj [("boundary_json", JStr "boundary.json"); ("topology_json", JStr "topology.json")]); ("simulation_settings", small_settings)].
Definition small_initial : json :=
  JObj [("connections", JObj [("Compressorstation", JArr [document "x" "c" [(0, [50; 3]); (1, [60; 3])]%R])]); ("nodes", JObj [])].
Definition small_control : json :=
  JObj [("connections", JObj [("Compressorstation", JArr [small_table "c" 10])]); ("nodes", JObj [])].
Definition small_files (path : string) : outcome json :=
  if String.eqb path "p/problem_data.json" then Ok small_problem
  else if String.eqb path "p/topology.json" then
    Ok (JObj [("connections", JObj [("Compressorstation", JArr [JObj [("from", JStr "a"); ("id", JStr "c"); ("to", JStr "b")]])]);
              ("nodes", JObj [("Pressureboundarynode", JArr [JObj [("id", JStr "a")]]); ("Sink", JArr [JObj [("id", JStr "b")]])])])
  else if String.eqb path "p/boundary.json" then
    Ok (JObj [("connections", JObj []); ("nodes", JObj [("Pressureboundarynode", JArr [small_table "a" 50]); ("Sink", JArr [small_table "b" 3])])])
  else if String.eqb path "p/initial.json" then Ok small_initial
  else if String.eqb path "p/control.json" then Ok small_control
  else Exc.

Ltac compare := repeat match goal with
  | |- context [Rleb ?a ?b] => first [ replace (Rleb a b) with true by (symmetry; apply Rleb_true; simpl; lra)
                                     | replace (Rleb a b) with false by (symmetry; apply not_true_is_false; rewrite Rleb_true; simpl; lra) ]
  | |- context [Rltb ?a ?b] => first [ replace (Rltb a b) with true by (symmetry; apply Rltb_true; simpl; lra)
                                     | replace (Rltb a b) with false by (symmetry; apply Rltb_false; simpl; lra) ]
  end.
Definition small_nodes_json : list (string * json) :=
  [("Pressureboundarynode", JObj [("boundary_values", small_table "a" 50); ("id", JStr "a")]);
   ("Sink", JObj [("boundary_values", small_table "b" 3); ("id", JStr "b")])].
Definition small_edges_json : list (string * json) := [("Compressorstation", JObj [("from", JStr "a"); ("id", JStr "c"); ("to", JStr "b")])].
Lemma small_net : build_net small_files (JObj [])
    (JObj [("GRAZER_file_directory", JStr "p"); ("boundary_json", JStr "boundary.json"); ("topology_json", JStr "topology.json")])
  = Ok (small_nodes_json, small_edges_json).
Proof. cbv -[Rleb Rltb Reqb INR IZR]. compare. reflexivity. Qed.

Definition small_nodes : list made_node :=
  [mkMade "Pressureboundarynode" "a" (DPressure (mk_ivec [0; 2]%R 1 [50; 50]%R)); mkMade "Sink" "b" (DFlow (mk_ivec [0; 2]%R 1 [- (3); - (3)]%R))].
Definition small_edges : list made_edge := [mkMadeEdge "Compressorstation" "c" (mkEdge 0 1 (ECompressor 1))].
Lemma small_construct uninit : construct uninit (small_nodes_json, small_edges_json) = Ok (small_nodes, small_edges).
Proof.
  cbv -[Rleb Rltb Reqb INR IZR Ropp]. compare. cbv -[Rleb Rltb Reqb INR IZR Ropp]. compare. reflexivity.
Qed.
Lemma truncate_IZR n : truncate (IZR n) = n.
Proof.
  destruct (truncate_spec (IZR n)) as [A B]. destruct (Rle_lt_dec 0 (IZR n)) as [H|H].
  - specialize (A H). apply Z.le_antisymm; [apply le_IZR; lra|]. apply Z.lt_succ_r. apply lt_IZR. rewrite succ_IZR. lra.
  - specialize (B H). apply Z.le_antisymm; [|apply le_IZR; lra]. apply Z.lt_succ_r. apply lt_IZR. rewrite succ_IZR. lra.
Qed.
Definition small_solver : tsettings := {| newton := {| tolerance := 1 / 100; maximal_iterations := 10 |}; retries := 0; use_simplified_newton := true |}.
Lemma small_evolver : timeevolver_ctor small_settings = Ok small_solver.
Proof.
  cbv -[Rleb Rltb Reqb INR IZR truncate Rdiv Z.leb Z.ltb]. rewrite !truncate_IZR. reflexivity.
Qed.
Lemma small_time : timedata_ctor small_settings = Ok (mkTimedata 0 2 3) /\ points_of (mkTimedata 0 2 3) = Ok [0; 1; 2]%R.
Proof.
  split.
  - cbv -[Reqb Rceil Rdiv Rminus IZR Z.add]. replace (Reqb 1 0) with false by (symmetry; unfold Reqb; destruct (Req_EM_T 1 0); [lra|reflexivity]).
    rewrite (Rceil_unique _ 2) by lra. reflexivity.
  - unfold points_of, get_delta_t. cbn [starttime endtime timesteps]. unfold timedata_delta.
    change (3 =? 1)%Z with false. cbv iota.
    cbn [make_from_start_xdelta_end]. unfold make_from_start_delta_end. replace (IZR (3 - 1)) with 2%R by (f_equal; lia). compare.
    rewrite (Rceil_unique _ 2) by lra. change (Z.to_nat (2 + 1)) with 3%nat. cbn. apply (f_equal Ok). repeat (apply f_equal2; [lra|]). reflexivity.
Qed.
Lemma constant_table pts n row t : increasing pts -> pts <> [] -> (List.length row = n) -> covered Interp_Spec.tolerance pts t ->
  interp_at (mk_ivec pts n (List.concat (map (fun _ => row) pts))) t = Ok row.
Proof.
  intros Inc Ne L Cv.
  assert (E : forall i k, (i < List.length pts)%nat -> (k < n)%nat -> Interp_Spec.entry (List.concat (map (fun _ => row) pts)) n i k = nth k row 0%R).
  { subst n. clear. unfold Interp_Spec.entry. induction pts as [|p pts IH]; intros i k Hi Hk; [cbn in Hi; lia|]. cbn [map List.concat].
    destruct i as [|i]; [apply app_nth1; exact Hk|]. rewrite app_nth2 by lia. cbn [List.length] in Hi. rewrite <- (IH i k ltac:(lia) Hk). f_equal. lia. }
  assert (T : table_of pts n (List.concat (map (fun _ => row) pts))).
  { subst n. clear. unfold table_of. induction pts as [|p pts IH]; [reflexivity|]. cbn [map List.concat List.length]. rewrite app_length. lia. }
  destruct (C01_interpolation (mk_ivec pts n (List.concat (map (fun _ => row) pts))) t Inc Ne T) as [A _]. cbn [ipoints iinner ivalues] in A.
  destruct (A Cv) as (row' & Q & Lr & K). rewrite Q. f_equal. apply nth_ext with 0%R 0%R; [congruence|]. intros k Hk.
  destruct (K k ltac:(lia)) as [_ B]. specialize (B (nth k row 0%R) (nth k row 0%R)).
  assert (nth k row 0 <= nth k row' 0 <= nth k row 0)%R by (apply B; intros i Hi; rewrite (E i k Hi) by lia; lra). lra.
Qed.
Lemma small_interp a y t : (0 < a)%R -> (0 <= t <= a)%R -> interp_at (mk_ivec [0; a]%R 1 [y; y]) t = Ok [y].
Proof.
  intros Ha Ht. apply (constant_table [0; a]%R 1 [y] t); [repeat constructor; lra|discriminate|reflexivity|].
  exists 0%R, a. split; [reflexivity|]. split; [reflexivity|]. unfold Interp_Spec.tolerance. lra.
Qed.
Lemma small_ends a b c d t : t = 0%R -> interp_at (mk_ivec [0; 1]%R 2 [a; b; c; d]) t = Ok [a; b].
Proof. intros ->. cbv -[Rleb Rltb Reqb IZR EPSILON Rplus Rminus Rmult Rdiv]. pose proof EPSILON_pos. compare. reflexivity. Qed.
Lemma small_ends' a b c d t : t = 1%R -> interp_at (mk_ivec [0; 1]%R 2 [a; b; c; d]) t = Ok [c; d].
Proof. intros ->. cbv -[Rleb Rltb Reqb IZR EPSILON Rplus Rminus Rmult Rdiv]. pose proof EPSILON_pos. compare. reflexivity. Qed.
Definition small_states : list state_component := [mkState "connections" "Compressorstation" "c" 0 KShort].
Lemma small_values uninit : set_initial_values uninit small_states (map uninit (seq 0 4)) small_initial = Ok [50; 3; 60; 3]%R.
Proof.
  cbv -[Rleb Rltb Reqb INR IZR interp_at]. compare. cbv -[Rleb Rltb Reqb INR IZR interp_at].
  rewrite small_ends by (simpl; lra). rewrite small_ends' by (simpl; lra). reflexivity.
Qed.
Definition small_controlled : list control_component := [mkControl "connections" "Compressorstation" "c" 0 1].
Lemma small_points : control_points (mkTimedata 0 2 3) small_problem = Ok [0; 2]%R.
Proof.
  unfold control_points. change (contains small_problem "control_settings") with true. cbv iota.
    change (at_const small_problem "control_settings") with (Ok (JObj [("number_of_steps", JNum 2)])). cbn [obind].
    cbn [contains field String.eqb Ascii.eqb Bool.eqb andb]. unfold int_at. cbn [at_const field String.eqb Ascii.eqb Bool.eqb obind get_int].
    rewrite truncate_IZR. cbn [andb Z.leb Z.ltb Z.compare Z.opp Z.pow Z.pow_pos Pos.iter Z.mul Pos.mul Pos.compare Pos.compare_cont obind starttime endtime].
    unfold make_from_start_number_end. compare. change (2 <=? 0)%Z with false. change (2 =? 1)%Z with false. change (Z.to_nat 2) with 2%nat. change (2 - 1)%Z with 1%Z. cbv iota.
    cbn [omap]. unfold equidistant_points. cbn [first_point delta number_of_entries accumulate_points]. apply (f_equal Ok). repeat (apply f_equal2; [lra|]). reflexivity.
Qed.
Lemma small_setup uninit : setup_controls uninit small_controlled 1 (mkTimedata 0 2 3) small_problem (Ok small_control) = Ok (mk_ivec [0; 2]%R 1 [10; 10]%R).
Proof.
  unfold setup_controls. change (0 <? 1)%nat with true. cbv iota.
  rewrite small_points. cbn [obind].
  cbv -[Rleb Rltb Reqb INR IZR interp_at]. compare. cbv -[Rleb Rltb Reqb INR IZR interp_at]. rewrite !small_interp by lra. reflexivity.
Qed.
Definition small_prepared : prepared := mkPrepared small_solver small_nodes small_edges small_states 4 [0; 1; 2]%R [50; 3; 60; 3]%R (mk_ivec [0; 2]%R 1 [10; 10]%R).
Lemma small_prepare uninit : prepare_run uninit small_files "p" = Ok small_prepared.
Proof.
  unfold prepare_run. change (small_files ("p" ++ "/problem_data.json")) with (Ok small_problem). cbn [obind].
  change (at_mut small_problem "simulation_settings") with (Ok (small_problem, small_settings)). cbn [obind fst snd].
  change (at_mut small_problem "problem_data") with (Ok (small_problem, JObj [("boundary_json", JStr "boundary.json"); ("topology_json", JStr "topology.json")])). cbn [obind fst snd].
  change (assign (JObj [("boundary_json", JStr "boundary.json"); ("topology_json", JStr "topology.json")]) "GRAZER_file_directory" (JStr "p"))
    with (Ok (JObj [("GRAZER_file_directory", JStr "p"); ("boundary_json", JStr "boundary.json"); ("topology_json", JStr "topology.json")])). cbn [obind].
  change (small_files ("p" ++ "/initial.json")) with (Ok small_initial). cbn [obind].
  destruct small_time as [-> Et]. cbn [obind]. rewrite small_evolver. cbn [obind].
  change (value_or (JObj [("GRAZER_file_directory", JStr "p"); ("boundary_json", JStr "boundary.json"); ("topology_json", JStr "topology.json")]) "defaults" (JObj [])) with (Ok (JObj [])).
  cbn [obind]. change (negb (is_object (JObj []))) with false. cbv iota. rewrite small_net. cbn [obind]. rewrite small_construct. cbn [obind].
  change (set_state_indices 0 (state_components_of small_nodes small_edges)) with (small_states, 4%nat).
  change (set_control_indices 0 (control_components_of small_edges)) with (small_controlled, 1%nat). cbv iota.
  change (negb (setup_ok (network_of small_nodes small_edges))) with false. cbv iota. rewrite small_values. cbn [obind]. rewrite Et. cbn [obind].
  change (small_files ("p" ++ "/control.json")) with (Ok small_control). rewrite small_setup. reflexivity.
Qed.
Definition small_state : vec := vec_of [50; 3; 60; 3]%R.
Lemma small_eval t0 t1 last : (0 <= t1 <= 2)%R ->
  evaluate (network_of small_nodes small_edges) t0 t1 last small_state (control_vector [10%R]) (fun _ => 0%R) = Ok (fun _ => 0%R).
Proof.
  intro H. cbv -[interp_at Rplus Ropp Rmult Rminus Rdiv IZR small_state]. rewrite !small_interp by lra. cbv -[Rplus Ropp Rmult Rminus Rdiv IZR small_state].
  apply (f_equal Ok). apply functional_extensionality. intro k. unfold small_state, vec_of.
  do 4 (destruct k as [|k]; [cbn; ring|]). reflexivity.
Qed.
Definition small_network : network := network_of small_nodes small_edges.
Definition small_system {LU} (factor : unit -> R -> R -> vec -> list R -> vec -> option LU) (linsolve : LU -> vec -> vec) :=
  network_problem unit LU 4 (fun _ => small_network) (fun e _ _ _ _ => Ok e) factor linsolve.
Lemma small_solve {LU} (factor : unit -> R -> R -> vec -> list R -> vec -> option LU) linsolve fuel t0 t1 b : (0 <= t1 <= 2)%R ->
  solve (system_of (small_system factor linsolve) tt t0 t1 small_state [10%R]) fuel (newton small_solver) b small_state
  = Some (Ok (small_state, {| success := true; residual := Fin 0; used_iterations := 0 |})).
Proof.
  intro H. unfold solve. cbn [system_of ns_eval ns_norm]. cbn [pr_eval pr_norm small_system network_problem].
  unfold small_network. rewrite (small_eval _ _ _ H).
  assert (E : euclidean_norm 4 (fun _ => 0%R) = 0%R) by (transitivity (sqrt 0); [unfold euclidean_norm; f_equal; cbn; ring|apply sqrt_0]).
  rewrite E. cbn [xleb]. replace (Rleb 0 (tolerance (newton small_solver))) with true by (symmetry; apply Rleb_true; cbn; lra). reflexivity.
Qed.
Definition small_ivec : ivec := mk_ivec [0; 2]%R 1 [10; 10]%R.
Lemma small_current t : (0 <= t <= 2)%R -> current_controls small_ivec t = Ok [10%R].
Proof. intro H. apply (small_interp 2 10 t); lra. Qed.
Lemma small_run {LU} (factor : unit -> R -> R -> vec -> list R -> vec -> option LU) linsolve fuel :
  simulate (small_system factor linsolve) fuel 1 small_solver small_ivec [0; 1; 2]%R small_state tt = (Some (Ok [small_state; small_state; small_state]), tt).
Proof.
  assert (Step : forall t0 t1 times, (0 <= t1 <= 2)%R -> simulate_loop (small_system factor linsolve) fuel 1 small_solver small_ivec (t1 :: times) t0 small_state small_state tt
    = match simulate_loop (small_system factor linsolve) fuel 1 small_solver small_ivec times t1 small_state small_state tt with
      | (Some (Ok rows), e'') => (Some (Ok (small_state :: rows)), e'')
      | r => r
      end).
  { intros t0 t1 times H. cbn [simulate_loop]. rewrite small_current by lra. cbv iota.
    unfold time_step, make_one_step. cbn [attempts]. cbn [pr_prepare small_system network_problem].
    cbn [use_simplified_newton small_solver negb]. fold (small_system factor linsolve). rewrite (small_solve factor linsolve fuel t0 t1 _ H). cbn [success]. reflexivity. }
  unfold simulate. rewrite small_current by lra. cbv iota.
  rewrite Step by lra. rewrite Step by lra. reflexivity.
Qed.
Definition small_result (t : R) : json := gas_entry t [(0, (50, 3)); (1, (60, 3))]%R.
Definition small_output : json :=
  JObj [("connections", JObj [("Compressorstation", JArr [JObj [("data", JArr [small_result 0; small_result 1; small_result 2]); ("id", JStr "c")]])])].
Theorem small_simulation : forall LU (factor : unit -> R -> R -> vec -> list R -> vec -> option LU) linsolve fuel uninit,
  run_simulation factor linsolve fuel 1 uninit small_files "p" = Some (Ok small_output).
Proof.
  intros LU factor linsolve fuel uninit. unfold run_simulation. rewrite small_prepare. unfold simulate_prepared.
  cbn [small_prepared pp_settings pp_nodes pp_edges pp_states pp_number pp_points pp_initial pp_controls].
  change (network_problem unit LU 4 (fun _ => network_of small_nodes small_edges) (fun e _ _ _ _ => Ok e) factor linsolve) with (small_system factor linsolve).
  change (vec_of [50; 3; 60; 3]%R) with small_state. change (mk_ivec [0; 2]%R 1 [10; 10]%R) with small_ivec. rewrite small_run. cbn [fst]. f_equal.
Qed.
