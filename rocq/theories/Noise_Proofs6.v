(** * A simulation with a stochastic node from its input files: no noise, the mean power jumps
    from 1 to 4 in the second time step *)
From Coq Require Import Reals ZArith Lra Lia List Bool Arith String FunctionalExtensionality.
From Verif Require Import Base Interp_Model Interp_Spec Interp_Proofs Interp_Props Json_Model Json_Spec Defaults_Model Controls_Model Controls_Spec Controls_Proofs Calc Euler_Model
  Newton_Model Evolve_Model Net_Model Net_Spec States_Model Factory_Model Sim_Model Stoch_Model Bounds_Model Input_Model Input_Spec Input_Proofs3 Input_Proofs5
  Noise_Model Noise_Spec Noise_Proofs Noise_Proofs5.
From Verif Require Seed_Model Seed_Spec Seed_Props.
Import ListNotations.
Local Open Scope string_scope.
Local Open Scope list_scope.

Definition noise_settings : json := small_settings.
Definition noise_problem : json :=
  JObj [("problem_data", JObj [("boundary_json", JStr "boundary.json"); ("topology_json", JStr "topology.json")]); ("simulation_settings", noise_settings)].
Definition noise_rows : list (R * list R) := [(0, [1; 0]); (1, [1; 0]); (2, [4; 0])]%R.
Definition noise_boundary (seed : list (string * json)) : json :=
  JObj ([("data", JArr (map (row_entry "time") noise_rows)); ("id", JStr "n")] ++ seed).
Definition noise_initial : json := JObj [("connections", JObj []); ("nodes", JObj [("StochasticPQnode", JArr [document "x" "n" [(0, [1; 0])]%R])])].
Definition noise_node_json (boundary : list (string * json)) : json :=
  JObj ([("B", JNum 0); ("G", JNum 1)] ++ boundary ++ [("cut_off_factor", JNum (1 / 2)); ("id", JStr "n"); ("number_of_stochastic_steps", JNum 1); ("sigma_P", JNum 0);
        ("sigma_Q", JNum 0); ("stability_parameter", JNum (3 / 2)); ("theta_P", JNum 1); ("theta_Q", JNum 1)]).
Definition noise_files (seed : list (string * json)) (path : string) : outcome json :=
  if String.eqb path "p/problem_data.json" then Ok noise_problem
  else if String.eqb path "p/topology.json" then
    Ok (JObj [("connections", JObj []); ("nodes", JObj [("StochasticPQnode", JArr [noise_node_json []])])])
  else if String.eqb path "p/boundary.json" then
    Ok (JObj [("connections", JObj []); ("nodes", JObj [("StochasticPQnode", JArr [noise_boundary seed])])])
  else if String.eqb path "p/initial.json" then Ok noise_initial
  else Exc.
Definition noise_entries (seed : list (string * json)) : list (string * json) :=
  [("StochasticPQnode", noise_node_json [("boundary_values", noise_boundary seed)])].
Definition noise_problem_json : json :=
  JObj [("GRAZER_file_directory", JStr "p"); ("boundary_json", JStr "boundary.json"); ("topology_json", JStr "topology.json")].
(** No seed, or one of eight numbers. *)
Definition seed_ok (seed : list (string * json)) : Prop := seed = [] \/ exists l, List.length l = 8%nat /\ seed = [("seed", seed_json l)].
Lemma noise_net seed : seed_ok seed -> build_net (noise_files seed) (JObj []) noise_problem_json = Ok (noise_entries seed, []).
Proof.
  intros [->|(l & L & ->)].
  - cbv -[Rleb Rltb Reqb INR IZR Rdiv]. compare. reflexivity.
  - do 8 (destruct l as [|? l]; [discriminate|]). destruct l; [|discriminate].
    cbv -[Rleb Rltb Reqb INR IZR Rdiv]. compare. reflexivity.
Qed.

Definition noise_ivec : ivec := mk_ivec [0; 1; 2]%R 2 [1; 0; 1; 0; 4; 0]%R.
Lemma noise_power uninit seed : seed_ok seed ->
  powernode_ctor uninit PQ false (noise_node_json [("boundary_values", noise_boundary seed)]) = Ok (DPower PQ false 1 0 noise_ivec).
Proof.
  intros [->|(l & L & ->)].
  - cbv -[Rleb Rltb Reqb INR IZR Rdiv]. compare. cbv -[Rleb Rltb Reqb INR IZR Rdiv]. compare. reflexivity.
  - do 8 (destruct l as [|? l]; [discriminate|]). destruct l; [|discriminate].
    cbv -[Rleb Rltb Reqb INR IZR Rdiv]. compare. cbv -[Rleb Rltb Reqb INR IZR Rdiv]. compare. reflexivity.
Qed.
Definition noise_data {G} (g : G) : stochastic_data G := mkStochastic (3 / 2) (1 / 2) 0 1 0 1 1 g.
Lemma noise_stochastic {G} (pcg : (nat -> list Z) -> G) entropy seed g used :
  Seed_Model.stochastic_node pcg entropy (seed_value_of (noise_boundary seed)) = Ok (g, map Seed_Model.Integer used) ->
  stochastic_ctor pcg entropy (noise_node_json [("boundary_values", noise_boundary seed)]) = Ok (noise_data g, JObj [("seed", seed_json used)]).
Proof.
  intro H. unfold stochastic_ctor.
  change (at_const (noise_node_json [("boundary_values", noise_boundary seed)]) "boundary_values") with (Ok (noise_boundary seed)). cbn [obind].
  unfold number_at, int_at. cbn [noise_node_json at_const field app String.eqb Ascii.eqb Bool.eqb andb obind get_double get_int]. rewrite truncate_IZR.
  cbn [andb Z.leb Z.ltb Z.compare Z.opp Z.pow Z.pow_pos Pos.iter Z.mul Pos.mul Pos.compare Pos.compare_cont obind]. rewrite H. cbn [obind fst snd]. rewrite output_seed. reflexivity.
Qed.
Definition noise_nodes {G} (g : G) (used : list Z) : list (noisy_node G) :=
  [mkNoisy (mkMade "StochasticPQnode" "n" (DPower PQ false 1 0 noise_ivec)) (Some (noise_data g)) (JObj [("seed", seed_json used)])].
Lemma noise_construct {G} (pcg : (nat -> list Z) -> G) entropy uninit seed g used : seed_ok seed ->
  Seed_Model.stochastic_node pcg (entropy 0%nat) (seed_value_of (noise_boundary seed)) = Ok (g, map Seed_Model.Integer used) ->
  construct_noisy pcg entropy uninit (noise_entries seed, []) = Ok (noise_nodes g used, []).
Proof.
  intros S H. unfold construct_noisy, noise_entries. cbn [fst snd List.length seq combine omapM]. unfold make_noisy_node. cbn [fst snd].
  change (String.eqb "StochasticPQnode" "StochasticPQnode") with true. cbv iota.
  change (id_of (noise_node_json [("boundary_values", noise_boundary seed)])) with (Ok "n"). cbn [obind]. rewrite (noise_power uninit seed S). cbn [obind].
  rewrite (noise_stochastic pcg (entropy 0%nat) seed g used H). reflexivity.
Qed.
Lemma noise_means t : t = 0%R \/ t = 1%R -> interp_at noise_ivec t = Ok [1; 0]%R.
Proof.
  intros [->| ->]; cbv -[Rleb Rltb Reqb IZR EPSILON Rplus Rminus Rmult Rdiv]; pose proof EPSILON_pos; compare; try reflexivity; apply (f_equal Ok); repeat (apply f_equal2; [lra|]); try reflexivity.
Qed.
Lemma noise_means' t : t = 2%R -> interp_at noise_ivec t = Ok [4; 0]%R.
Proof.
  intros ->; cbv -[Rleb Rltb Reqb IZR EPSILON Rplus Rminus Rmult Rdiv]; pose proof EPSILON_pos; compare; try reflexivity; apply (f_equal Ok); repeat (apply f_equal2; [lra|]); try reflexivity.
Qed.
Definition noise_states : list state_component :=
  [mkState "nodes" "StochasticPQnode" "n" 0 (KPower 1 0 [] (PQ_values noise_ivec))].
Lemma noise_place {G} (g : G) used : set_state_indices 0 (state_components_of (map nn_node (noise_nodes g used)) []) = (noise_states, 2%nat).
Proof. reflexivity. Qed.
Lemma noise_values uninit : set_initial_values uninit noise_states (map uninit (seq 0 2)) noise_initial = Ok [1; 0]%R.
Proof.
  assert (E : forall t, t = 0%R -> interp_at (mk_ivec [0%R] 2 [1; 0]%R) t = Ok [1; 0]%R).
  { intros t ->. cbv -[Rleb Rltb Reqb IZR EPSILON Rplus Rminus Rmult Rdiv]. pose proof EPSILON_pos. compare. reflexivity. }
  cbv -[Rleb Rltb Reqb INR IZR interp_at]. compare. cbv -[Rleb Rltb Reqb INR IZR interp_at]. rewrite E by (simpl; lra). reflexivity.
Qed.
Lemma noise_eval {G} (g : G) used nan p m t0 t1 last v c :
  evaluate (noisy_network nan (noise_nodes g used) [] [mkDrawn p 0 m]) t0 t1 last (vec_of [v; 0%R]) c (fun _ => 0%R) = Ok (vec_of [v * v - p; 0]%R).
Proof.
  cbv -[interp_at Rplus Ropp Rmult Rminus Rdiv IZR vec_of]. apply (f_equal Ok). apply functional_extensionality. intro k. unfold vec_of.
  do 2 (destruct k as [|k]; [cbn; ring|]). destruct k; reflexivity.
Qed.
Definition noise_prepared {G} (g : G) used : prepared :=
  mkPrepared small_solver (map nn_node (noise_nodes g used)) [] noise_states 2 [0; 1; 2]%R [1; 0]%R (mk_ivec [] 0 []).
Lemma noise_prepare {G} (pcg : (nat -> list Z) -> G) entropy uninit seed g used : seed_ok seed ->
  Seed_Model.stochastic_node pcg (entropy 0%nat) (seed_value_of (noise_boundary seed)) = Ok (g, map Seed_Model.Integer used) ->
  prepare_noisy pcg entropy uninit (noise_files seed) "p" = Ok (noise_prepared g used, noise_nodes g used).
Proof.
  intros S H. unfold prepare_noisy. change (noise_files seed ("p" ++ "/problem_data.json")) with (Ok noise_problem). cbn [obind].
  change (at_mut noise_problem "simulation_settings") with (Ok (noise_problem, small_settings)). cbn [obind fst snd].
  change (at_mut noise_problem "problem_data") with (Ok (noise_problem, JObj [("boundary_json", JStr "boundary.json"); ("topology_json", JStr "topology.json")])). cbn [obind fst snd].
  change (assign (JObj [("boundary_json", JStr "boundary.json"); ("topology_json", JStr "topology.json")]) "GRAZER_file_directory" (JStr "p")) with (Ok noise_problem_json). cbn [obind].
  change (noise_files seed ("p" ++ "/initial.json")) with (Ok noise_initial). cbn [obind].
  destruct small_time as [-> Et]. cbn [obind]. rewrite small_evolver. cbn [obind].
  change (value_or noise_problem_json "defaults" (JObj [])) with (Ok (JObj [])).
  cbn [obind]. change (negb (is_object (JObj []))) with false. cbv iota. rewrite (noise_net seed S). cbn [obind].
  rewrite (noise_construct pcg entropy uninit seed g used S H). cbn [obind]. rewrite noise_place.
  change (set_control_indices 0 (control_components_of [])) with (@nil control_component, 0%nat). cbv iota.
  change (negb (setup_ok (network_of (map nn_node (noise_nodes g used)) []))) with false. cbv iota. rewrite noise_values. cbn [obind]. rewrite Et. cbn [obind].
  unfold setup_controls. change (0 <? 0)%nat with false. cbv iota. cbn [obind]. reflexivity.
Qed.

(** ** The draws *)
Lemma noise_oup mu h xi last : (0 <= mu)%R -> h = 1%R -> oup_step (1 / 2) 1 mu 0 h xi last = mu.
Proof.
  intros Hm ->. unfold oup_step. cbv zeta. replace (last + 1 * (mu - last) * 1 + 0 * xi)%R with mu by ring.
  assert (Sg : (sgn mu = 1 \/ (sgn mu = 0))%R).
  { unfold sgn. replace (Rltb mu 0) with false by (symmetry; apply Rltb_false; lra). destruct (Rltb 0 mu); [left|right]; ring. }
  replace (Rltb (sgn mu * mu) ((1 - 1 / 2) * sgn mu * mu)) with false by (symmetry; apply Rltb_false; destruct Sg as [-> | ->]; lra).
  replace (Rltb ((1 + 1 / 2) * sgn mu * mu) (sgn mu * mu)) with false by (symmetry; apply Rltb_false; destruct Sg as [-> | ->]; lra). reflexivity.
Qed.
Lemma noise_path {G} (g : G) draw k last mu dt : (0 <= mu)%R -> dt = 1%R ->
  sample_path (noise_data g) draw k last 1 mu dt 0 = Ok (mu, S k).
Proof.
  intros Hm ->. unfold sample_path, euler_maruyama_oup. cbn [noise_data stability_parameter cut_off_factor number_of_stochastic_steps].
  assert (E : compute_stable_number_of_oup_steps (3 / 2) 1 1 1 = Ok 1%Z).
  { unfold compute_stable_number_of_oup_steps. change (1 <? 0)%Z with false. change (1 =? 0)%Z with false. compare. reflexivity. }
  rewrite E. cbn [obind omap]. change (Z.to_nat 1) with 1%nat. cbn [oup_loop]. rewrite noise_oup by lra. rewrite Nat.add_1_r. reflexivity.
Qed.
Lemma noise_draw {G} (sampling : G -> stream) (g : G) used nan p q m t0 t1 v c row : (t1 - t0 = 1)%R -> (0 <= row)%R -> interp_at noise_ivec t1 = Ok [row; 0%R] ->
  prepare_all sampling nan (noise_nodes g used) [] [mkDrawn p q m] t0 t1 (vec_of [v; 0%R]) c = Ok [mkDrawn row 0 (S (S m))].
Proof.
  intros Ht Hr E. unfold prepare_all. cbn [noise_nodes with_drawn List.length seq combine map fst snd nth omapM prepare_node nn_noise nn_node mn_data].
  unfold boundary_at. rewrite E. cbn [obind get nth_error].
  match goal with |- context [P ?n ?x] => let r := eval cbv -[Rplus Ropp Rmult Rminus Rdiv IZR vec_of] in (P n x) in change (P n x) with r end.
  match goal with |- context [Q ?n ?x] => let r := eval cbv -[Rplus Ropp Rmult Rminus Rdiv IZR vec_of] in (Q n x) in change (Q n x) with r end.
  cbn [obind samples theta_P theta_Q sigma_P sigma_Q]. change (theta_P (noise_data g)) with 1%R. change (sigma_P (noise_data g)) with 0%R.
  rewrite noise_path by assumption. cbn [obind fst snd]. change (theta_Q (noise_data g)) with 1%R. change (sigma_Q (noise_data g)) with 0%R.
  rewrite noise_path by (try assumption; lra). reflexivity.
Qed.

(** ** The steps *)
Definition noise_solve (_ : unit) (b : vec) : vec := vec_of [b 0%nat / 3; b 1%nat]%R.
Definition noise_factor (_ : list drawn) (_ _ : R) (_ : vec) (_ : list R) (_ : vec) : option unit := Some tt.
Definition noise_system {G} (sampling : G -> stream) (g : G) used nan := noisy_problem sampling nan noise_factor noise_solve (noise_nodes g used) [] 2.
Lemma noise_norm a : euclidean_norm 2 (vec_of [a; 0]%R) = Rabs a.
Proof. unfold euclidean_norm. rewrite <- sqrt_Rsqr_abs. f_equal. cbn. unfold Rsqr. ring. Qed.
Lemma noise_stay {G} (sampling : G -> stream) (g : G) used nan m t0 t1 last b fuel :
  solve (system_of (noise_system sampling g used nan) [mkDrawn 1 0 m] t0 t1 last []) fuel (newton small_solver) b (vec_of [1; 0]%R)
  = Some (Ok (vec_of [1; 0]%R, {| success := true; residual := Fin 0; used_iterations := 0 |})).
Proof.
  unfold solve. cbn [system_of ns_eval ns_norm]. cbn [pr_eval pr_norm noise_system noisy_problem network_problem]. rewrite noise_eval.
  replace (1 * 1 - 1)%R with 0%R by ring. rewrite noise_norm, Rabs_R0. cbn [xleb].
  replace (Rleb 0 (tolerance (newton small_solver))) with true by (symmetry; apply Rleb_true; cbn; lra). reflexivity.
Qed.
Lemma noise_newton {G} (sampling : G -> stream) (g : G) used nan m t0 t1 last b :
  newton_step (system_of (noise_system sampling g used nan) [mkDrawn 4 0 m] t0 t1 last []) 1 b (Some tt) (vec_of [1; 0]%R) (vec_of [-3; 0]%R)
  = Some (Ok (vec_of [2; 0]%R, vec_of [0; 0]%R)).
Proof.
  set (sys := system_of _ _ _ _ _ _).
  assert (Ev : forall v, ns_eval sys (vec_of [v; 0]%R) = vec_of [v * v - 4; 0]%R).
  { intro v. unfold sys. cbn [system_of ns_eval pr_eval noise_system noisy_problem network_problem]. rewrite noise_eval. reflexivity. }
  assert (Ng : forall lu a, ns_neg sys (ns_linsolve sys lu (vec_of [a; 0]%R)) = vec_of [- a / 3; 0]%R).
  { intros lu a. apply functional_extensionality. intro k. do 2 (destruct k as [|k]; [cbn; field|]). destruct k; cbn; ring. }
  assert (Mv : ns_move sys (vec_of [1; 0]%R) 1 (vec_of [1; 0]%R) = vec_of [2; 0]%R).
  { apply functional_extensionality. intro k. do 2 (destruct k as [|k]; [cbn; ring|]). destruct k; cbn; ring. }
  assert (Nm : forall a, ns_norm sys (vec_of [a; 0]%R) = Fin (Rabs a)).
  { intro a. unfold sys. cbn [system_of ns_norm pr_norm noise_system noisy_problem network_problem]. rewrite noise_norm. reflexivity. }
  unfold newton_step. replace (if b then ns_factor sys (vec_of [1; 0]%R) else Some tt) with (Some tt) by (destruct b; reflexivity).
  cbv iota zeta. rewrite Ng. replace (- -3 / 3)%R with 1%R by field. rewrite Mv, Ev. replace (2 * 2 - 4)%R with 0%R by ring. rewrite Ng, !Nm.
  replace (- 0 / 3)%R with 0%R by field. rewrite Rabs_R0, Rabs_R1. cbn [damp]. unfold xgtb. cbn [xscale xltb].
  replace (Rltb ((1 - / 2 * 1) * 1) 0) with false by (symmetry; apply Rltb_false; lra). reflexivity.
Qed.
Lemma noise_loop {G} (sampling : G -> stream) (g : G) used nan m t0 t1 last b left :
  newton_loop (system_of (noise_system sampling g used nan) [mkDrawn 4 0 m] t0 t1 last []) 1 (1 / 100) b (Some tt) (S (S left)) (vec_of [1; 0]%R) (vec_of [-3; 0]%R) default_solution
  = Some (Ok (vec_of [2; 0]%R, {| success := success default_solution; residual := Fin 0; used_iterations := used_iterations default_solution + 1 |})).
Proof.
  assert (Nm : forall a, ns_norm (system_of (noise_system sampling g used nan) [mkDrawn 4 0 m] t0 t1 last []) (vec_of [a; 0]%R) = Fin (Rabs a)).
  { intro a. cbn [system_of ns_norm pr_norm noise_system noisy_problem network_problem]. rewrite noise_norm. reflexivity. }
  cbn [newton_loop]. rewrite noise_newton, !Nm. rewrite Rabs_R0. unfold xgtb. cbn [xltb]. rewrite (Rabs_left (-3)) by lra.
  replace (Rltb (1 / 100) (- -3)) with true by (symmetry; apply Rltb_true; lra). replace (Rltb (1 / 100) 0) with false by (symmetry; apply Rltb_false; lra). reflexivity.
Qed.
Lemma noise_move {G} (sampling : G -> stream) (g : G) used nan m t0 t1 last b :
  solve (system_of (noise_system sampling g used nan) [mkDrawn 4 0 m] t0 t1 last []) 1 (newton small_solver) b (vec_of [1; 0]%R)
  = Some (Ok (vec_of [2; 0]%R, {| success := true; residual := Fin 0; used_iterations := 1 |})).
Proof.
  assert (Ev : ns_eval (system_of (noise_system sampling g used nan) [mkDrawn 4 0 m] t0 t1 last []) (vec_of [1; 0]%R) = vec_of [-3; 0]%R).
  { cbn [system_of ns_eval pr_eval noise_system noisy_problem network_problem]. rewrite noise_eval. replace (1 * 1 - 4)%R with (-3)%R by ring. reflexivity. }
  unfold solve. rewrite Ev. cbn [ns_norm system_of]. cbn [pr_norm noise_system noisy_problem network_problem]. rewrite noise_norm. rewrite (Rabs_left (-3)) by lra. cbn [xleb].
  replace (Rleb (- -3) (tolerance (newton small_solver))) with false by (symmetry; apply not_true_is_false; rewrite Rleb_true; cbn; lra).
  change (ns_factor (system_of (noise_system sampling g used nan) [mkDrawn 4 0 m] t0 t1 last []) (vec_of [1; 0]%R)) with (Some tt).
  change (Z.to_nat (maximal_iterations (newton small_solver))) with 10%nat. change (tolerance (newton small_solver)) with (1 / 100)%R.
  rewrite noise_loop. cbv iota. cbn [residual used_iterations default_solution maximal_iterations newton small_solver]. destruct b; reflexivity.
Qed.
Theorem noise_run {G} (sampling : G -> stream) (g : G) used nan :
  simulate (noise_system sampling g used nan) 1 1 small_solver (mk_ivec [] 0 []) [0; 1; 2]%R (vec_of [1; 0]%R) [undrawn nan]
  = (Some (Ok [vec_of [1; 0]; vec_of [1; 0]; vec_of [2; 0]]%R), [mkDrawn 4 0 4]).
Proof.
  unfold simulate. change (current_controls (mk_ivec [] 0 []) 1) with (Ok (@nil R)). cbv iota.
  cbn [simulate_loop]. change (current_controls (mk_ivec [] 0 []) 1) with (Ok (@nil R)). change (current_controls (mk_ivec [] 0 []) 2) with (Ok (@nil R)). cbv iota.
  assert (D1 : pr_prepare (noise_system sampling g used nan) [undrawn nan] 0 1 (vec_of [1; 0]%R) [] = Ok [mkDrawn 1 0 2]).
  { apply (noise_draw sampling g used nan nan nan 0 0 1 1 [] 1%R); [lra|lra|apply noise_means; auto]. }
  assert (D2 : pr_prepare (noise_system sampling g used nan) [mkDrawn 1 0 2] 1 2 (vec_of [1; 0]%R) [] = Ok [mkDrawn 4 0 4]).
  { apply (noise_draw sampling g used nan 1 0 2 1 2 1 [] 4%R); [lra|lra|apply noise_means'; auto]. }
  unfold time_step, make_one_step. cbn [attempts]. rewrite D1. cbn [use_simplified_newton small_solver negb]. fold small_solver.
  rewrite noise_stay. cbn [success]. cbv iota.
  rewrite D2. rewrite noise_move. reflexivity.
Qed.
Definition noise_result (t P_deviation v : R) : json :=
  JObj [("P", JNum 4); ("P_deviation", JNum P_deviation); ("Q", JNum 0); ("Q_deviation", JNum (0 - 0)); ("V", JNum v); ("phi", JNum 0); ("time", JNum t)].
Definition noise_output (used : list Z) : json :=
  JObj [("nodes", JObj [("StochasticPQnode", JArr [JObj [("data", JArr [noise_result 0 (4 - 1) 1; noise_result 1 (4 - 1) 1; noise_result 2 (4 - 4) 2]); ("id", JStr "n"); ("seed", seed_json used)]])])].
Theorem noise_simulation {G} (pcg : (nat -> list Z) -> G) (sampling : G -> stream) entropy nan uninit seed g used : seed_ok seed ->
  Seed_Model.stochastic_node pcg (entropy 0%nat) (seed_value_of (noise_boundary seed)) = Ok (g, map Seed_Model.Integer used) ->
  run_noisy pcg sampling entropy nan noise_factor noise_solve 1 1 uninit (noise_files seed) "p" = Some (Ok (noise_output used)).
Proof.
  intros S H. unfold run_noisy. rewrite (noise_prepare pcg entropy uninit seed g used S H). unfold simulate_noisy.
  cbn [noise_prepared pp_settings pp_nodes pp_edges pp_states pp_number pp_points pp_initial pp_controls].
  fold (noise_system sampling g used nan). change (map (fun _ : noisy_node G => undrawn nan) (noise_nodes g used)) with [undrawn nan]. rewrite noise_run.
  apply (f_equal Some). set (sj := seed_json used).
  assert (E : noisy_components nan (noise_nodes g used) [] [mkDrawn 4 0 4] = [(mkState "nodes" "StochasticPQnode" "n" 0 (KPower 1 0 [] (Stochastic_values noise_ivec 4 0)), JObj [("seed", sj)])]) by reflexivity.
  rewrite E. cbv -[Rminus IZR interp_at noise_ivec sj]. rewrite !noise_means by auto. rewrite noise_means' by auto. reflexivity.
Qed.
