(** * Properties of the result files of an optimization: C99 *)
From Coq Require Import Reals ZArith Lra Lia List Arith Bool String.
From Verif Require Import Base Interp_Model Interp_Spec Interp_Proofs Json_Model Json_Spec Controls_Model Controls_Spec Calc Net_Model Net_Spec Factory_Model Factory_Spec
  Cost_Spec Iface_Model Whole_Spec Sim_Spec Input_Model Input_Spec Input_Proofs Input_Proofs2 Input_Proofs3 Input_Proofs4 Input_Proofs5
  Setup_Model Setup_Spec Setup_Proofs Setup_Proofs2 Answer_Model Answer_Spec Answer_Proofs Answer_Proofs2 Answer_Proofs3 Result_Model Result_Spec Result_Proofs.
From Verif Require Newton_Model Evolve_Model Evolve_Spec Iface_Proofs3 Optim_Model Optim_Spec Optim_Proofs Run_Model Adjoint_Model.
Import ListNotations.
Local Open Scope string_scope.
Local Open Scope list_scope.

(** ** C99: the files of an optimization belong to the solution that Ipopt delivers *)

(** Whatever Ipopt does: controls.json is the table of its solution; if this solution can be
    simulated, states.json reports the trajectory that belongs to it. *)
Theorem C99_result : forall LU (factor : unit -> R -> R -> vec -> list R -> vec -> option LU) linsolve solve fuel sfuel uninit ipopt unset read directory printed cj sj,
  run_optimization factor linsolve solve fuel sfuel uninit ipopt unset read directory = Ok (printed, cj, sj) ->
  exists p o all settings problem ns es cfg status x objective,
    prepare_optimization uninit read directory = Ok (p, o) /\ Run_Model.finalize (ipopt p o) = Some (status, x, objective) /\
    read (directory ++ "/problem_data.json")%string = Ok all /\ entry_of all "simulation_settings" = Some settings /\
    problem_of all directory problem /\ build_net read (the_defaults (Some all)) problem = Ok (ns, es) /\ solver_of settings cfg /\
    let N := network_of (pp_nodes p) (pp_edges p) in
    let st := state_timepoints o in let ct := control_timepoints o in
    describes_network ns es N /\ times_of settings st /\ control_times_of all settings ct /\
    In (Run_Model.Overall_objective (Some objective)) printed /\
    (In (Run_Model.Failed_to_find_optimum 0) printed <-> status <> 0%Z) /\
    (table_of ct (number_of_controls N) x -> controls_saved es N ct x cj) /\
    results_listed "nodes" node_with_states ns sj /\ results_listed "connections" edge_with_states es sj /\
    (table_of ct (number_of_controls N) x ->
     well_formed N -> pipes_ok N -> (forall t, In t st -> boundary_defined N t) -> (2 <= List.length st)%nat -> increasing ct ->
     (0 <= Newton_Model.maximal_iterations (Evolve_Model.newton cfg))%Z -> (Newton_Model.tolerance (Evolve_Model.newton cfg) < 1000000)%R ->
     forall states, simulation factor linsolve fuel sfuel p o x = Some (Ok states) ->
       (exists U, trajectory N (Newton_Model.tolerance (Evolve_Model.newton cfg)) st ct (initial_state o) x states U) /\
       forall k t y, nth_error st k = Some t -> nth_error states k = Some y -> state_reported ns es N sj k t y).
Proof.
  intros LU factor linsolve solve fuel sfuel uninit ipopt unset read directory printed cj sj H.
  destruct (run_parts _ _ _ _ _ _ _ _ _ _ _ _ _ H) as (p & o & status & x & obj & saved & table & Hp & Hf & _ & (o2 & cost & penalty & o3 & lv & uv & _ & _ & Hl) & _ & Hc & Hj).
  destruct (optimization_parts _ _ _ _ _ Hp) as (all & settings & problem & ns & es & k & P & A & B & C & D & E & Tg & Cg & _ & _ & Sx & S0 & Su & Sg & St & _).
  destruct (prepare_inv _ _ _ _ P) as (all' & settings' & _ & _ & _ & t & initial & comps & nc & A' & B' & _ & _ & _ & F & _ & _ & _ & K & _ & _ & Ci & _).
  assert (all' = all) by congruence. subst all'. assert (settings' = settings) by congruence. subst settings'.
  exists p, o, all, settings, problem, ns, es, (pp_settings p), status, x, obj. cbv zeta.
  split; [exact Hp|]. split; [exact Hf|]. split; [exact A|]. split; [exact B|]. split; [exact C|]. split; [exact D|]. split; [apply (timeevolver_of _ _ K)|].
  split; [apply (construct_describes _ _ _ _ _ E)|]. split; [rewrite St; exact Tg|]. split; [exact Cg|].
  split; [rewrite Hl; apply in_or_app; right; cbn; tauto|]. split.
  { rewrite Hl. destruct (Z.eqb_spec status 0) as [Z|Z]; cbn; intuition (discriminate || congruence). }
  destruct (controls_placed (pp_nodes p) (pp_edges p) comps nc Ci) as (En & _ & _). rewrite Ci in Hc. cbn [fst] in Hc.
  split.
  { intro T. rewrite <- Su in T. assert (Eu : o_nu o = nc) by congruence. rewrite Eu in *.
    destruct (controls_written _ _ _ _ _ _ _ _ _ E Ci S0 T) as (j & E1 & E2). pose proof (eq_trans (eq_sym Hc) E1) as Q. injection Q as <-. exact E2. }
  destruct (all_listed _ _ _ _ _ _ _ _ _ E F Hj) as [L1 L2]. split; [exact L1|]. split; [exact L2|].
  intros T W Pk Bd Hlen Hct Mi Tol states Hs.
  destruct (run_states _ _ _ _ _ _ _ _ _ _ _ _ _ _ _ _ _ _ _ H Hp Hf Hs) as [Ls Hj'].
  destruct (components_placed _ _ _ _ F) as (Ep & _ & _). assert (Eq : o_nx o = pp_number p) by congruence. rewrite Eq in Hj'. split.
  - exists (along (network_of (pp_nodes p) (pp_edges p)) (state_timepoints o) (control_timepoints o) x).
    apply (solved factor linsolve fuel sfuel uninit read directory p o Hp W Pk Bd Hlen Hct Mi Tol x T states Hs).
  - intros i ti y H1 H2. rewrite St in H1. apply (all_reported _ _ _ _ _ _ _ _ _ _ _ _ _ E F W Hj' H1 H2).
Qed.
Print Assumptions C99_result.

(** Simulating the result: with the written controls as control.json (and the files otherwise the
    same) a simulation writes the same states.json. *)
Theorem C99_again : forall LU (factor : unit -> R -> R -> vec -> list R -> vec -> option LU) linsolve solve fuel sfuel uninit ipopt unset read read' directory printed cj sj p o status x objective states,
  run_optimization factor linsolve solve fuel sfuel uninit ipopt unset read directory = Ok (printed, cj, sj) ->
  prepare_optimization uninit read directory = Ok (p, o) -> Run_Model.finalize (ipopt p o) = Some (status, x, objective) ->
  increasing (control_timepoints o) -> table_of (control_timepoints o) (o_nu o) x -> NoDup (map me_id (pp_edges p)) ->
  simulation factor linsolve fuel sfuel p o x = Some (Ok states) ->
  with_file read read' (directory ++ "/control.json")%string cj ->
  (forall all, read (directory ++ "/problem_data.json")%string = Ok all -> ~ named_file all directory (directory ++ "/control.json")%string) ->
  run_simulation factor linsolve fuel sfuel uninit read' directory = Some (Ok sj).
Proof.
  intros LU factor linsolve solve fuel sfuel uninit ipopt unset read read' directory printed cj sj p o status x obj states H Hp Hf Ict T Nd Hs W Nn.
  destruct (run_states _ _ _ _ _ _ _ _ _ _ _ _ _ _ _ _ _ _ _ H Hp Hf Hs) as [_ Hj].
  destruct (run_parts _ _ _ _ _ _ _ _ _ _ _ _ _ H) as (p' & o' & status' & x' & obj' & saved & table & Hp' & Hf' & _ & _ & _ & Hc & _).
  rewrite Hp in Hp'. injection Hp' as <- <-. rewrite Hf in Hf'. injection Hf' as <- <- <-.
  pose proof (prepare_again uninit read read' directory p o x cj Hp Hc Ict T Nd W Nn) as Ha.
  destruct (optimization_parts _ _ _ _ _ Hp) as (all & settings & problem & ns & es & k & P & A & B & C & D & E & Tg & Cg & _ & _ & Sx & S0 & Su & Sg & St & X0 & _).
  destruct (prepare_inv _ _ _ _ P) as (_ & _ & _ & _ & _ & t & initial & comps & nc & _ & _ & _ & _ & _ & F & _).
  destruct (components_placed _ _ _ _ F) as (Ep & _ & _). assert (Eq : o_nx o = pp_number p) by congruence.
  unfold run_simulation. rewrite Ha. unfold simulate_prepared. cbn [pp_nodes pp_edges pp_number pp_settings pp_controls pp_points pp_initial pp_states]. cbv zeta.
  unfold simulation, mapped_controls in Hs. rewrite Eq, St, X0 in Hs. change (Adjoint_Model.vec_of (pp_initial p)) with (States_Model.vec_of (pp_initial p)) in Hs.
  change (match fst (Evolve_Model.simulate (Sim_Model.network_problem unit LU (pp_number p) (fun _ => network_of (pp_nodes p) (pp_edges p)) (fun e _ _ _ _ => Ok e) factor linsolve)
       fuel sfuel (pp_settings p) (mk_ivec (control_timepoints o) (o_nu o) x) (pp_points p) (States_Model.vec_of (pp_initial p)) tt) with
    | None => None | Some Exc => Some Exc | Some UB => Some UB
    | Some (Ok rows) => Some (States_Model.states_file (map (fun c => (c, JNull)) (pp_states p)) (combine (pp_points p) (map (row_of_state (pp_number p)) rows))) end = Some (Ok sj)).
  rewrite Hs. rewrite Eq in Hj. rewrite Hj. reflexivity.
Qed.
Print Assumptions C99_again.

(** The printed values.  If the point that Ipopt evaluated last is the solution, they are the cost of
    the solution and its violation of the constraint bounds.  For other solutions they need not be,
    see C99_printed_refuted (Result_Props2.v). *)
Theorem C99_printed_partial : forall LU (factor : unit -> R -> R -> vec -> list R -> vec -> option LU) linsolve solve fuel sfuel uninit ipopt unset read directory printed cj sj p o status x objective states,
  run_optimization factor linsolve solve fuel sfuel uninit ipopt unset read directory = Ok (printed, cj, sj) ->
  prepare_optimization uninit read directory = Ok (p, o) -> Run_Model.finalize (ipopt p o) = Some (status, x, objective) ->
  simulation factor linsolve fuel sfuel p o x = Some (Ok states) ->
  let B := network_backend factor linsolve solve fuel sfuel p o in
  Optim_Spec.announced B None (Run_Model.callbacks (ipopt p o)) -> Optim_Spec.last_point B None (Run_Model.callbacks (ipopt p o)) = Some x ->
  exists all settings problem ns es sinks cfg kl ku,
    read (directory ++ "/problem_data.json")%string = Ok all /\ entry_of all "simulation_settings" = Some settings /\
    problem_of all directory problem /\ build_net read (the_defaults (Some all)) problem = Ok (ns, es) /\
    constraint_positions ns sinks /\ solver_of settings cfg /\
    read (directory ++ "/constraint_lower_bounds.json")%string = Ok kl /\ read (directory ++ "/constraint_upper_bounds.json")%string = Ok ku /\
    let N := network_of (pp_nodes p) (pp_edges p) in
    let st := state_timepoints o in let ct := control_timepoints o in let cons := constraint_timepoints o in
    describes_network ns es N /\
    (table_of ct (number_of_controls N) x ->
     well_formed N -> pipes_ok N -> (forall t, In t st -> boundary_defined N t) ->
     increasing st -> (2 <= List.length st)%nat -> increasing ct -> constrained_nodes N sinks -> sinks <> [] ->
     (0 <= Newton_Model.maximal_iterations (Evolve_Model.newton cfg))%Z -> (Newton_Model.tolerance (Evolve_Model.newton cfg) < 1000000)%R ->
     (forall j, In j [kl; ku] -> constraints_complete ns j cons) ->
     exists variables U g lower upper cost penalty lv uv,
       constrained_variables N sinks variables /\
       trajectory N (Newton_Model.tolerance (Evolve_Model.newton cfg)) st ct (initial_state o) x states U /\
       constraints_right variables st cons states g /\
       constraints_tabulated ns kl cons lower /\ constraints_tabulated ns ku cons upper /\
       (cost + penalty = total_cost N st U)%R /\
       Optim_Spec.largest_excess lower g lv /\ Optim_Spec.largest_excess g upper uv /\
       printed = (if Z.eqb status 0 then [] else [Run_Model.Failed_to_find_optimum 0]) ++
         [Run_Model.Cost (Some cost); Run_Model.Penalty (Some penalty); Run_Model.Overall_objective (Some objective);
          Run_Model.Lower_violation lv; Run_Model.Upper_violation uv; Run_Model.Can_be_found]).
Proof.
  intros LU factor linsolve solve fuel sfuel uninit ipopt unset read directory printed cj sj p o status x obj states H Hp Hf Hs B Han Hlast.
  destruct (run_parts _ _ _ _ _ _ _ _ _ _ _ _ _ H) as (p' & o' & status' & x' & obj' & saved & tab & Hp' & Hf' & _ & (o2 & cost & penalty & o3 & lv & uv & F1 & G1 & Hl) & _).
  rewrite Hp in Hp'. injection Hp' as <- <-. rewrite Hf in Hf'. injection Hf' as <- <- <-.
  destruct (optimization_parts _ _ _ _ _ Hp) as (all & settings & problem & ns & es & k & P & A & Bs & C & D & E & Tg & Cg & Sp & Se & Sx & S0 & Su & Sg & St & X0 & Ho & jc & jl & ju & kl & ku & R1 & R2 & R3 & R4 & R5 & T1 & K1).
  destruct (prepare_inv _ _ _ _ P) as (all' & settings' & _ & _ & _ & t & initial & comps & nc & A' & B' & _ & _ & _ & F & _ & _ & _ & K & _).
  assert (all' = all) by congruence. subst all'. assert (settings' = settings) by congruence. subst settings'.
  destruct (constraint_nodes_positions _ _ _ _ _ E) as [Cp Cl].
  exists all, settings, problem, ns, es, (constraint_nodes (pp_nodes p)), (pp_settings p), kl, ku.
  split; [exact A|]. split; [exact Bs|]. split; [exact C|]. split; [exact D|]. split; [exact Cp|]. split; [apply (timeevolver_of _ _ K)|].
  split; [exact R4|]. split; [exact R5|]. cbv zeta. split; [apply (construct_describes _ _ _ _ _ E)|].
  intros Tc HW HP HB Hst Hlen Hct HS Hne Hmi Htol Hk.
  destruct (variables_exist _ _ HW HS) as [variables V]. pose proof (Answer_Proofs2.Forall2_length _ _ _ V) as LV.
  destruct (K1 _ _ (or_introl eq_refl)) as [_ K2]. specialize (K2 (Hk kl ltac:(cbn; tauto))).
  destruct (K1 _ _ (or_intror (or_introl eq_refl))) as [_ K3]. specialize (K3 (Hk ku ltac:(cbn; tauto))).
  pose proof (constraints_answer factor linsolve solve fuel sfuel uninit read directory p o Hp HW HP HB Hst Hlen Hct Hmi Htol x Tc states Hs variables V) as CA.
  pose proof (cost_right factor linsolve solve fuel sfuel uninit read directory p o Hp HW HP HB Hst Hlen Hct Hmi Htol x Tc states Hs) as CR.
  set (X := states_table (number_of_states (network_of (pp_nodes p) (pp_edges p))) states) in *. fold B in CA, CR.
  assert (Hsim : simulated factor linsolve fuel sfuel p o x = Some X) by (unfold simulated; rewrite Hs, Sx; reflexivity).
  assert (Lg : List.length (Optim_Model.b_constr B x X) = (List.length (constraint_timepoints o) * List.length (constraint_entries ns))%nat).
  { rewrite (proj1 CA). f_equal. congruence. }
  destruct K2 as [L2 K2]. destruct K3 as [L3 K3].
  destruct (spaced_of _ _ _ ltac:(rewrite St in Hst; exact Hst) ltac:(rewrite St in Hlen; exact Hlen) Se) as (_ & _ & Nc).
  destruct (Optim_Proofs.reports_right B (simulated factor linsolve fuel sfuel p o) [] unset tt (Run_Model.callbacks (ipopt p o)) x X
    (ivalues (constraint_lower_bounds (init o))) (ivalues (constraint_upper_bounds (init o)))) as (o2' & o3' & lv' & uv' & F2 & G2 & V1 & V2).
  - apply backend_deterministic.
  - exact Han.
  - exact Hlast.
  - exact Hsim.
  - exact (eq_trans L2 (eq_sym Lg)).
  - exact (eq_trans L3 (eq_sym Lg)).
  - intro Q. rewrite Q in Lg. cbn in Lg. rewrite <- Cl in Lg. destruct (constraint_timepoints o); [congruence|]. destruct (constraint_nodes (pp_nodes p)); [congruence|]. discriminate.
  - pose proof (eq_trans (eq_sym F1) F2) as Q. injection Q as -> -> ->. pose proof (eq_trans (eq_sym G1) G2) as Q. injection Q as _ -> -> _.
    exists variables, (along (network_of (pp_nodes p) (pp_edges p)) (state_timepoints o) (control_timepoints o) x), (Optim_Model.b_constr B x X),
      (ivalues (constraint_lower_bounds (init o))), (ivalues (constraint_upper_bounds (init o))), (Optim_Model.b_cost B x X), (Optim_Model.b_penalty B x X), lv', uv'.
    split; [apply variables_right, V|]. split; [apply (solved factor linsolve fuel sfuel uninit read directory p o Hp HW HP HB Hlen Hct Hmi Htol x Tc states Hs)|].
    split; [exact CA|]. split; [split; assumption|]. split; [split; assumption|]. split; [exact CR|]. split; [exact V1|]. split; [exact V2|].
    rewrite Hl. destruct (Z.eqb status 0); reflexivity.
Qed.
Print Assumptions C99_printed_partial.

(** The problem of C97_case and C98_case, and an Ipopt that evaluates the starting point, announces
    it, and delivers it as solution: there is a result, and all hypotheses hold. *)
Definition case_ipopt (B : Optim_Model.backend) (x : Optim_Model.Ctl B) : Run_Model.ipopt B :=
  Run_Model.mk_ipopt 0%Z [Optim_Model.EvalG (B:=B) x true; Optim_Model.EvalF (B:=B) x false] (Some (0%Z, x, 7%R)) 0%Z.
Definition case_controls : json :=
  JObj [("connections", JObj [("Compressorstation", JArr [document "time" "c" [(0, [10]); (2, [10])]%R])])].
Definition case_files (path : string) : outcome json :=
  if String.eqb path "p/control.json" then Ok case_controls else opt_files path.
Example C99_case : forall LU (factor : unit -> R -> R -> vec -> list R -> vec -> option LU) linsolve solve uninit unset,
  let ipopt p o := case_ipopt (network_backend factor linsolve solve 1075 2 p o) [10; 10]%R in
  exists o printed, prepare_optimization uninit opt_files "p" = Ok (opt_prepared, o) /\
    run_optimization factor linsolve solve 1075 2 uninit ipopt unset opt_files "p" = Ok (printed, case_controls, small_output) /\
    let st := state_timepoints o in let ct := control_timepoints o in
    let B := network_backend factor linsolve solve 1075 2 opt_prepared o in
    well_formed opt_network /\ pipes_ok opt_network /\ (forall t, In t st -> boundary_defined opt_network t) /\
    increasing st /\ (2 <= List.length st)%nat /\ increasing ct /\ constrained_nodes opt_network [0%nat] /\
    table_of ct (number_of_controls opt_network) [10; 10]%R /\
    simulation factor linsolve 1075 2 opt_prepared o [10; 10]%R = Some (Ok [small_state; small_state; small_state]) /\
    Optim_Spec.announced B None (Run_Model.callbacks (ipopt opt_prepared o)) /\
    Optim_Spec.last_point B None (Run_Model.callbacks (ipopt opt_prepared o)) = Some [10; 10]%R /\
    (forall z, constraints_complete opt_nodes_json (opt_constraints z) (constraint_timepoints o)) /\
    NoDup (map me_id (pp_edges opt_prepared)) /\
    with_file opt_files case_files "p/control.json" case_controls /\ ~ named_file opt_problem "p" "p/control.json".
Proof.
  intros LU factor linsolve solve uninit unset ipopt.
  destruct (opt_answers LU factor linsolve solve uninit) as (o & Ho & W & Pk & Bd & I1 & Ln & I2 & Cn & T & Sim & An & _).
  exists o.
  assert (An' : Optim_Spec.announced (network_backend factor linsolve solve 1075 2 opt_prepared o) None (Run_Model.callbacks (ipopt opt_prepared o))) by exact An.
  assert (Eo : exists l, o = l /\ state_timepoints o = [0; 1; 2]%R /\ control_timepoints o = [0; 2]%R /\ constraint_timepoints o = [2]%R /\ o_nx o = 4%nat /\ o_nu o = 1%nat /\
     ivalues (constraint_lower_bounds (init o)) = [40]%R /\ ivalues (constraint_upper_bounds (init o)) = [70]%R).
  { destruct (opt_setup_problem uninit) as (o' & Ho' & Hc). assert (o' = o) by congruence. subst o'.
    destruct (Iface_Proofs3.constructed _ _ _ _ _ _ _ _ _ Hc) as (_ & pairs & l & _ & E). exists o. split; [reflexivity|].
    rewrite E. repeat (split; [reflexivity|]). reflexivity. }
  destruct Eo as (_ & _ & E1 & E2 & E3 & E4 & E5 & E6 & E7).
  destruct (variables_exist opt_network (constraint_nodes (pp_nodes opt_prepared)) W Cn) as [variables V].
  pose proof (constraints_answer factor linsolve solve 1075 2 uninit opt_files "p" opt_prepared o Ho W Pk Bd I1 Ln I2 ltac:(cbn; lia) ltac:(cbn; lra) [10; 10]%R T _ Sim variables V) as [CA _].
  rewrite E3, <- (Answer_Proofs2.Forall2_length _ _ _ V) in CA. change (1 * List.length (constraint_nodes (pp_nodes opt_prepared)))%nat with 1%nat in CA.
  set (X := states_table (number_of_states (network_of (pp_nodes opt_prepared) (pp_edges opt_prepared))) [small_state; small_state; small_state]) in *.
  assert (Sd : simulated factor linsolve 1075 2 opt_prepared o [10; 10]%R = Some X) by (unfold simulated; rewrite Sim, E4; reflexivity).
  set (B := network_backend factor linsolve solve 1075 2 opt_prepared o) in *.
  destruct (Optim_Proofs.reports_right B (simulated factor linsolve 1075 2 opt_prepared o) [] unset tt (Run_Model.callbacks (ipopt opt_prepared o)) [10; 10]%R X [40]%R [70]%R)
    as (o2 & o3 & lv & uv & F2 & G2 & _ & _).
  - apply backend_deterministic.
  - exact An'.
  - reflexivity.
  - exact Sd.
  - exact (eq_sym CA).
  - exact (eq_sym CA).
  - intro Q. rewrite Q in CA. discriminate.
  - eexists. split; [exact Ho|]. split.
    + unfold run_optimization. rewrite Ho. cbn [obind]. unfold Run_Model.optimize.
      change (Run_Model.initialize (ipopt opt_prepared o) =? Run_Model.SUCCESS)%Z with true. cbn [negb]. cbv iota.
      change (Run_Model.finalize (ipopt opt_prepared o)) with (Some (0%Z, [10; 10]%R, 7%R)). cbv iota.
      match goal with |- context [Optim_Model.finalize_solution ?a ?b] =>
        replace (Optim_Model.finalize_solution a b) with (o2, (Optim_Model.b_cost B [10; 10]%R X, Optim_Model.b_penalty B [10; 10]%R X)) by (symmetry; exact F2) end. cbv iota.
      rewrite E6, E7. match goal with |- context [Run_Model.report ?a ?b ?c ?d] =>
        assert (Rp : Run_Model.report a b c d = Ok ([Run_Model.Cost (Some (Optim_Model.b_cost B [10; 10]%R X)); Run_Model.Penalty (Some (Optim_Model.b_penalty B [10; 10]%R X));
          Run_Model.Overall_objective (Some 7%R); Run_Model.Lower_violation lv; Run_Model.Upper_violation uv], [10; 10]%R, X)) end.
      { unfold Run_Model.report. cbn [Run_Model.best_solution Run_Model.best_cost_value Run_Model.best_penalty_value Run_Model.best_objective_value].
        etransitivity; [apply (f_equal (fun r => let '(_, (violations, st)) := r in omap _ violations) G2)|]. reflexivity. }
      etransitivity; [apply (f_equal (fun r => obind r _) Rp)|]. cbn [obind]. rewrite E1, E2, E4, E5.
      change (pp_points opt_prepared) with [0; 1; 2]%R. 
      match goal with |- context [solution_rows ?a ?b] =>
        replace (solution_rows a b) with (Ok (combine [0; 1; 2]%R (map (row_of_state 4) [small_state; small_state; small_state])))
          by (symmetry; exact (solution_rows_table [0; 1; 2]%R 4 [small_state; small_state; small_state] eq_refl)) end. cbn [obind].
      change (set_control_indices 0 (control_components_of (pp_edges opt_prepared))) with (small_controlled, 1%nat). cbn [fst].
      assert (Q : save_controls_to_json small_controlled (mk_ivec [0; 2]%R 1 [10; 10]%R) JNull = Ok case_controls) by (cbv -[Rleb Rltb Reqb INR IZR]; compare; reflexivity).
      rewrite Q. cbn [obind].
      assert (Q2 : States_Model.states_file (map (fun c => (c, JNull)) (pp_states opt_prepared)) (combine [0; 1; 2]%R (map (row_of_state 4) [small_state; small_state; small_state])) = Ok small_output) by reflexivity.
      rewrite Q2. cbn [obind]. reflexivity.
    + cbv zeta. do 4 (split; [assumption|]). split; [exact Ln|]. split; [exact I2|]. split; [exact Cn|]. split; [exact T|]. split; [exact Sim|].
      split; [exact An'|]. split; [reflexivity|]. rewrite E3. split; [intro z; apply (opt_complete 0 z)|].
      split; [repeat constructor; cbn; tauto|]. split.
      * split; [reflexivity|]. intros other Ne. unfold case_files. destruct (String.eqb_spec other "p/control.json"); [congruence|reflexivity].
      * intros (key & given & name & I & Eg & Ek & Q). injection Eg as <-. destruct I as [<-|[<-|[]]]; injection Ek as <-; discriminate Q.
Qed.
