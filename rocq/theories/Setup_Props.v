(** * Properties of the optimization problem of the input files: C97 *)
From Coq Require Import Reals ZArith Lra Lia List Bool Arith String.
From Coquelicot Require Import Coquelicot.
From Verif Require Import Base Interp_Model Interp_Spec Json_Model Json_Spec Controls_Model Controls_Spec Calc Euler_Model
  Net_Model Net_Spec States_Spec Factory_Model Factory_Spec Jac_Model Jac_Spec Ctimes_Model Ctimes_Spec Cost_Spec Adjoint_Model Adjoint_Spec Iface_Model Iface_Spec Iface_Proofs3 Iface_Props
  Whole_Model Whole_Spec Whole_Props Input_Model Input_Spec Input_Proofs Input_Proofs4 Input_Proofs5 Setup_Model Setup_Spec Setup_Proofs Setup_Proofs2.
Import ListNotations.
Local Open Scope string_scope.
Local Open Scope list_scope.

(** ** C97: the problem that Ipopt receives is the one of the input files *)

(** The network, the times and the sizes.  [ns] and [es] are the entries of the topology with
    their boundary values (C80, C94). *)
Theorem C97_problem : forall uninit read directory p o, prepare_optimization uninit read directory = Ok (p, o) ->
  exists all settings problem ns es n,
    read (directory ++ "/problem_data.json")%string = Ok all /\ entry_of all "simulation_settings" = Some settings /\
    problem_of all directory problem /\ build_net read (the_defaults (Some all)) problem = Ok (ns, es) /\
    let N := network_of (pp_nodes p) (pp_edges p) in
    describes_network ns es N /\
    times_of settings (state_timepoints o) /\ control_times_of all settings (control_timepoints o) /\
    spacing all n /\
    (increasing (state_timepoints o) -> (2 <= List.length (state_timepoints o))%nat -> spaced n (state_timepoints o) (constraint_timepoints o)) /\
    List.length (initial_state o) = number_of_states N /\ initial_state o = pp_initial p /\
    let n_x := (List.length (control_timepoints o) * number_of_controls N)%nat in
    let n_g := (List.length (constraint_timepoints o) * List.length (constraint_entries ns))%nat in
    forall a b c, get_nlp_info o = Some (a, b, c) -> a = n_x /\ b = n_g.
Proof.
  intros uninit read directory p o H.
  destruct (optimization_parts _ _ _ _ _ H) as (all & settings & problem & ns & es & n & P & A & B & C & D & E & F & G & I & J & Sx & S0 & Su & Sg & St & X0 & Ho & _).
  exists all, settings, problem, ns, es, n. split; [exact A|]. split; [exact B|]. split; [exact C|]. split; [exact D|]. cbv zeta.
  split; [apply (construct_describes _ _ _ _ _ E)|]. rewrite St. split; [exact F|]. split; [exact G|]. split; [exact I|].
  split; [intros I1 I2; apply (spaced_of _ _ _ I1 I2 J)|].
  destruct (constructed _ _ _ _ _ _ _ _ _ Ho) as ((L & _) & _). split; [congruence|]. split; [exact X0|].
  intros a b c Q. destruct (C85_sizes _ _ _ _ _ _ _ _ _ Ho) as (Ls & _ & _ & _ & Y & Z).
  destruct (Z_le_dec (Z.of_nat (List.length (control_timepoints o) * o_nu o)) 2147483647) as [K1|K1];
  [destruct (Z_le_dec (Z.of_nat (List.length (constraint_timepoints o) * o_ng o)) 2147483647) as [K2|K2];
   [destruct (Z_le_dec (Z.of_nat (List.length Ls)) 2147483647) as [K3|K3]|]|];
    try (rewrite Z in Q by tauto; discriminate).
  destruct Y as [Y _]; [auto|]. rewrite Y in Q. injection Q as <- <- _. rewrite Su, Sg. auto.
Qed.
Print Assumptions C97_problem.

(** There is something to control: without compressors and control valves no problem is set up. *)
Theorem C97_needs_controls : forall uninit read directory p o, prepare_optimization uninit read directory = Ok (p, o) ->
  exists i e, nth_error (edges (network_of (pp_nodes p) (pp_edges p))) i = Some e /\ Input_Spec.controlled (e_type e).
Proof.
  intros uninit read directory p o H.
  destruct (optimization_parts _ _ _ _ _ H) as (all & settings & problem & ns & es & n & P & A & B & C & D & E & F & G & I & J & Sx & S0 & Su & _).
  rewrite Su in S0. apply controls_exist, S0.
Qed.
Print Assumptions C97_needs_controls.

(** Starting point and bounds.  Variable number [k] of control time number [m] belongs to the edge
    with control [k], constraint number [r] of constraint time number [q] to the [r]-th node with a
    constraint; the numbers are those of the five files at these times. *)
Theorem C97_bounds : forall uninit read directory p o, prepare_optimization uninit read directory = Ok (p, o) ->
  exists all problem ns es jc jl ju kl ku,
    read (directory ++ "/problem_data.json")%string = Ok all /\ problem_of all directory problem /\
    build_net read (the_defaults (Some all)) problem = Ok (ns, es) /\
    read (directory ++ "/control.json")%string = Ok jc /\
    read (directory ++ "/lower_bounds.json")%string = Ok jl /\ read (directory ++ "/upper_bounds.json")%string = Ok ju /\
    read (directory ++ "/constraint_lower_bounds.json")%string = Ok kl /\ read (directory ++ "/constraint_upper_bounds.json")%string = Ok ku /\
    let N := network_of (pp_nodes p) (pp_edges p) in
    let ct := control_timepoints o in let cons := constraint_timepoints o in
    describes_network ns es N /\
    (increasing (state_timepoints o) -> (2 <= List.length (state_timepoints o))%nat ->
     (forall j, In j [jc; jl; ju] -> controls_complete es N j ct) -> (forall j, In j [kl; ku] -> constraints_complete ns j cons) ->
     forall memory, exists x x_l x_u g_l g_u,
       get_starting_point memory o (List.length ct * number_of_controls N) = Ok x /\
       get_bounds_info memory o (List.length ct * number_of_controls N) (List.length cons * List.length (constraint_entries ns)) = Ok (x_l, x_u, g_l, g_u) /\
       controls_tabulated es N jc ct x /\ controls_tabulated es N jl ct x_l /\ controls_tabulated es N ju ct x_u /\
       constraints_tabulated ns kl cons g_l /\ constraints_tabulated ns ku cons g_u).
Proof.
  intros uninit read directory p o H.
  destruct (optimization_parts _ _ _ _ _ H) as (all & settings & problem & ns & es & n & P & A & B & C & D & E & F & G & I & J & Sx & S0 & Su & Sg & St & X0 & Ho & jc & jl & ju & kl & ku & R1 & R2 & R3 & R4 & R5 & T & K).
  exists all, problem, ns, es, jc, jl, ju, kl, ku. do 8 (split; [assumption|]). cbv zeta. split; [apply (construct_describes _ _ _ _ _ E)|].
  intros I1 I2 Cc Kc memory. rewrite St in I1, I2. destruct (spaced_of _ _ _ I1 I2 J) as (_ & Ic & Nc).
  destruct (constructed _ _ _ _ _ _ _ _ _ Ho) as ((_ & [g1 G1] & [g2 G2] & _) & _).
  destruct (T _ _ (or_introl eq_refl)) as (P1 & T1). destruct (T _ _ (or_intror (or_introl eq_refl))) as (P2 & T2).
  destruct (T _ _ (or_intror (or_intror (or_introl eq_refl)))) as (P3 & T3).
  destruct (K _ _ (or_introl eq_refl)) as (P4 & K4). destruct (K _ _ (or_intror (or_introl eq_refl))) as (P5 & K5).
  specialize (T1 (Cc jc ltac:(cbn; tauto))). specialize (T2 (Cc jl ltac:(cbn; tauto))). specialize (T3 (Cc ju ltac:(cbn; tauto))).
  specialize (K4 (Kc kl ltac:(cbn; tauto))). specialize (K5 (Kc ku ltac:(cbn; tauto))).
  destruct (C85_bounds memory _ _ _ _ _ _ _ _ _ Ho) as [Q1 Q2]; auto.
  { destruct (Cc jc ltac:(cbn; tauto)) as (_ & _ & _ & _ & Inc & _). exact Inc. }
  { intros v [<-|[<-|[<-|[<-|[<-|[]]]]]].
    - rewrite P1, (proj1 (G1 _ (or_introl eq_refl))), Su. apply T1.
    - rewrite P2, (proj1 (G1 _ (or_intror (or_introl eq_refl)))), Su. apply T2.
    - rewrite P3, (proj1 (G1 _ (or_intror (or_intror (or_introl eq_refl))))), Su. apply T3.
    - rewrite P4, (proj1 (G2 _ (or_introl eq_refl))), Sg. apply K4.
    - rewrite P5, (proj1 (G2 _ (or_intror (or_introl eq_refl)))), Sg. apply K5. }
  rewrite Su in Q1, Q2. rewrite Sg in Q1. do 5 eexists. split; [exact Q2|]. split; [exact Q1|]. auto.
Qed.
Print Assumptions C97_bounds.

(** The derivatives that the optimizer computes are those of the cost and of the constraints of the
    network of the files (see C84 for the quantities). *)
Theorem C97_derivatives : forall uninit read directory p o, prepare_optimization uninit read directory = Ok (p, o) ->
  exists all problem ns es sinks,
    read (directory ++ "/problem_data.json")%string = Ok all /\ problem_of all directory problem /\
    build_net read (the_defaults (Some all)) problem = Ok (ns, es) /\ constraint_positions ns sinks /\
    let N := network_of (pp_nodes p) (pp_edges p) in
    let st := state_timepoints o in let ct := control_timepoints o in let cons := constraint_timepoints o in
    let l := constraint_jacobian o in
    describes_network ns es N /\
    forall W W' X solve G J, increasing st -> (2 <= List.length st)%nat -> increasing ct ->
      regular_trajectory N st (X 0%R) -> constrained_nodes N sinks -> network_family N st ct W W' X ->
      solver_correct (number_of_states N) solve ->
      compute_derivatives (network_problem N sinks) solve l st ct cons
        (mk_ivec ct (number_of_controls N) (W 0%R)) (mk_ivec st (number_of_states N) (X 0%R)) = Ok (Some (G, J)) ->
      (exists U, (forall s i t, nth_error st i = Some t -> control_at ct (number_of_controls N) (W s) t (U s i)) /\
        is_derive (fun s => total_cost N st (U s)) 0%R
          (Rsum (List.length ct) (fun j => Rsum (number_of_controls N) (fun k => G j k * W' j k)%R))) /\
      (forall q r i j t, nth_error cons q = Some t -> nth_error st i = Some t -> nth_error sinks r = Some j ->
        exists ie e d, nth_error (edges N) ie = Some e /\ carries_gas e = true /\ touches e d j /\
          is_derive (fun s => Interp_Spec.entry (X s) (number_of_states N) i (end_position N ie d)) 0%R
            (Rsum (List.length ct) (fun j => Rsum (number_of_controls N) (fun k =>
               whole_matrix l J (q * List.length sinks + r) (j * number_of_controls N + k) * W' j k)%R))).
Proof.
  intros uninit read directory p o H.
  destruct (optimization_parts _ _ _ _ _ H) as (all & settings & problem & ns & es & n & P & A & B & C & D & E & F & G & I & J & Sx & S0 & Su & Sg & St & X0 & Ho & _).
  destruct (constraint_nodes_positions _ _ _ _ _ E) as [Cp Cl].
  exists all, problem, ns, es, (constraint_nodes (pp_nodes p)). split; [exact A|]. split; [exact C|]. split; [exact D|]. split; [exact Cp|]. cbv zeta.
  split; [apply (construct_describes _ _ _ _ _ E)|]. intros W W' X solve G' J' I1 I2 I3 Rt Cn Nf Sc Cd.
  assert (Md : make_data (List.length (constraint_nodes (pp_nodes p))) (number_of_controls (network_of (pp_nodes p) (pp_edges p))) (constraint_timepoints o) (control_timepoints o)
    = Some (Ok (constraint_jacobian o))).
  { destruct (constructed _ _ _ _ _ _ _ _ _ Ho) as (_ & pairs & l & Hl & Eo). rewrite Cl, <- Sg, <- Su. rewrite Hl, (f_equal constraint_jacobian Eo). reflexivity. }
  pose proof (ctor_checked _ _ _ _ _ _ _ _ _ Ho) as Tc.
  split.
  - destruct (C84_objective _ _ _ _ _ _ _ _ _ _ _ _ I1 I2 I3 Rt Cn Nf Md Tc Sc Cd) as (U & U1 & _ & U2). exists U. auto.
  - intros q r i j t Q1 Q2 Q3. destruct (C84_constraint _ _ _ _ _ _ _ _ _ _ _ _ I1 I2 I3 Rt Cn Nf Md Tc Sc Cd q r i j t Q1 Q2 Q3) as (ie & e & d & V1 & V2 & V3 & _ & V4).
    exists ie, e, d. auto.
Qed.
Print Assumptions C97_derivatives.

(** A compressor between a node with pressure 50 and a sink with a constraint. *)
Example C97_case : forall uninit, exists o, prepare_optimization uninit opt_files "p" = Ok (opt_prepared, o) /\
  state_timepoints o = [0; 1; 2]%R /\ control_timepoints o = [0; 2]%R /\ constraint_timepoints o = [2]%R /\
  increasing (state_timepoints o) /\
  (forall y, controls_complete small_edges_json opt_network (opt_controls y) (control_timepoints o)) /\
  (forall z, constraints_complete opt_nodes_json (opt_constraints z) (constraint_timepoints o)) /\
  (forall memory, get_starting_point memory o 2 = Ok [10; 10]%R /\ get_bounds_info memory o 2 1 = Ok ([5; 5], [20; 20], [40], [70])%R) /\
  constrained_nodes opt_network [0%nat] /\ constraint_positions opt_nodes_json [0%nat].
Proof.
  intro uninit. destruct (opt_setup_problem uninit) as (o & Ho & Hc). exists o. split; [exact Ho|].
  assert (I1 : increasing [0; 1; 2]%R) by (repeat constructor; lra).
  assert (I2 : increasing [0; 2]%R) by (repeat constructor; lra).
  destruct (constructed _ _ _ _ _ _ _ _ _ Hc) as (_ & pairs & l & _ & Eo).
  split; [rewrite Eo; reflexivity|]. split; [rewrite Eo; reflexivity|]. split; [rewrite Eo; reflexivity|]. split; [rewrite Eo; exact I1|].
  split; [intro y; rewrite Eo; exact (proj1 (opt_complete y 0%R))|]. split; [intro z; rewrite Eo; exact (proj2 (opt_complete 0%R z))|]. split; [|split].
  - intro memory. destruct (C85_bounds memory _ _ _ _ _ _ _ _ _ Hc I2 ltac:(repeat constructor) ltac:(discriminate) eq_refl eq_refl) as [Q1 Q2].
    + intros v [<-|[<-|[<-|[<-|[<-|[]]]]]]; reflexivity.
    + split; [exact Q2|exact Q1].
  - intros j [<-|[]]. split; [cbn; auto|]. exists 0%nat, (mkEdge 1 0 (ECompressor 1)), dend. cbn. auto.
  - unfold constraint_positions. apply conj; [repeat constructor|]. intro j. split.
    + intros [<-|[]]. eexists. reflexivity.
    + intros (data & Q). destruct j as [|[|[|j]]]; try discriminate. left. reflexivity.
Qed.
