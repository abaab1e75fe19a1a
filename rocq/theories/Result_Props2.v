(** * Properties of the result of an optimization: printed violations (C99) *)
From Coq Require Import Reals ZArith Lra Lia List Arith Bool String.
From Verif Require Import Base Interp_Model Interp_Spec Interp_Proofs Json_Model Controls_Model Calc Net_Model Net_Spec Sim_Model Sim_Spec
  Cost_Spec Iface_Model Whole_Spec Input_Model Input_Proofs5
  Setup_Model Setup_Spec Setup_Proofs2 Answer_Model Answer_Spec Answer_Proofs Answer_Proofs2 Answer_Proofs3 Result_Model Result_Proofs Result_Proofs2 Result_Proofs3 Result_Props
  Forest_Spec Forest_Props.
From Verif Require Newton_Model Evolve_Model Iface_Proofs3 Optim_Model Optim_Spec Optim_Proofs Run_Model Adjoint_Model States_Model.
Import ListNotations.
Local Open Scope string_scope.
Local Open Scope list_scope.

(** An Ipopt that evaluates two points and delivers the first one. *)
Definition two_points (B : Optim_Model.backend) (x y : Optim_Model.Ctl B) : Run_Model.ipopt B :=
  Run_Model.mk_ipopt 0%Z [Optim_Model.EvalG (B:=B) x true; Optim_Model.EvalF (B:=B) x false; Optim_Model.EvalG (B:=B) y true] (Some (0%Z, x, 7%R)) 0%Z.

(** Without the hypothesis of C99_printed_partial that the solution is the point evaluated last, the
    printed violations need not be those of the solution: here Ipopt behaves as documented (changes
    of the point are announced, all points lie within the bounds of the controls, the solution has been evaluated), the
    linear solver is exact, and the trajectory of the solution meets the bounds of the constraints, but a
    violation is printed.  The controls and states in the files are those of the solution (C99_result). *)
Theorem C99_printed_refuted : forall solve uninit unset, exists LU (factor : unit -> R -> R -> vec -> list R -> vec -> option LU) linsolve ipopt read directory printed cj sj p o x objective states variables g uv,
  let N := network_of (pp_nodes p) (pp_edges p) in
  let B := network_backend factor linsolve solve 1075 2 p o in
  run_optimization factor linsolve solve 1075 2 uninit ipopt unset read directory = Ok (printed, cj, sj) /\
  prepare_optimization uninit read directory = Ok (p, o) /\
  well_formed N /\ pipes_ok N /\ (forall t, In t (state_timepoints o) -> boundary_defined N t) /\
  solves_exactly (number_of_states N) (fun _ => N) factor linsolve /\
  Optim_Spec.announced B None (Run_Model.callbacks (ipopt p o)) /\
  (forall c b, In (Optim_Model.EvalF (B:=B) c b) (Run_Model.callbacks (ipopt p o)) \/ In (Optim_Model.EvalG (B:=B) c b) (Run_Model.callbacks (ipopt p o)) ->
     List.Forall2 Rle (ivalues (lower_bounds (init o))) c /\ List.Forall2 Rle c (ivalues (upper_bounds (init o)))) /\
  In (Optim_Model.EvalG (B:=B) x true) (Run_Model.callbacks (ipopt p o)) /\
  Run_Model.finalize (ipopt p o) = Some (0%Z, x, objective) /\
  simulation factor linsolve 1075 2 p o x = Some (Ok states) /\
  constrained_variables N (constraint_nodes (pp_nodes p)) variables /\
  constraints_right variables (state_timepoints o) (constraint_timepoints o) states g /\
  List.Forall2 Rle (ivalues (constraint_lower_bounds (init o))) g /\ List.Forall2 Rle g (ivalues (constraint_upper_bounds (init o))) /\
  In (Run_Model.Upper_violation uv) printed /\ (0 < uv)%R.
Proof.
  intros solve uninit unset.
  destruct (tight_setup_problem uninit) as (o & Ho & Hc).
  set (ipopt := fun p o => two_points (network_backend tight_factor tight_solve solve 1075 2 p o) [10; 10]%R [20; 20]%R).
  destruct (Iface_Proofs3.constructed _ _ _ _ _ _ _ _ _ Hc) as (_ & pairs & l & _ & Eo).
  assert (Ef : state_timepoints o = [0; 1; 2]%R /\ control_timepoints o = [0; 2]%R /\ constraint_timepoints o = [2]%R /\ o_nx o = 4%nat /\ o_nu o = 1%nat /\ o_ng o = 1%nat /\
     init o = tight_init /\ initial_state o = [50; 3; 60; 3]%R).
  { rewrite Eo. repeat (split; [reflexivity|]). reflexivity. }
  clear Eo. destruct Ef as (E1 & E2 & E3 & E4 & E5 & E6 & E7 & E8).
  assert (I1 : increasing [0; 1; 2]%R) by (repeat constructor; lra).
  assert (I2 : increasing [0; 2]%R) by (repeat constructor; lra).
  assert (Pk : pipes_ok opt_network) by (unfold pipes_ok; cbn; repeat constructor).
  assert (Bd : forall t, In t (state_timepoints o) -> boundary_defined opt_network t).
  { rewrite E1. intros t It. apply tight_boundary. destruct It as [<-|[<-|[<-|[]]]]; lra. }
  assert (Cn : constrained_nodes opt_network [0%nat]).
  { intros j [<-|[]]. split; [cbn; auto|]. exists 0%nat, (mkEdge 1 0 (ECompressor 1)), dend. cbn. auto. }
  assert (Sim : forall y u v, Evolve_Model.simulate (opt_system tight_factor tight_solve) 1075 2 small_solver (mk_ivec [0; 2]%R 1 [y; y]%R) [0; 1; 2]%R small_state tt
      = (Some (Ok [small_state; u; v]), tt) -> simulation tight_factor tight_solve 1075 2 opt_prepared o [y; y]%R = Some (Ok [small_state; u; v])).
  { intros y u v H. unfold simulation, mapped_controls. rewrite E1, E2, E4, E5, E8. cbn [pp_nodes pp_edges pp_settings opt_prepared].
    change (network_problem unit unit 4 (fun _ => network_of opt_nodes opt_edges) (fun e _ _ _ _ => Ok e) tight_factor tight_solve) with (opt_system tight_factor tight_solve).
    change (Adjoint_Model.vec_of [50; 3; 60; 3]%R) with small_state. rewrite H. reflexivity. }
  pose proof (Sim 10%R _ _ (opt_run tight_factor tight_solve 1075)) as S1.
  destruct (tight_run 20) as (u & v & R2 & Pv). pose proof (Sim 20%R _ _ R2) as S2. clear R2 Sim.
  assert (Cov : forall t, In t [0; 1; 2]%R -> exists ul, compute_index_lambda [0; 2]%R t = Ok ul).
  { pose proof (covers uninit tight_files "p" opt_prepared o Ho) as Q. rewrite E1, E2 in Q. apply Q; [cbn; lia|exact I2]. }
  set (B := network_backend tight_factor tight_solve solve 1075 2 opt_prepared o) in *.
  set (X := states_table 4 [small_state; small_state; small_state]). set (Y := states_table 4 [small_state; u; v]).
  assert (F1 : simulated tight_factor tight_solve 1075 2 opt_prepared o [10; 10]%R = Some X) by (unfold simulated; rewrite S1, E4; reflexivity).
  assert (F2 : simulated tight_factor tight_solve 1075 2 opt_prepared o [20; 20]%R = Some Y) by (unfold simulated; rewrite S2, E4; reflexivity).
  (* the constraints for the solution, evaluated with the states of the other point *)
  assert (G : Optim_Model.b_constr B [10; 10]%R Y = [v 2%nat]).
  { unfold B. cbn [Optim_Model.b_constr network_backend]. unfold constraint_values, mapped_controls. rewrite E1, E2, E3, E4, E5, E6. cbn [List.length seq flat_map].
    assert (V : List.Forall2 (variable_at opt_network) (constraint_nodes (pp_nodes opt_prepared)) [2%nat]).
    { constructor; [|constructor]. split; [exists 0%nat, (mkEdge 1 0 (ECompressor 1)), dend; cbn; auto|]. split; [cbn; lia|]. intro x. reflexivity. }
    destruct (constraint_row opt_network (constraint_nodes (pp_nodes opt_prepared)) [0; 1; 2]%R [0; 2]%R [2]%R I1 I2 Cov [10; 10]%R Y eq_refl eq_refl [2%nat] 0 0 2 0 2%R 2 V eq_refl eq_refl eq_refl eq_refl)
      as (g & Eg & Gv).
    change (network_of (pp_nodes opt_prepared) (pp_edges opt_prepared)) with opt_network.
    change (number_of_states opt_network) with 4%nat in Eg. change (number_of_controls opt_network) with 1%nat in Eg. rewrite Eg. cbn. rewrite Gv. reflexivity. }
  assert (After : Optim_Model.after (Optim_Model.fresh (B:=B) [] unset tt) (Run_Model.callbacks (ipopt opt_prepared o)) = Optim_Model.mk_opt (B:=B) true false Y unset tt).
  { assert (H1 : Optim_Model.handle (Optim_Model.fresh (B:=B) [] unset tt) (Optim_Model.EvalG (B:=B) [10; 10]%R true)
      = (Optim_Model.mk_opt (B:=B) true false X unset tt, Some (Optim_Model.Vector (Optim_Model.b_constr B [10; 10]%R X)))).
    { unfold Optim_Model.handle, Optim_Model.evaluate_constraints, Optim_Model.refresh. cbn [Optim_Model.announce Optim_Model.new_x Optim_Model.states_up_to_date Optim_Model.env Optim_Model.fresh].
      change (Optim_Model.simulate B tt [10; 10]%R) with (tt, simulated tight_factor tight_solve 1075 2 opt_prepared o [10; 10]%R). rewrite F1. reflexivity. }
    assert (H2 : exists r, Optim_Model.handle (Optim_Model.mk_opt (B:=B) true false X unset tt) (Optim_Model.EvalF (B:=B) [10; 10]%R false)
      = (Optim_Model.mk_opt (B:=B) true false X unset tt, r)) by (eexists; reflexivity).
    assert (H3 : Optim_Model.handle (Optim_Model.mk_opt (B:=B) true false X unset tt) (Optim_Model.EvalG (B:=B) [20; 20]%R true)
      = (Optim_Model.mk_opt (B:=B) true false Y unset tt, Some (Optim_Model.Vector (Optim_Model.b_constr B [20; 20]%R Y)))).
    { unfold Optim_Model.handle, Optim_Model.evaluate_constraints, Optim_Model.refresh. cbn [Optim_Model.announce Optim_Model.new_x Optim_Model.states_up_to_date Optim_Model.env Optim_Model.fresh].
      change (Optim_Model.simulate B tt [20; 20]%R) with (tt, simulated tight_factor tight_solve 1075 2 opt_prepared o [20; 20]%R). rewrite F2. reflexivity. }
    destruct H2 as (r & H2). unfold Optim_Model.after. unfold ipopt, two_points. cbn [Run_Model.callbacks Optim_Model.run].
    change (network_backend tight_factor tight_solve solve 1075 2 opt_prepared o) with B. rewrite H1, H2, H3. reflexivity. }
  exists unit, tight_factor, tight_solve, ipopt, tight_files, "p". eexists. eexists. eexists. exists opt_prepared, o, [10; 10]%R, 7%R, [small_state; small_state; small_state], [2%nat], [60]%R, (v 2%nat - 65)%R.
  split; [|split; [exact Ho|]].
  { unfold run_optimization. rewrite Ho. cbn [obind]. unfold Run_Model.optimize.
    change (Run_Model.initialize (ipopt opt_prepared o) =? Run_Model.SUCCESS)%Z with true. cbn [negb]. cbv iota.
    change (Run_Model.finalize (ipopt opt_prepared o)) with (Some (0%Z, [10; 10]%R, 7%R)). cbv iota.
    change (network_backend tight_factor tight_solve solve 1075 2 opt_prepared o) with B.
    match goal with |- context [Optim_Model.finalize_solution ?a ?b] =>
      replace (Optim_Model.finalize_solution a b) with (Optim_Model.mk_opt (B:=B) true false Y unset tt, (Optim_Model.b_cost B [10; 10]%R Y, Optim_Model.b_penalty B [10; 10]%R Y))
        by (symmetry; etransitivity; [apply (f_equal (fun z => Optim_Model.finalize_solution (B:=B) z b) After)|reflexivity]) end. cbv iota.
    assert (G2 : Optim_Model.final_reports (Optim_Model.mk_opt (B:=B) true false Y unset tt) [10; 10]%R [40]%R [65]%R
      = (Optim_Model.mk_opt (B:=B) true false X unset tt, (Ok (Rmax 0 (40 - v 2%nat), Rmax 0 (v 2%nat - 65)), X))).
    { unfold Optim_Model.final_reports, Optim_Model.evaluate_constraints, Optim_Model.refresh. cbn [Optim_Model.states_up_to_date Optim_Model.cached_states].
      rewrite G. unfold Optim_Model.evaluate_objective, Optim_Model.evaluate_cost, Optim_Model.evaluate_penalty, Optim_Model.refresh.
      cbn [Optim_Model.new_x Optim_Model.states_up_to_date Optim_Model.env].
      change (Optim_Model.simulate B tt [10; 10]%R) with (tt, simulated tight_factor tight_solve 1075 2 opt_prepared o [10; 10]%R). rewrite F1. reflexivity. }
    rewrite E7. match goal with |- context [Run_Model.report ?a ?b ?c ?d] =>
      assert (Rp : Run_Model.report a b c d = Ok ([Run_Model.Cost (Some (Optim_Model.b_cost B [10; 10]%R Y)); Run_Model.Penalty (Some (Optim_Model.b_penalty B [10; 10]%R Y));
        Run_Model.Overall_objective (Some 7%R); Run_Model.Lower_violation (Rmax 0 (40 - v 2%nat)); Run_Model.Upper_violation (v 2%nat - 65)%R], [10; 10]%R, X)) end.
    { unfold Run_Model.report. cbn [Run_Model.best_solution Run_Model.best_cost_value Run_Model.best_penalty_value Run_Model.best_objective_value].
      rewrite (Rmax_right 0 (v 2%nat - 65)) in G2 by lra.
      etransitivity; [apply (f_equal (fun r => let '(_, (violations, st)) := r in omap _ violations) G2)|]. reflexivity. }
    etransitivity; [apply (f_equal (fun r => obind r _) Rp)|]. cbn [obind]. rewrite E1, E2, E4, E5.
    change (pp_points opt_prepared) with [0; 1; 2]%R.
    match goal with |- context [solution_rows ?a ?b] =>
      replace (solution_rows a b) with (Ok (combine [0; 1; 2]%R (map (row_of_state 4) [small_state; small_state; small_state])))
        by (symmetry; exact (solution_rows_table [0; 1; 2]%R 4 [small_state; small_state; small_state] eq_refl)) end. cbn [obind].
    change (set_control_indices 0 (control_components_of (pp_edges opt_prepared))) with (small_controlled, 1%nat). cbn [fst].
    assert (Q : save_controls_to_json small_controlled (mk_ivec [0; 2]%R 1 [10; 10]%R) JNull = Ok case_controls) by (cbv -[Rleb Rltb Reqb INR IZR]; compare; reflexivity).
    rewrite Q. cbn [obind].
    assert (Q2 : States_Model.states_file (map (fun c => (c, JNull)) (pp_states opt_prepared)) (combine [0; 1; 2]%R (map (row_of_state 4) [small_state; small_state; small_state])) = Ok small_output) by reflexivity.
    rewrite Q2. cbn [obind]. reflexivity. }
  split; [exact tight_well_formed|]. split; [exact Pk|]. split; [exact Bd|]. split; [exact tight_exact|].
  split; [cbn; auto|]. split.
  { rewrite E7. cbn. intros c b H. assert (Hcase : c = [10; 10]%R \/ c = [20; 20]%R).
    { destruct H as [[H|[H|[H|[]]]]|[H|[H|[H|[]]]]]; try discriminate H; injection H as <- _; auto. }
    destruct Hcase as [-> | ->]; split; repeat constructor; lra. }
  split; [left; reflexivity|]. split; [reflexivity|]. split; [exact S1|]. 
  split. { constructor; [|constructor]. exists 0%nat, (mkEdge 1 0 (ECompressor 1)), dend. cbn. auto. }
  rewrite E1, E3, E7. split.
  { split; [reflexivity|]. intros q r i t position x Hq Hi Hr Hx.
    destruct q as [|q]; [|destruct q; discriminate]. destruct r as [|r]; [|destruct r; discriminate]. injection Hq as <-. injection Hr as <-.
    assert (x = small_state) as ->; [|reflexivity]. do 3 (destruct i as [|i]; [cbn in Hx; congruence|]). destruct i; discriminate. }
  cbn. split; [repeat constructor; lra|]. split; [repeat constructor; lra|].
  split; [|lra]. do 4 right. left. reflexivity.
Qed.
Print Assumptions C99_printed_refuted.
