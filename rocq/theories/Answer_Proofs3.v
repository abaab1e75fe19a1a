(** * A case for the callbacks: the problem of Setup_Proofs2.v *)
From Coq Require Import Reals ZArith Lra Lia List Arith Bool String FunctionalExtensionality.
From Verif Require Import Base Interp_Model Interp_Spec Interp_Proofs Calc Net_Model Net_Spec Newton_Model Evolve_Model Sim_Model Cost_Spec Iface_Model Iface_Proofs3 Whole_Spec
  Input_Model Input_Proofs5 Setup_Model Setup_Proofs2 Setup_Props Answer_Model Answer_Spec Answer_Proofs Answer_Proofs2.
From Verif Require Optim_Model Optim_Spec.
Import ListNotations.
Local Open Scope R_scope.

Lemma opt_eval t0 t1 last : (0 <= t1 <= 2) ->
  evaluate opt_network t0 t1 last small_state (control_vector [10]) (fun _ => 0) = Ok (fun _ => 0).
Proof.
  intro H. cbv -[interp_at Rplus Ropp Rmult Rminus Rdiv IZR small_state]. rewrite !small_interp by lra. cbv -[Rplus Ropp Rmult Rminus Rdiv IZR small_state].
  apply (f_equal Ok). apply functional_extensionality. intro k. unfold small_state, States_Model.vec_of.
  do 4 (destruct k as [|k]; [cbn; ring|]). reflexivity.
Qed.
Definition opt_system {LU} (factor : unit -> R -> R -> vec -> list R -> vec -> option LU) (linsolve : LU -> vec -> vec) :=
  network_problem unit LU 4 (fun _ => opt_network) (fun e _ _ _ _ => Ok e) factor linsolve.
Lemma opt_solve {LU} (factor : unit -> R -> R -> vec -> list R -> vec -> option LU) linsolve fuel t0 t1 b : (0 <= t1 <= 2)%R ->
  solve (system_of (opt_system factor linsolve) tt t0 t1 small_state [10%R]) fuel (newton small_solver) b small_state
  = Some (Ok (small_state, {| success := true; residual := Fin 0; used_iterations := 0 |})).
Proof.
  intro H. unfold solve. cbn [system_of ns_eval ns_norm]. cbn [pr_eval pr_norm opt_system network_problem].
  rewrite (opt_eval _ _ _ H).
  assert (E : euclidean_norm 4 (fun _ => 0%R) = 0%R) by (transitivity (sqrt 0); [unfold euclidean_norm; f_equal; cbn; ring|apply sqrt_0]).
  rewrite E. cbn [xleb]. replace (Rleb 0 (tolerance (newton small_solver))) with true by (symmetry; apply Rleb_true; cbn; lra). reflexivity.
Qed.
Lemma opt_run {LU} (factor : unit -> R -> R -> vec -> list R -> vec -> option LU) linsolve fuel :
  simulate (opt_system factor linsolve) fuel 2 small_solver small_ivec [0; 1; 2]%R small_state tt = (Some (Ok [small_state; small_state; small_state]), tt).
Proof.
  assert (Step : forall t0 t1 times, (0 <= t1 <= 2)%R -> simulate_loop (opt_system factor linsolve) fuel 2 small_solver small_ivec (t1 :: times) t0 small_state small_state tt
    = match simulate_loop (opt_system factor linsolve) fuel 2 small_solver small_ivec times t1 small_state small_state tt with
      | (Some (Ok rows), e'') => (Some (Ok (small_state :: rows)), e'')
      | r => r
      end).
  { intros t0 t1 times H. cbn [simulate_loop]. rewrite small_current by lra. cbv iota.
    unfold time_step, make_one_step. cbn [attempts]. cbn [pr_prepare opt_system network_problem].
    cbn [use_simplified_newton small_solver negb]. fold (opt_system factor linsolve). rewrite (opt_solve factor linsolve fuel t0 t1 _ H). cbn [success]. reflexivity. }
  unfold simulate. rewrite small_current by lra. cbv iota.
  rewrite Step by lra. rewrite Step by lra. reflexivity.
Qed.

Lemma opt_answers : forall LU (factor : unit -> R -> R -> vec -> list R -> vec -> option LU) linsolve solve uninit,
  exists o, prepare_optimization uninit opt_files "p" = Ok (opt_prepared, o) /\
    let st := state_timepoints o in let ct := control_timepoints o in
    let B := network_backend factor linsolve solve 1075 2 opt_prepared o in
    let h := [Optim_Model.EvalG (B:=B) [10; 10] true; Optim_Model.EvalF (B:=B) [10; 10] false] in
    well_formed opt_network /\ pipes_ok opt_network /\ (forall t, In t st -> boundary_defined opt_network t) /\
    increasing st /\ (2 <= List.length st)%nat /\ increasing ct /\ constrained_nodes opt_network [0%nat] /\
    table_of ct (number_of_controls opt_network) [10; 10] /\
    simulation factor linsolve 1075 2 opt_prepared o [10; 10] = Some (Ok [small_state; small_state; small_state]) /\
    Optim_Spec.announced B None h /\
    exists cost, map snd (Optim_Model.run (Optim_Model.fresh (B:=B) [] (fun _ _ => 0, fun _ => 0) tt) h)
      = [Some (Optim_Model.Vector [60]); Some (Optim_Model.Number cost)].
Proof.
  intros LU factor linsolve solve uninit. destruct (opt_setup_problem uninit) as (o & Ho & Hc). exists o. split; [exact Ho|].
  destruct (constructed _ _ _ _ _ _ _ _ _ Hc) as (_ & pairs & l & _ & Eo).
  assert (I1 : increasing [0; 1; 2]) by (repeat constructor; lra).
  assert (I2 : increasing [0; 2]) by (repeat constructor; lra).
  assert (E1 : state_timepoints o = [0; 1; 2]) by (rewrite Eo; reflexivity). assert (E2 : control_timepoints o = [0; 2]) by (rewrite Eo; reflexivity).
  assert (E3 : constraint_timepoints o = [2]) by (rewrite Eo; reflexivity).
  assert (W : well_formed opt_network) by (unfold well_formed; cbn; repeat constructor; cbn; auto; discriminate).
  assert (Pk : pipes_ok opt_network) by (unfold pipes_ok; cbn; repeat constructor).
  assert (Bd : forall t, In t (state_timepoints o) -> boundary_defined opt_network t).
  { rewrite E1. intros t It j. assert (T : (0 <= t <= 2)%R) by (destruct It as [<-|[<-|[<-|[]]]]; lra).
    destruct j as [|[|j]]; cbn [opt_network network_of opt_nodes nodes map nodetype_of mn_data nth_error].
    - unfold Input_Model.boundary_of. rewrite small_interp by lra. eexists. reflexivity.
    - unfold Input_Model.boundary_of. rewrite small_interp by lra. eexists. reflexivity.
    - destruct j; exact Logic.I. }
  assert (Cn : constrained_nodes opt_network [0%nat]).
  { intros j [<-|[]]. split; [cbn; auto|]. exists 0%nat, (mkEdge 1 0 (ECompressor 1)), dend. cbn. auto. }
  assert (Tc : table_of (control_timepoints o) (number_of_controls opt_network) [10; 10]) by (rewrite E2; reflexivity).
  assert (Sim : simulation factor linsolve 1075 2 opt_prepared o [10; 10] = Some (Ok [small_state; small_state; small_state])).
  { unfold simulation, mapped_controls. rewrite Eo. cbn [o_nx o_nu state_timepoints control_timepoints initial_state pp_nodes pp_edges pp_settings opt_prepared].
    change (network_problem unit LU 4 (fun _ => network_of opt_nodes opt_edges) (fun e _ _ _ _ => Ok e) factor linsolve) with (opt_system factor linsolve).
    change (States_Model.vec_of [50; 3; 60; 3]%R) with small_state. change (Adjoint_Model.vec_of [50; 3; 60; 3]%R) with small_state.
    change (mk_ivec [0; 2]%R 1 [10; 10]%R) with small_ivec. rewrite opt_run. reflexivity. }
  cbv zeta. split; [exact W|]. split; [exact Pk|]. split; [exact Bd|]. rewrite E1. split; [exact I1|]. split; [cbn; lia|]. rewrite E2. split; [exact I2|].
  split; [exact Cn|]. split; [reflexivity|]. split; [exact Sim|]. split; [cbn; auto|].
  destruct (variables_exist opt_network (constraint_nodes (pp_nodes opt_prepared)) W Cn) as [variables V].
  pose proof (constraints_answer factor linsolve solve 1075 2 uninit opt_files "p" opt_prepared o Ho W Pk Bd) as CA.
  rewrite E1, E2, E3 in CA.
  specialize (CA I1 ltac:(cbn; lia) I2 ltac:(cbn; lia) ltac:(cbn; lra) [10; 10] eq_refl _ Sim variables V).
  assert (G : Optim_Model.b_constr (network_backend factor linsolve solve 1075 2 opt_prepared o) [10; 10]
                (states_table (number_of_states opt_network) [small_state; small_state; small_state]) = [60]).
  { destruct CA as [C1 C2]. change (constraint_nodes (pp_nodes opt_prepared)) with [0%nat] in V.
    inversion V as [|j position js ps Vj Vt Ej Ep]. subst. inversion Vt; subst.
    specialize (C2 0%nat 0%nat 2%nat 2 position small_state eq_refl eq_refl eq_refl eq_refl).
    assert (Q : small_state position = 60).
    { destruct Vj as [_ [_ Vj]]. specialize (Vj small_state). apply (f_equal (fun r => match r with Ok x => x | _ => 0 end)) in Vj.
      cbv iota in Vj. rewrite <- Vj. reflexivity. }
    rewrite Q in C2.
    match goal with |- ?g = _ => set (gg := g) in *; change (List.length gg = 1%nat) in C1; change (nth_error gg 0 = Some 60) in C2; clearbody gg end.
    destruct gg as [|x [|y gg]]; try discriminate. cbn in C2. congruence. }
  assert (Sd : simulated factor linsolve 1075 2 opt_prepared o [10; 10] = Some (states_table (number_of_states opt_network) [small_state; small_state; small_state])).
  { unfold simulated. rewrite Sim. rewrite Eo. reflexivity. }
  set (B := network_backend factor linsolve solve 1075 2 opt_prepared o) in *.
  set (table := states_table (number_of_states opt_network) [small_state; small_state; small_state]) in *.
  exists (Optim_Model.b_cost B [10; 10] table + Optim_Model.b_penalty B [10; 10] table).
  assert (Rf : forall d, Optim_Model.refresh (B:=B) (Optim_Model.mk_opt (B:=B) false false [] d tt) [10; 10]
               = (Optim_Model.mk_opt (B:=B) true false table d tt, true)).
  { intro d. unfold Optim_Model.refresh. cbn [Optim_Model.states_up_to_date Optim_Model.env].
    change (Optim_Model.simulate B tt [10; 10]) with (tt, simulated factor linsolve 1075 2 opt_prepared o [10; 10]). rewrite Sd. reflexivity. }
  cbn [Optim_Model.run map]. unfold Optim_Model.handle at 1. cbn [Optim_Model.announce]. unfold Optim_Model.new_x, Optim_Model.fresh. cbn [Optim_Model.cached_states Optim_Model.stored Optim_Model.env].
  unfold Optim_Model.evaluate_constraints. rewrite Rf. cbn [Optim_Model.cached_states]. rewrite G.
  cbn -[Optim_Model.b_cost Optim_Model.b_penalty Rplus]. reflexivity.
Qed.
