(** * Properties of the callbacks for the problem of the input files: C98 *)
From Coq Require Import Reals ZArith Lra Lia List Arith Bool String.
From Coquelicot Require Import Coquelicot.
From Verif Require Import Base Interp_Model Interp_Spec Json_Model Json_Spec Calc Net_Model Net_Spec Factory_Model Factory_Spec Jac_Model Jac_Spec
  Cost_Spec Adjoint_Spec Iface_Model Whole_Spec Sim_Spec Input_Model Input_Spec Input_Proofs Input_Proofs3 Input_Proofs4 Input_Proofs5
  Setup_Model Setup_Spec Setup_Proofs Setup_Proofs2 Answer_Model Answer_Spec Answer_Proofs Answer_Proofs2 Answer_Proofs3 Answer_Proofs4.
From Verif Require Newton_Model Evolve_Model Evolve_Spec Whole_Model Optim_Model Optim_Spec.
Import ListNotations.
Local Open Scope R_scope.

(** ** C98: every answer Ipopt gets belongs to the problem of the input files *)

(** [solution c] is the trajectory that belongs to the controls [c]: one for every [c], or none if
    the simulation throws.  However the linear systems are factorised and solved during the
    simulation, and whatever callbacks Ipopt makes (announcing its changes of the point): all values
    are those of this trajectory, all derivatives those of the problem there, if the solutions of the
    adjoint systems are right. *)
Theorem C98_answers : forall LU (factor : unit -> R -> R -> vec -> list R -> vec -> option LU) linsolve solve sfuel uninit read directory p o,
  prepare_optimization uninit read directory = Ok (p, o) ->
  exists all settings problem ns es sinks cfg places,
    read (directory ++ "/problem_data.json")%string = Ok all /\ entry_of all "simulation_settings" = Some settings /\
    problem_of all directory problem /\ build_net read (the_defaults (Some all)) problem = Ok (ns, es) /\
    constraint_positions ns sinks /\ solver_of settings cfg /\
    let N := network_of (pp_nodes p) (pp_edges p) in
    let st := state_timepoints o in let ct := control_timepoints o in let cons := constraint_timepoints o in
    let m := number_of_controls N in
    let B := network_backend factor linsolve solve 1075 sfuel p o in
    let eps := Newton_Model.tolerance (Evolve_Model.newton cfg) in
    describes_network ns es N /\
    NoDup places /\ (forall row col, In (row, col) places <-> structural_entry (List.length sinks) m cons ct row col) /\
    ((Z.of_nat (List.length ct * m) <= 2147483647)%Z -> (Z.of_nat (List.length cons * List.length sinks) <= 2147483647)%Z ->
     jacobian_structure o (List.length places) = Ok (map (fun '(row, col) => (Z.of_nat row, Z.of_nat col)) places)) /\
    (well_formed N -> pipes_ok N -> (forall t, In t st -> boundary_defined N t) ->
     increasing st -> (2 <= List.length st)%nat -> increasing ct -> constrained_nodes N sinks ->
     (0 <= Newton_Model.maximal_iterations (Evolve_Model.newton cfg))%Z -> eps < 1000000 ->
     (Evolve_Spec.attempt_bound (Evolve_Model.use_simplified_newton cfg) (Evolve_Model.retries cfg) <= Z.of_nat sfuel)%Z ->
     exists variables (solution : list R -> option (list vec * (nat -> vec))),
       constrained_variables N sinks variables /\
       (forall c states U, table_of ct m c -> solution c = Some (states, U) -> trajectory N eps st ct (initial_state o) c states U) /\
       (forall c, table_of ct m c -> solution c = None -> simulation factor linsolve 1075 sfuel p o c = Some Exc) /\
       forall st0 d0 h, Optim_Spec.announced B None h ->
         forall i c new r, table_of ct m c ->
           nth_error (map snd (Optim_Model.run (Optim_Model.fresh (B:=B) st0 d0 tt) h)) i = Some r ->
           (nth_error h i = Some (Optim_Model.EvalF (B:=B) c new) ->
              r = match solution c with Some (states, U) => Some (Optim_Model.Number (total_cost N st U)) | None => None end) /\
           (nth_error h i = Some (Optim_Model.EvalG (B:=B) c new) ->
              match solution c with
              | Some (states, U) => exists g, r = Some (Optim_Model.Vector g) /\ constraints_right variables st cons states g
              | None => r = None
              end) /\
           (nth_error h i = Some (Optim_Model.EvalGradF (B:=B) c new) -> forall g, r = Some g ->
              exists states U v, solution c = Some (states, U) /\ g = Optim_Model.Vector v /\
                (solver_correct (number_of_states N) solve -> gradient_right N st ct c states v)) /\
           (nth_error h i = Some (Optim_Model.EvalJacG (B:=B) c new) -> forall g, r = Some g ->
              exists states U v, solution c = Some (states, U) /\ g = Optim_Model.Vector v /\
                (solver_correct (number_of_states N) solve -> jacobian_right N variables st ct cons c states places v)) /\
           (nth_error h i = Some (Optim_Model.EvalGradF (B:=B) c new) \/ nth_error h i = Some (Optim_Model.EvalJacG (B:=B) c new) -> r = None ->
              solution c = None \/ (sinks <> [] /\ nth_error cons 0 <> nth_error st 1) \/
              exists states U, solution c = Some (states, U) /\
                ~ solver_accepts (Whole_Model.network_problem N sinks) solve st (mk_ivec ct m c)
                    (mk_ivec st (number_of_states N) (states_table (number_of_states N) states)))).
Proof.
  intros LU factor linsolve solve sfuel uninit read directory p o H.
  destruct (optimization_parts _ _ _ _ _ H) as (all & settings & problem & ns & es & n & P & A & B & C & D & E & _).
  destruct (prepare_inv _ _ _ _ P) as (all' & settings' & _ & _ & _ & t & initial & comps & nc & A' & B' & _ & _ & _ & _ & _ & _ & _ & K & _).
  assert (all' = all) by congruence. subst all'. assert (settings' = settings) by congruence. subst settings'.
  destruct (constraint_nodes_positions _ _ _ _ _ E) as [Cp _].
  exists all, settings, problem, ns, es, (constraint_nodes (pp_nodes p)), (pp_settings p), (supply_indices (constraint_jacobian o)).
  split; [exact A|]. split; [exact B|]. split; [exact C|]. split; [exact D|]. split; [exact Cp|]. split; [apply (timeevolver_of _ _ K)|].
  cbv zeta. split; [apply (construct_describes _ _ _ _ _ E)|].
  destruct (structure_of _ _ _ _ _ H) as (S1 & S2 & S3). split; [exact S1|]. split; [exact S2|]. split; [exact S3|].
  intros HW HP HB Hst Hlen Hct HS Hmi Htol Hsf.
  destruct (variables_exist _ _ HW HS) as [variables V]. exists variables, (solution factor linsolve 1075 sfuel p o).
  split; [apply variables_right, V|]. split; [intros c states U T Q; eapply solution_trajectory; eauto|].
  split; [intros c T Q; eapply missing; eauto|].
  intros st0 d0 h Hh i c new r T Hr.
  pose proof (fun cb g Hcb Ha Er => answered factor linsolve solve 1075 sfuel uninit read directory p o H HW HP HB Hst Hlen Hct HS Hmi Htol st0 d0 h Hh variables V
    i cb c new g Hcb Ha T Er) as Ans.
  pose proof (fun cb Hcb Ha Er => refused factor linsolve solve 1075 sfuel uninit read directory p o H HW HP HB Hst Hlen Hct HS Hmi Htol st0 d0 h Hh variables V i cb c new Hcb Ha T Er) as Ref.
  split; [|split; [|split; [|split]]].
  - intro Hcb. destruct r as [g|].
    + destruct (Ans _ g Hcb eq_refl Hr) as (states & U & Q & W). rewrite Q. congruence.
    + destruct (Ref _ Hcb eq_refl Hr) as [Q|[[k [Q|Q]] _]]; [|discriminate|discriminate]. rewrite Q. reflexivity.
  - intro Hcb. destruct r as [g|].
    + destruct (Ans _ g Hcb eq_refl Hr) as (states & U & Q & v & W1 & W2). rewrite Q. exists v. split; [congruence|exact W2].
    + destruct (Ref _ Hcb eq_refl Hr) as [Q|[[k [Q|Q]] _]]; [|discriminate|discriminate]. rewrite Q. reflexivity.
  - intros Hcb g ->. destruct (Ans _ g Hcb eq_refl Hr) as (states & U & Q & v & W1 & W2). exists states, U, v. auto.
  - intros Hcb g ->. destruct (Ans _ g Hcb eq_refl Hr) as (states & U & Q & v & W1 & W2). exists states, U, v. auto.
  - intros Hcb ->.
    assert (G : exists cb, nth_error h i = Some cb /\ Optim_Spec.asks _ cb = Some (c, new)) by (destruct Hcb as [Q|Q]; eexists; (split; [exact Q|reflexivity])).
    destruct G as (cb & G1 & G2). destruct (Ref cb G1 G2 Hr) as [Q|[_ [Q|(states & Q1 & Q2)]]]; [left; exact Q|right; left; exact Q|].
    right. right. exists states. eexists. split; [exact Q1|exact Q2].
Qed.
Print Assumptions C98_answers.

(** The problem of C97_case (a pressure of 50, a compressor that adds 10, a sink with a constraint):
    the hypotheses hold, the simulation succeeds, and the first two callbacks get their answers:
    the pressure at the sink is 60. *)
Example C98_case : forall LU (factor : unit -> R -> R -> vec -> list R -> vec -> option LU) linsolve solve uninit,
  exists o, prepare_optimization uninit opt_files "p" = Ok (opt_prepared, o) /\
    let st := state_timepoints o in let ct := control_timepoints o in
    let B := network_backend factor linsolve solve 1075 2 opt_prepared o in
    let h := [Optim_Model.EvalG (B:=B) [10; 10] true; Optim_Model.EvalF (B:=B) [10; 10] false] in
    well_formed opt_network /\ pipes_ok opt_network /\ (forall t, In t st -> boundary_defined opt_network t) /\
    increasing st /\ (2 <= List.length st)%nat /\ increasing ct /\ constrained_nodes opt_network [0%nat] /\
    table_of ct (number_of_controls opt_network) [10; 10] /\
    simulation factor linsolve 1075 2 opt_prepared o [10; 10] = Some (Ok [small_state; small_state; small_state]) /\
    Optim_Spec.announced B None h /\
    exists cost, map snd (Optim_Model.run (Optim_Model.fresh (B:=B) [] (fun _ _ => 0, fun _ => 0) tt) h)
      = [Some (Optim_Model.Vector [60]); Some (Optim_Model.Number cost)].
Proof. exact opt_answers. Qed.
(** In this case the control at the end may vary, and with it the pressures at the sink. *)
Example C98_variation_case : variation opt_network [0; 1; 2] [0; 2] [10; 10] [small_state; small_state; small_state] (fun s => [10; 10 + s]) (fun j _ => INR j) opt_varied.
Proof. exact opt_variation. Qed.
