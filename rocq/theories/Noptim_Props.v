(** * Properties of the callbacks for a problem with stochastic power nodes: C102 *)
From Coq Require Import Reals ZArith Lra Lia List Arith Bool String.
From Verif Require Import Base Interp_Model Interp_Spec Ctimes_Spec Interp_Proofs Interp_Proofs2 Ctimes_Proofs Json_Model Calc Net_Model Net_Spec Adjoint_Model Adjoint_Spec Iface_Model Iface_Spec Iface_Proofs Iface_Proofs2 Iface_Props Iface_Proofs3
  Whole_Spec Cost_Spec Sim_Spec Input_Model Input_Proofs5 Setup_Model Setup_Proofs2 Answer_Model Answer_Spec Answer_Proofs Stoch_Model Noise_Model Noise_Spec
  Noptim_Model Noptim_Spec Noptim_Proofs Noptim_Proofs2 Noptim_Proofs3.
From Verif Require Jac_Model Newton_Model Evolve_Model Seed_Model Optim_Model Optim_Spec.
Import ListNotations.
Local Open Scope R_scope.

(** The network of the entries, and an optimizer for it, that meet the conditions on the data. *)
Definition random_problem {G} (pcg : (nat -> list Z) -> G) (entropy : nat -> list Z) (uninit : nat -> R) (ns es : list (string * json))
    (nodes : list (noisy_node G)) (edges : list made_edge) (cfg : Evolve_Model.tsettings) (st ct cons x0 : list R) (iv : init_values) (o : optimizer) : Prop :=
  let N := network_of (map nn_node nodes) edges in
  let sinks := constraint_nodes (map nn_node nodes) in
  construct_noisy pcg entropy uninit (ns, es) = Ok (nodes, edges) /\
  optimizer_ctor (number_of_states N) (number_of_controls N) (List.length sinks) st ct cons x0 iv = Ok o /\
  well_formed N /\ pipes_ok N /\ (forall t, In t st -> boundary_defined N t) /\
  increasing st /\ (2 <= List.length st)%nat /\ increasing ct /\ constrained_nodes N sinks /\ (0 < number_of_controls N)%nat /\
  (0 <= Newton_Model.maximal_iterations (Evolve_Model.newton cfg))%Z /\ Newton_Model.tolerance (Evolve_Model.newton cfg) < 1000000.

(** Whatever the random numbers and the linear solver are, and whatever callbacks Ipopt makes (if it
    announces its changes of the point): every answer belongs to a trajectory with random powers
    for the controls of the callback, all answers between two announcements belong to the same
    trajectory, and after an announcement the random numbers of the trajectories before it are not
    used again.  Gradient and Jacobian are the derivatives along this trajectory for fixed random
    numbers, in whatever way the powers drawn in a step depend on the powers of the last state. *)
Theorem C102_answers : forall G LU (pcg : (nat -> list Z) -> G) (sampling : G -> nat -> R -> R -> R) entropy nan
    (factor : list drawn -> R -> R -> vec -> list R -> vec -> option LU) linsolve solve fuel sfuel uninit ns es nodes edges cfg st ct cons x0 iv o,
  random_problem pcg entropy uninit ns es nodes edges cfg st ct cons x0 iv o ->
  let N := network_of (map nn_node nodes) edges in
  let B := noisy_backend sampling nan factor linsolve solve fuel sfuel cfg nodes edges o in
  exists variables sample, constrained_variables N (constraint_nodes (map nn_node nodes)) variables /\
    (forall j nd s, nth_error nodes j = Some nd -> nn_noise nd = Some s -> sample j = sampling (distribution s)) /\
    forall st0 d0 e0 h, Optim_Spec.announced B None h ->
      let replies := map snd (Optim_Model.run (Optim_Model.fresh (B:=B) st0 d0 e0) h) in
      exists (states : nat -> list vec) (powers : nat -> nat -> nat -> R * R) (first next : nat -> nat -> nat -> nat),
        (forall i cb c new r, nth_error h i = Some cb -> Optim_Spec.asks B cb = Some (c, new) -> table_of ct (number_of_controls N) c ->
           nth_error replies i = Some (Some r) ->
           exists U, random_trajectory ns sample N (Newton_Model.tolerance (Evolve_Model.newton cfg)) st ct x0 c (states i) U (powers i) (first i) (next i) /\
             (cb = Optim_Model.EvalF c new -> r = Optim_Model.Number (total_cost N st U)) /\
             (cb = Optim_Model.EvalG c new -> exists g, r = Optim_Model.Vector g /\ constraints_right variables st cons (states i) g) /\
             (cb = Optim_Model.EvalGradF c new -> exists g, r = Optim_Model.Vector g /\
                (solver_correct (number_of_states N) solve -> random_gradient_right ns N st ct c (states i) g)) /\
             (cb = Optim_Model.EvalJacG c new -> exists g, r = Optim_Model.Vector g /\
                (solver_correct (number_of_states N) solve ->
                 random_jacobian_right ns N variables st ct cons c (states i) (Jac_Model.supply_indices (constraint_jacobian o)) g))) /\
        (forall i j cb c new r cb' c' new', (i < j < List.length h)%nat -> nth_error h i = Some cb -> Optim_Spec.asks B cb = Some (c, new) ->
           nth_error replies i = Some (Some r) -> nth_error h j = Some cb' -> Optim_Spec.asks B cb' = Some (c', new') ->
           (forall k cb c, (i < k <= j)%nat -> nth_error h k = Some cb -> Optim_Spec.asks B cb <> Some (c, true)) ->
           c' = c /\ states j = states i /\ powers j = powers i /\ first j = first i /\ next j = next i) /\
        (forall i j cb c new r cb' c' new' r' k cb'' c'', (i < k <= j)%nat ->
           nth_error h i = Some cb -> Optim_Spec.asks B cb = Some (c, new) -> table_of ct (number_of_controls N) c -> nth_error replies i = Some (Some r) ->
           nth_error h j = Some cb' -> Optim_Spec.asks B cb' = Some (c', new') -> table_of ct (number_of_controls N) c' -> nth_error replies j = Some (Some r') ->
           nth_error h k = Some cb'' -> Optim_Spec.asks B cb'' = Some (c'', true) ->
           forall a b p, (S a < List.length st)%nat -> (S b < List.length st)%nat -> (p < List.length nodes)%nat -> (next i a p <= first j b p)%nat).
Proof.
  intros G LU pcg sampling entropy nan factor linsolve solve fuel sfuel uninit ns es nodes edges cfg st ct cons x0 iv o
    (Hm & Ho & HW & HP & HB & Hst & Hlen & Hct & HS & Hn & Hmi & Htol). cbv zeta.
  destruct (variables_exist _ _ HW HS) as [variables V]. exists variables, (samples_of sampling nodes). split; [apply variables_right, V|]. split.
  - intros j nd s E1 E2. unfold samples_of. rewrite E1, E2. reflexivity.
  - intros st0 d0 e0 h Hh.
    exact (random_answers pcg sampling entropy nan factor linsolve solve fuel sfuel uninit ns es nodes edges Hm cfg st ct cons x0 iv o Ho HW HP HB Hst Hlen Hct HS Hn Hmi Htol
             st0 d0 e0 h Hh variables V).
Qed.
Print Assumptions C102_answers.

(** The case: a pressure of 50, a compressor that adds 10, a sink with a constraint, and beside them
    a node that takes a random power with mean 1. *)
Definition random_init : init_values :=
  mk_init (mk_ivec [0; 1] 1 [10; 10]) (mk_ivec [0; 1] 1 [5; 5]) (mk_ivec [0; 1] 1 [20; 20]) (mk_ivec [1] 1 [40]) (mk_ivec [1] 1 [70]).
Lemma random_ctor : exists o, optimizer_ctor 6 1 1 [0; 1] [0; 1] [1] [1; 0; 50; 3; 60; 3] random_init = Ok o.
Proof.
  assert (I1 : increasing [0; 1]) by (repeat constructor; lra).
  apply C85_accepts. split; [reflexivity|]. split; [exists [0; 1]; intros v [<-|[<-|[<-|[]]]]; split; reflexivity|].
  split; [exists [1]; intros v [<-|[<-|[]]]; split; reflexivity|].
  split; [apply is_sorted_nondecreasing, is_sorted_increasing, I1|].
  split; [apply is_sorted_nondecreasing, is_sorted_increasing, I1|].
  split; [apply is_sorted_nondecreasing; reflexivity|].
  split.
  - split; [discriminate|]. split; [discriminate|]. cbn [nth last]. change tolerance with EPSILON. pose proof EPSILON_pos.
    intros t [<-|[<-|[]]]; lra.
  - exists [1%nat]. split; [split|split; [reflexivity|]].
    + intros [|k] i H; [injection H as <-; cbn; lia|destruct k; discriminate].
    + intros [|k] i i' H H'; [discriminate|destruct k; discriminate].
    + intros [|k] i H; [injection H as <-; reflexivity|destruct k; discriminate].
Qed.
(** The case meets the conditions of [C102_answers]. *)
Example C102_answers_case G (pcg : (nat -> list Z) -> G) entropy uninit : exists g used o,
  random_problem pcg entropy uninit random_entries small_edges_json (random_nodes g used) opt_edges small_solver [0; 1] [0; 1] [1] [1; 0; 50; 3; 60; 3] random_init o.
Proof.
  destruct random_ctor as [o Ho].
  set (seed := Seed_Model.make_random_seed (entropy 2%nat)).
  exists (fst (Seed_Model.normaldistribution pcg seed)), (snd (Seed_Model.normaldistribution pcg seed)), o. unfold random_problem. cbv zeta.
  split. { apply random_construct. unfold Seed_Model.stochastic_node. fold seed. destruct (Seed_Model.normaldistribution pcg seed). reflexivity. }
  split; [exact Ho|].
  split; [unfold well_formed; cbn; repeat constructor; cbn; auto; discriminate|].
  split; [unfold pipes_ok; cbn; repeat constructor|].
  split. { intros t It j. assert (T : (0 <= t <= 2)%R) by (destruct It as [<-|[<-|[]]]; lra).
    destruct j as [|[|[|j]]]; cbn [network_of random_nodes opt_nodes app nodes map nodetype_of mn_data nth_error nn_node].
    - unfold Input_Model.boundary_of. rewrite small_interp by lra. eexists. reflexivity.
    - unfold Input_Model.boundary_of. rewrite small_interp by lra. eexists. reflexivity.
    - unfold Input_Model.boundary_of. rewrite random_means by lra. eexists. reflexivity.
    - destruct j; exact Logic.I. }
  split; [repeat constructor; lra|]. split; [cbn; lia|]. split; [repeat constructor; lra|].
  split. { intros j [<-|[]]. split; [cbn; auto|]. exists 0%nat, (mkEdge 1 0 (ECompressor 1)), dend. cbn. auto. }
  split; [cbn; lia|]. split; cbn; [lia|lra].
Qed.

(** There are variations: in the case, the control at time 1 may vary, and with it the pressure at
    the sink; the power drawn in the step is any positive number. *)
Example C102_derivatives_case G (g : G) used v : random_variation random_entries (added (v * v - 1)) (network_of (map nn_node (random_nodes g used)) opt_edges)
  [0; 1] [0; 1] [10; 10] [varied_state 1 0; varied_state v 0] (fun s => [10; 10 + s]) (fun j _ => INR j) (varied_states v).
Proof. apply varied_variation. Qed.

(** The callbacks of the two refutations below, for any backend. *)
Section Any.
Import Optim_Model.
Variable B : backend.
Lemma up_handle (u d1 : bool) t d e e' c X : simulate B e c = (e', Some X) ->
  handle (mk_opt (B:=B) u d1 t d e) (EvalG c true) = (mk_opt (B:=B) true false X d e', Some (Vector (b_constr B c X))).
Proof.
  intro E. cbn [handle announce]. unfold new_x, evaluate_constraints, refresh.
  cbn [states_up_to_date env cached_states stored derivatives_up_to_date]. rewrite E. reflexivity.
Qed.
Lemma down_handle (u d1 : bool) t d e e' c : simulate B e c = (e', None) ->
  snd (handle (mk_opt (B:=B) u d1 t d e) (EvalG c true)) = None.
Proof.
  intro E. cbn [handle announce]. unfold new_x, evaluate_constraints, refresh.
  cbn [states_up_to_date env cached_states stored derivatives_up_to_date]. rewrite E. reflexivity.
Qed.
Lemma three_answers st0 d0 e0 e1 e2 e3 c y X Y : simulate B e0 c = (e1, Some X) -> simulate B e1 y = (e2, Some Y) -> simulate B e2 c = (e3, None) ->
  map snd (run (fresh (B:=B) st0 d0 e0) [EvalG c true; EvalG y true; EvalG c true]) = [Some (Vector (b_constr B c X)); Some (Vector (b_constr B y Y)); None].
Proof.
  intros E1 E2 E3. unfold fresh. cbn [run map]. rewrite (up_handle _ _ _ _ _ _ _ _ E1). rewrite (up_handle _ _ _ _ _ _ _ _ E2).
  pose proof (down_handle true false Y d0 e2 e3 c E3) as Q.
  destruct (handle (mk_opt (B:=B) true false Y d0 e2) (EvalG c true)) as [o3 r3]. cbn [snd map] in Q |- *. rewrite Q. reflexivity.
Qed.
Lemma one_answer st0 d0 e0 e1 e2 c X Y : simulate B e0 c = (e1, Some X) -> simulate B e1 c = (e2, Some Y) -> forall lower upper,
  cached_states (after (fresh (B:=B) st0 d0 e0) [EvalG c true]) = X /\
  map snd (run (fresh (B:=B) st0 d0 e0) [EvalG c true]) = [Some (Vector (b_constr B c X))] /\
  exists o1 o2, finalize_solution (after (fresh (B:=B) st0 d0 e0) [EvalG c true]) c = (o1, (b_cost B c X, b_penalty B c X)) /\
    final_reports o1 c lower upper
    = (o2, (obind (maxCoeff (vminus lower (b_constr B c X))) (fun lv => obind (maxCoeff (vminus (b_constr B c X) upper)) (fun uv => Ok (Rmax 0 lv, Rmax 0 uv))), Y)).
Proof.
  intros E1 E2 lower upper. unfold after, fresh. cbn [run map]. rewrite (up_handle _ _ _ _ _ _ _ _ E1). cbn [fst snd map List.last cached_states].
  split; [reflexivity|]. split; [reflexivity|].
  exists (mk_opt (B:=B) true false X d0 e1). eexists. split; [reflexivity|].
  unfold final_reports, evaluate_constraints, evaluate_objective, evaluate_cost, evaluate_penalty, refresh, new_x.
  cbn [states_up_to_date env cached_states stored derivatives_up_to_date]. rewrite E2. reflexivity.
Qed.
End Any.

(** Full statement: the answer to a callback is determined by the point.  It is false: after Ipopt
    was somewhere else, the values at a point are those of another random trajectory, and the
    simulation may even fail where it succeeded before.  Here this happens with every linear
    solver. *)
Theorem C102_repeatable_refuted : exists G (pcg : (nat -> list Z) -> G) (sampling : G -> nat -> R -> R -> R) entropy uninit ns es nodes edges cfg st ct cons x0 iv o c y,
  random_problem pcg entropy uninit ns es nodes edges cfg st ct cons x0 iv o /\
  table_of ct (number_of_controls (network_of (map nn_node nodes) edges)) c /\
  forall nan LU (factor : list drawn -> R -> R -> vec -> list R -> vec -> option LU) linsolve solve fuel sfuel st0 d0,
    let B := noisy_backend sampling nan factor linsolve solve fuel (S sfuel) cfg nodes edges o in
    let h := [Optim_Model.EvalG (B:=B) c true; Optim_Model.EvalG (B:=B) y true; Optim_Model.EvalG (B:=B) c true] in
    Optim_Spec.announced B None h /\
    exists g middle, map snd (Optim_Model.run (Optim_Model.fresh (B:=B) st0 d0 (map (fun _ => undrawn nan) nodes)) h) = [Some (Optim_Model.Vector g); middle; None].
Proof.
  set (draws := fun (_ : unit) (k : nat) (_ _ : R) => if (k <? 4)%nat then 0 else -2).
  destruct (C102_answers_case unit (fun _ => tt) (fun _ => []) (fun _ => 0)) as (gen & used & o & C).
  exists unit, (fun _ => tt), draws, (fun _ => []), (fun _ => 0), random_entries, small_edges_json, (random_nodes gen used), opt_edges, small_solver, [0; 1], [0; 1], [1], [1; 0; 50; 3; 60; 3], random_init, o, [10; 10], [11; 10].
  split; [exact C|]. split; [reflexivity|]. intros nan LU factor linsolve solve fuel sfuel st0 d0. cbv zeta. split; [cbn; auto 10|].
  destruct C as (_ & Ho & _). destruct (constructed _ _ _ _ _ _ _ _ _ Ho) as (_ & pairs & l & _ & Eo).
  set (B := noisy_backend draws nan factor linsolve solve fuel (S sfuel) small_solver (random_nodes gen used) opt_edges o).
  assert (Sim : forall e a, Optim_Model.simulate B e [a; 10] = match Evolve_Model.simulate (random_system draws gen used nan factor linsolve) fuel (S sfuel) small_solver (mk_ivec [0; 1] 1 [a; 10]) [0; 1] (random_state 1) e with
    | (Some (Ok rows), e') => (e', Some (states_table 6 rows)) | (_, e') => (e', None) end).
  { intros e a. unfold B. cbn [Optim_Model.simulate noisy_backend]. unfold noisy_simulation, mapped_controls. rewrite Eo. reflexivity. }
  set (table := states_table 6 [random_state 1; random_state 1]).
  assert (S1 : forall e a k, samples (nth 2 e (undrawn nan)) = k -> (k < 4)%nat -> Optim_Model.simulate B e [a; 10]
    = ([nth 0 e (undrawn nan); nth 1 e (undrawn nan); mkDrawn 1 0 (S (S k))], Some table)).
  { intros e a k Ek Lk. rewrite Sim. rewrite (random_quiet draws gen used nan factor linsolve a e fuel sfuel); [rewrite Ek; reflexivity|].
    unfold draws. rewrite Ek. apply Nat.ltb_lt in Lk. rewrite Lk. reflexivity. }
  assert (S2 : forall e a k, samples (nth 2 e (undrawn nan)) = k -> (4 <= k)%nat -> exists e', Optim_Model.simulate B e [a; 10] = (e', None)).
  { intros e a k Ek Lk. rewrite Sim. destruct (Evolve_Model.simulate (random_system draws gen used nan factor linsolve) fuel (S sfuel) small_solver (mk_ivec [0; 1] 1 [a; 10]) [0; 1] (random_state 1) e) as [[[rows| |]|] e'] eqn:Es; eauto. exfalso.
    revert Es. apply random_never. intros k' Lk'. unfold draws. rewrite Ek in Lk'. destruct (Nat.ltb_spec k' 4); [lia|reflexivity]. }
  destruct (S2 [undrawn nan; undrawn nan; mkDrawn 1 0 4] 10 4%nat eq_refl (le_n 4)) as [e' E3].
  exists (Optim_Model.b_constr B [10; 10] table), (Some (Optim_Model.Vector (Optim_Model.b_constr B [11; 10] table))).
  exact (three_answers B st0 d0 (map (fun _ => undrawn nan) (random_nodes gen used)) [undrawn nan; undrawn nan; mkDrawn 1 0 2] [undrawn nan; undrawn nan; mkDrawn 1 0 4] e' [10; 10] [11; 10] table table
    (S1 (map (fun _ => undrawn nan) (random_nodes gen used)) 10 0%nat eq_refl ltac:(lia)) (S1 [undrawn nan; undrawn nan; mkDrawn 1 0 2] 11 2%nat eq_refl ltac:(lia)) E3).
Qed.
Print Assumptions C102_repeatable_refuted.

(** Full statement: after the optimization the saved states are those to which the reported
    violations belong.  It is false: the objective is evaluated again before the states are saved,
    with new random numbers.  Here the voltage at the end is 1 in the trajectory of the last
    callback, from which the violations are computed, and 2 in the saved one. *)
Theorem C102_saved_refuted : exists G (pcg : (nat -> list Z) -> G) (sampling : G -> nat -> R -> R -> R) entropy nan LU (factor : list drawn -> R -> R -> vec -> list R -> vec -> option LU)
    linsolve uninit ns es nodes edges cfg st ct cons x0 iv o c,
  random_problem pcg entropy uninit ns es nodes edges cfg st ct cons x0 iv o /\
  table_of ct (number_of_controls (network_of (map nn_node nodes) edges)) c /\
  forall solve st0 d0 lower upper,
    let n := number_of_states (network_of (map nn_node nodes) edges) in
    let B := noisy_backend sampling nan factor linsolve solve 1 1 cfg nodes edges o in
    let h := [Optim_Model.EvalG (B:=B) c true] in
    let start := Optim_Model.fresh (B:=B) st0 d0 (map (fun _ => undrawn nan) nodes) in
    Optim_Spec.announced B None h /\
    exists shown g o1 cost penalty o2 violations saved,
      Optim_Model.cached_states (Optim_Model.after start h) = shown /\
      map snd (Optim_Model.run start h) = [Some (Optim_Model.Vector g)] /\ g = Optim_Model.b_constr B c shown /\
      Optim_Model.finalize_solution (Optim_Model.after start h) c = (o1, (cost, penalty)) /\
      Optim_Model.final_reports o1 c lower upper = (o2, (violations, saved)) /\
      violations = obind (Optim_Model.maxCoeff (Optim_Model.vminus lower g)) (fun lv =>
                   obind (Optim_Model.maxCoeff (Optim_Model.vminus g upper)) (fun uv => Ok (Rmax 0 lv, Rmax 0 uv))) /\
      Interp_Spec.entry shown n 1 0 = 1 /\ Interp_Spec.entry saved n 1 0 = 2.
Proof.
  set (draws := fun (_ : unit) (k : nat) (_ _ : R) => if (k <? 2)%nat then 0 else 3).
  destruct (C102_answers_case unit (fun _ => tt) (fun _ => []) (fun _ => 0)) as (gen & used & o & C).
  exists unit, (fun _ => tt), draws, (fun _ => []), 0, unit, random_factor, random_solve, (fun _ => 0), random_entries, small_edges_json, (random_nodes gen used), opt_edges, small_solver, [0; 1], [0; 1], [1], [1; 0; 50; 3; 60; 3], random_init, o, [10; 10].
  split; [exact C|]. split; [reflexivity|]. intros solve st0 d0 lower upper. cbv zeta. split; [cbn; auto|].
  destruct C as (_ & Ho & _). destruct (constructed _ _ _ _ _ _ _ _ _ Ho) as (_ & pairs & l & _ & Eo).
  set (B := noisy_backend draws 0 random_factor random_solve solve 1 1 small_solver (random_nodes gen used) opt_edges o).
  assert (Sim : forall e a, Optim_Model.simulate B e [a; 10] = match Evolve_Model.simulate (random_system draws gen used 0 random_factor random_solve) 1 1 small_solver (mk_ivec [0; 1] 1 [a; 10]) [0; 1] (random_state 1) e with
    | (Some (Ok rows), e') => (e', Some (states_table 6 rows)) | (_, e') => (e', None) end).
  { intros e a. unfold B. cbn [Optim_Model.simulate noisy_backend]. unfold noisy_simulation, mapped_controls. rewrite Eo. reflexivity. }
  set (e0 := map (fun _ => undrawn 0) (random_nodes gen used)).
  assert (S1 : Optim_Model.simulate B e0 [10; 10] = ([undrawn 0; undrawn 0; mkDrawn 1 0 2], Some (states_table 6 [random_state 1; random_state 1]))).
  { rewrite Sim. rewrite (random_quiet draws gen used 0 random_factor random_solve 10 e0 1 0) by reflexivity. reflexivity. }
  assert (S2 : Optim_Model.simulate B [undrawn 0; undrawn 0; mkDrawn 1 0 2] [10; 10] = ([undrawn 0; undrawn 0; mkDrawn 4 0 4], Some (states_table 6 [random_state 1; random_state 2]))).
  { rewrite Sim. rewrite (random_jump draws gen used 0 10 [undrawn 0; undrawn 0; mkDrawn 1 0 2]) by reflexivity. reflexivity. }
  set (table := states_table 6 [random_state 1; random_state 1]) in *. set (table' := states_table 6 [random_state 1; random_state 2]) in *.
  destruct (one_answer B st0 d0 e0 [undrawn 0; undrawn 0; mkDrawn 1 0 2] [undrawn 0; undrawn 0; mkDrawn 4 0 4] [10; 10] table table' S1 S2 lower upper) as (H1 & H2 & o1 & o2 & H3 & H4).
  eexists. eexists. exists o1. eexists. eexists. exists o2. eexists. eexists. split; [exact H1|]. split; [exact H2|]. split; [reflexivity|]. split; [exact H3|]. split; [exact H4|].
  split; [reflexivity|]. split; reflexivity.
Qed.
Print Assumptions C102_saved_refuted.
