(** * Simulations of networks whose state is not determined (C108) *)
From Coq Require Import Reals Lra Lia ZArith List Arith Bool Classical.
From Coquelicot Require Import Coquelicot Complex.
From Verif Require Import Base Interp_Model Calc Euler_Model Euler_Spec Box_Model Net_Model Net_Spec Net_Props Newton_Model Evolve_Model Sim_Model Sim_Spec
  Sim_Proofs3 Sim_Props Grid_Spec Grid_Props Level_Spec Level_Props Stuck_Spec Stuck_Proofs Stuck_Proofs2.
From Verif Require Forest_Proofs4.
Import ListNotations.
Local Open Scope R_scope.

(** The matrix of the linear systems in Newton's method has no inverse, in whatever state it is computed: also for
    turbulent flow in the pipes and for states without meaning, which C105_singular and C107_singular exclude. *)
Theorem C105_always : forall N inside t0 t1 last x c ts,
  well_formed N -> island N inside -> phase_free N inside -> d_evaluate_d_new_state N t0 t1 last x c = Ok ts ->
  singular (number_of_states N) (matrix_of ts).
Proof. exact island_always. Qed.
Print Assumptions C105_always.
Theorem C107_always : forall N h z t0 t1 last x c ts,
  well_formed N -> unseen N h z -> seen_somewhere N h z -> d_evaluate_d_new_state N t0 t1 last x c = Ok ts ->
  singular (number_of_states N) (matrix_of ts).
Proof. exact unseen_always. Qed.
Print Assumptions C107_always.
Theorem C108_matrix : forall N t0 t1 last x c ts,
  well_formed N -> undetermined N -> d_evaluate_d_new_state N t0 t1 last x c = Ok ts ->
  singular (number_of_states N) (matrix_of ts).
Proof.
  intros N t0 t1 last x c ts W [(inside & A & B)|(h & z & A & B)] E.
  - eapply C105_always; eassumption.
  - eapply C107_always; eassumption.
Qed.
Print Assumptions C108_matrix.

(** So with a linear solver that notices this, Newton's method never changes its start value: it accepts it or throws. *)
Theorem C108_solve : forall E LU n net prepare factor linsolve fuel cfg full e t0 t1 last c x y s,
  well_formed (net e) -> number_of_states (net e) = n -> undetermined (net e) -> reports_singular n net factor ->
  solve (system_of (network_problem E LU n net prepare factor linsolve) e t0 t1 last c) fuel cfg full x = Some (Ok (y, s)) ->
  y = x.
Proof.
  intros E LU n net prepare factor linsolve fuel cfg full e t0 t1 last c x y s W Hn U F H.
  refine (solve_stays (system_of (network_problem E LU n net prepare factor linsolve) e t0 t1 last c) _ _ _ _ _ _ _ H). intro x'. cbn. destruct (factor e t0 t1 last c x') as [lu|] eqn:Ef; [|reflexivity].
  destruct (F _ _ _ _ _ _ _ Ef) as (ts & Et & NS). exfalso. apply NS. rewrite <- Hn. eapply C108_matrix; eassumption.
Qed.
Print Assumptions C108_solve.

(** A simulation that ends without an exception has stored the initial state at all times, and the initial state
    satisfies the equations of all time steps up to the tolerance. *)
Theorem C108_simulation : forall E LU n net prepare factor linsolve fuel sfuel cfg controls points x e rows e',
  (forall e, well_formed (net e) /\ pipes_ok (net e) /\ number_of_states (net e) = n /\ undetermined (net e)) ->
  (forall e t, In t points -> boundary_defined (net e) t) ->
  reports_singular n net factor ->
  (0 <= maximal_iterations (newton cfg))%Z -> tolerance (newton cfg) < 1000000 ->
  simulate (network_problem E LU n net prepare factor linsolve) fuel sfuel cfg controls points x e = (Some (Ok rows), e') ->
  rows = map (fun _ => x) points /\
  forall i t0 t1, nth_error points i = Some t0 -> nth_error points (S i) = Some t1 ->
    exists c e0 e1, prepare e0 t0 t1 x c = Ok e1 /\
      network_equations_within (net e1) (tolerance (newton cfg)) t0 t1 x x (control_vector c).
Proof.
  intros E LU n net prepare factor linsolve fuel sfuel cfg controls points x e rows e' HN HB F Hm Ht H.
  assert (Fa : List.Forall (eq x) rows).
  { eapply simulate_stays; [|exact H]. intros e2 t0 t1 last c x'. cbn.
    destruct (factor e2 t0 t1 last c x') as [lu|] eqn:Ef; [|reflexivity].
    destruct (HN e2) as (W & _ & Hn & U). destruct (F _ _ _ _ _ _ _ Ef) as (ts & Et & NS). exfalso. apply NS. rewrite <- Hn.
    eapply C108_matrix; eassumption. }
  destruct (C90_simulation E LU n net prepare factor linsolve fuel sfuel cfg controls points x e rows e'
    ltac:(intro e2; destruct (HN e2) as (? & ? & ? & _); auto) HB Hm Ht H) as (L & _ & K).
  assert (R : forall i, (i < length points)%nat -> nth_error rows i = Some x).
  { intros i Hi. destruct (nth_error rows i) as [y|] eqn:Ey; [|apply nth_error_None in Ey; lia].
    rewrite List.Forall_forall in Fa. rewrite <- (Fa y (nth_error_In _ _ Ey)). reflexivity. }
  split.
  - clear K H R HB. revert points L. induction rows as [|y rows IH]; intros [|t points] L; try discriminate; [reflexivity|].
    inversion Fa as [|? ? F1 F2]; subst. cbn [map]. f_equal. apply IH; [exact F2|]. injection L as L. exact L.
  - intros i t0 t1 P0 P1. assert (S i < length points)%nat by (apply nth_error_Some; congruence).
    destruct (K i t0 t1 x x P0 P1 (R i ltac:(lia)) (R (S i) ltac:(lia))) as (c & e0 & e1 & _ & Hp & Q). eauto.
Qed.
Print Assumptions C108_simulation.

(** Case: the load that is supplied by a node with given power and voltage, and a linear solver that succeeds for all
    invertible matrices.  From a solution the simulation stays there, from all zeros it does not end normally. *)
Definition exact_factor (net : unit -> network) (n : nat) (e : unit) (t0 t1 : R) (last : vec) (c : list R) (x : vec) : option unit :=
  if Forest_Proofs4.excluded_middle_informative (exists ts, d_evaluate_d_new_state (net e) t0 t1 last x (control_vector c) = Ok ts /\ ~ singular n (matrix_of ts))
  then Some tt else None.
Definition free_problem := network_problem unit unit 4 (fun _ => free_net) (fun e _ _ _ _ => Ok e)
  (exact_factor (fun _ => free_net) 4) (fun _ b => b).
Lemma exact_reports net n : reports_singular n net (exact_factor net n).
Proof. intros e t0 t1 last c x lu. unfold exact_factor. destruct (Forest_Proofs4.excluded_middle_informative _) as [H|]; [intros _; exact H|discriminate]. Qed.
Lemma free_boundary t : boundary_defined free_net t.
Proof. intro j. destruct j as [|[|j]]; cbn; eauto. destruct j; cbn; exact Logic.I. Qed.
Lemma free_undetermined : undetermined free_net.
Proof. left. exists (fun _ => true). destruct C105_island_case as (_ & _ & _ & _ & _ & _ & A & B & _). auto. Qed.
Lemma free_solution t t' : network_equations free_net t t' (supplied_state 0) (supplied_state 0) (control_vector []).
Proof.
  assert (V0 : voltage free_net 0 (supplied_state 0) = (1, 0)) by (unfold voltage; cbn; rewrite cos_0, sin_0; f_equal; ring).
  assert (V1 : voltage free_net 1 (supplied_state 0) = (9 / 10, 0)) by (unfold voltage; cbn; rewrite cos_0, sin_0; f_equal; ring).
  split.
  - intros j nt H. destruct j as [|[|j]]; cbn in H; [injection H as <-..|destruct j; discriminate]; cbn [node_equation].
    + exists (v2 (1 / 10) 1). split; [reflexivity|]. split; [|reflexivity]. unfold power, current.
      cbn [free_net supplied edges csum fold_right e_type e_from e_to Nat.eqb]. fold free_net. rewrite V0, V1.
      unfold Cmult, Cconj, Cplus, RtoC. cbn. field.
    + exists (v2 (-9 / 100) (-45 / 100)). split; [reflexivity|]. unfold power, current.
      cbn [free_net supplied edges csum fold_right e_type e_from e_to Nat.eqb]. fold free_net. rewrite V0, V1.
      unfold Cmult, Cconj, Cplus, RtoC. cbn. f_equal; field.
  - intros i e H. destruct i as [|i]; cbn in H; [injection H as <-; cbn; exact Logic.I|destruct i; discriminate].
Qed.
Example C108_case :
  simulate free_problem 1 1 sim_settings none [0; 1; 2] (supplied_state 0) tt =
    (Some (Ok [supplied_state 0; supplied_state 0; supplied_state 0]), tt) /\
  (forall rows e', simulate free_problem 1 1 sim_settings none [0; 1; 2] (fun _ => 0) tt <> (Some (Ok rows), e')) /\
  reports_singular 4 (fun _ : unit => free_net) (exact_factor (fun _ => free_net) 4).
Proof.
  destruct C105_island_case as (_ & _ & W & HP & _). split; [|split].
  - unfold simulate. change (current_controls none 1) with (Ok (@nil R)). cbv iota. unfold free_problem.
    rewrite steady_loop; [reflexivity|reflexivity| |reflexivity|exact W|exact HP| |].
    + cbn. lra.
    + intros. apply free_boundary.
    + intros. apply free_solution.
  - intros rows e' H.
    destruct (C108_simulation unit unit 4 (fun _ => free_net) (fun e _ _ _ _ => Ok e) (exact_factor (fun _ => free_net) 4) (fun _ b => b)
      1 1 sim_settings none [0; 1; 2] (fun _ => 0) tt rows e') as (_ & K); try exact H.
    + intros _. split; [exact W|]. split; [exact HP|]. split; [reflexivity|exact free_undetermined].
    + intros. apply free_boundary.
    + apply exact_reports.
    + cbn. lia.
    + cbn. lra.
    + destruct (K 0%nat 0 1 eq_refl eq_refl) as (c & _ & _ & _ & (Q & _)).
      specialize (Q 0%nat _ eq_refl). cbn [node_equation_within] in Q. destruct Q as (v & Ev & _ & Q).
      injection Ev as <-. unfold within in Q. cbn in Q. rewrite Rabs_left in Q by lra. lra.
  - apply exact_reports.
Qed.
(** Case: the compressor with a bypass, behind a pipe with turbulent flow. *)
Definition piped_bypass : network :=
  mkNet [Pressurenode (fun _ => Ok (v2 50 0)); Innode; Flownode true (fun _ => Ok (v2 10 0))]
        [mkEdge 0 1 (EPipe 1 (1 / 1000) 5000 3); mkEdge 1 2 (ECompressor 1); mkEdge 1 2 EControlvalve].
Example C108_gas_case : setup_ok piped_bypass = true /\ well_formed piped_bypass /\ undetermined piped_bypass.
Proof.
  split; [reflexivity|]. split; [repeat constructor; cbn; auto; lia|].
  right. exists (fun _ => 0), (fun i => if Nat.eqb i 1 then 1 else if Nat.eqb i 2 then -1 else 0). split.
  - split; [reflexivity|]. split.
    + intros i e H. destruct i as [|[|[|i]]]; cbn in H; try (injection H as <-; cbn; auto). destruct i; discriminate.
    + intros j H. destruct j as [|[|[|j]]]; cbn in H; try (destruct H; fail); [unfold divergence; cbn; ring..|destruct j; destruct H].
  - exists 1%nat, (mkEdge 1 2 (ECompressor 1)), dstart. repeat split. right. cbn. lra.
Qed.
