(** * Properties of simulations with stochastic power nodes: C100 *)
From Coq Require Import Reals ZArith Lra Lia List Bool Arith String.
From Verif Require Import Base Interp_Model Interp_Spec Interp_Proofs Json_Model Json_Spec Json_Proofs Json_Proofs2 Defaults_Model Defaults_Spec Controls_Model Controls_Spec Controls_Proofs
  Calc Euler_Model Euler_Spec Newton_Model Evolve_Model Evolve_Spec Net_Model Net_Spec States_Model States_Spec Factory_Model Factory_Spec Factory_Proofs8 Factory_Props2 Sim_Model Sim_Spec Sim_Proofs2 Sim_Props Stoch_Model
  Input_Model Input_Spec Input_Proofs Input_Proofs2 Input_Proofs3 Input_Proofs4 Input_Proofs5
  Noise_Model Noise_Spec Noise_Proofs Noise_Proofs2 Noise_Proofs3 Noise_Proofs4 Noise_Proofs5 Noise_Proofs6.
From Verif Require Seed_Model Seed_Spec Seed_Props.
Import ListNotations.
Local Open Scope string_scope.
Local Open Scope list_scope.

(** Whatever the random numbers, the linear solver and uninitialised memory are.  The equations of
    every step hold for powers of the stochastic nodes that are ends of paths of their processes,
    which start at the powers of the last state and use new samples of the generator of the seed
    that the file reports.  The file reports for all times the powers of the last step, see
    [C100_saved_refuted]. *)
Theorem C100_simulation : forall G LU (pcg : (nat -> list Z) -> G) (sampling : G -> nat -> R -> R -> R) entropy nan
    (factor : list drawn -> R -> R -> vec -> list R -> vec -> option LU) linsolve fuel sfuel uninit read directory out,
  (forall j, Forall Seed_Spec.is_word (entropy j)) ->
  run_noisy pcg sampling entropy nan factor linsolve fuel sfuel uninit read directory = Some (Ok out) ->
  exists all settings problem ns es N cfg points initial seeds,
    read (directory ++ "/problem_data.json")%string = Ok all /\ entry_of all "simulation_settings" = Some settings /\
    problem_of all directory problem /\ build_net read (the_defaults (Some all)) problem = Ok (ns, es) /\
    describes_network (map mean_entry ns) es N /\ solver_of settings cfg /\ times_of settings points /\
    read (directory ++ "/initial.json")%string = Ok initial /\
    results_listed "nodes" noisy_with_states ns out /\ results_listed "connections" edge_with_states es out /\
    (forall j entry, nth_error ns j = Some entry -> fst entry = stochastic_type ->
       (exists G B b, nth_error (Net_Model.nodes N) j = Some (Powernode PQ false G B b) /\ means_given (snd entry) b) /\
       Seed_Spec.words 8 (seeds j) /\ seed_reported out (id (snd entry)) (seed_json (seeds j)) /\
       (seed_given (snd entry) = None -> seeds j = Seed_Model.make_random_seed (entropy j)) /\
       (forall l, Seed_Spec.words 8 l -> seed_given (snd entry) = Some (seed_json l) -> seeds j = l)) /\
    (well_formed N -> pipes_ok N -> (forall t, In t points -> boundary_defined N t) ->
     (0 <= maximal_iterations (newton cfg))%Z -> (tolerance (newton cfg) < 1000000)%R ->
     exists states (powers : nat -> nat -> R * R) (before after : nat -> nat -> nat),
       List.length states = List.length points /\ (2 <= List.length points)%nat /\
       (initial_complete (map mean_entry ns) es N initial ->
          forall x, nth_error states 0 = Some x -> initial_state_given (map mean_entry ns) es N initial x) /\
       (forall k t x, nth_error points k = Some t -> nth_error states k = Some x ->
          edges_reported es N out k t x /\ nodes_reported ns N out k t x /\
          stochastic_reported ns N out k t x (powers (List.length points - 2)%nat)) /\
       forall k t0 t1 u v, nth_error points k = Some t0 -> nth_error points (S k) = Some t1 ->
         nth_error states k = Some u -> nth_error states (S k) = Some v ->
         (exists c, network_equations_within (with_powers ns (powers k) N) (tolerance (newton cfg)) t0 t1 u v c /\
           ((0 < number_of_controls N)%nat -> exists control control_points,
              read (directory ++ "/control.json")%string = Ok control /\ control_times_of all settings control_points /\
              (controls_complete es N control control_points -> controls_given es N control control_points t1 c))) /\
         forall j entry G B b, nth_error ns j = Some entry -> fst entry = stochastic_type ->
           nth_error (Net_Model.nodes N) j = Some (Powernode PQ false G B b) ->
           (after k j <= before (S k) j)%nat /\
           exists mean, b t1 = Ok mean /\
             powers_drawn (snd entry) (sampling (Seed_Model.setup_random_number_generator pcg (seeds j))) (before k j) (after k j)
               (power N j G B u) (mean 0%nat, mean 1%nat) (t1 - t0)%R (powers k j)).
Proof.
  intros G LU pcg sampling entropy nan factor linsolve fuel sfuel uninit read directory out Fw H. unfold run_noisy in H.
  destruct (prepare_noisy pcg entropy uninit read directory) as [[p nodes]| |] eqn:Ep; try discriminate.
  destruct (noisy_prepared _ _ _ _ _ _ _ Ep) as (all & settings & problem & ns & es & t & initial & comps & nc & A & B & C & D & E & En & F & I & J & K & L & M & O & Q).
  unfold simulate_noisy in H.
  destruct (simulate (noisy_problem sampling nan factor linsolve nodes (pp_edges p) (pp_number p)) fuel sfuel (pp_settings p) (pp_controls p) (pp_points p)
    (vec_of (pp_initial p)) (map (fun _ => undrawn nan) nodes)) as [[[rows| |]|] e'] eqn:Sim; try discriminate.
  injection H as Out. destruct (noisy_inv _ _ _ _ _ _ _ E) as (Em & Ln & Mk).
  pose proof (mean_network (map nn_node nodes) (pp_edges p)) as Mn. rewrite En in F.
  destruct (mean_indices _ _ _ _ F) as (comps' & F' & Rt). destruct (components_placed _ _ _ _ F) as (Enum & _ & _).
  assert (Ds : exists seeds, forall j entry, nth_error ns j = Some entry -> fst entry = stochastic_type ->
    exists n s Gc Bc iv, nth_error nodes j = Some n /\ nn_noise n = Some s /\ mn_data (nn_node n) = DPower PQ false Gc Bc iv /\
      powernode_ctor uninit PQ false (snd entry) = Ok (DPower PQ false Gc Bc iv) /\ mn_id (nn_node n) = id (snd entry) /\
      stochastic_ctor pcg (entropy j) (snd entry) = Ok (s, nn_output n) /\
      Seed_Spec.words 8 (seeds j) /\ distribution s = Seed_Model.setup_random_number_generator pcg (seeds j) /\ nn_output n = JObj [("seed", seed_json (seeds j))] /\
      (seed_given (snd entry) = None -> seeds j = Seed_Model.make_random_seed (entropy j)) /\
      (forall l, Seed_Spec.words 8 l -> seed_given (snd entry) = Some (seed_json l) -> seeds j = l)).
  { set (Good := fun j seed => forall entry, nth_error ns j = Some entry -> fst entry = stochastic_type ->
      exists n s Gc Bc iv, nth_error nodes j = Some n /\ nn_noise n = Some s /\ mn_data (nn_node n) = DPower PQ false Gc Bc iv /\
        powernode_ctor uninit PQ false (snd entry) = Ok (DPower PQ false Gc Bc iv) /\ mn_id (nn_node n) = id (snd entry) /\
        stochastic_ctor pcg (entropy j) (snd entry) = Ok (s, nn_output n) /\
        Seed_Spec.words 8 seed /\ distribution s = Seed_Model.setup_random_number_generator pcg seed /\ nn_output n = JObj [("seed", seed_json seed)] /\
        (seed_given (snd entry) = None -> seed = Seed_Model.make_random_seed (entropy j)) /\
        (forall l, Seed_Spec.words 8 l -> seed_given (snd entry) = Some (seed_json l) -> seed = l)).
    assert (X : forall m, exists seeds, forall j, (j < m)%nat -> Good j (seeds j)).
    { induction m as [|m [seeds IH]]; [exists (fun _ => []); intros j Lj; lia|].
      assert (Y : exists seed, Good m seed).
      { unfold Good. destruct (nth_error ns m) as [entry|] eqn:Ee; [|exists []; intros ? Z; discriminate].
        destruct (String.eqb_spec (fst entry) stochastic_type) as [Te|Te]; [|exists []; intros en' Z Z'; congruence].
        destruct (nth_error nodes m) as [n|] eqn:Enn; [|apply nth_error_None in Enn; assert (m < List.length ns)%nat by (apply nth_error_Some; congruence); lia].
        pose proof (noisy_as_made pcg entropy uninit nodes (pp_edges p) ns es E) as Na.
        destruct (nn_noise n) as [s|] eqn:Es.
        - destruct (stochastic_made pcg entropy uninit nodes (pp_edges p) ns es E m n s Enn Es) as (entry' & Gc & Bc & iv & E1 & E2 & E3 & E4 & E5 & E6 & o & E7 & E8).
          assert (entry' = entry) by congruence. subst entry' o. destruct (boundary_object _ _ _ _ _ E6) as (fs & Eb & _).
          destruct (node_seed _ _ _ _ _ (Fw m) E7 ltac:(eauto)) as (seed & S1 & S2 & S3 & S4 & S5).
          exists seed. intros en' Z _. assert (en' = entry) by congruence. subst en'. exists n, s, Gc, Bc, iv.
          exact (conj eq_refl (conj Es (conj E5 (conj E6 (conj E4 (conj E7 (conj S1 (conj S2 (conj S3 (conj S4 S5)))))))))).
        - exfalso. destruct (Mk m n Enn) as (entry' & E1 & E2). assert (entry' = entry) by congruence. subst entry'.
          destruct (make_noisy_mean _ _ _ _ _ E2) as (_ & _ & _ & [(_ & b & s & _ & _ & _ & Z & _)|(Z & _)]); [congruence|contradiction]. }
      destruct Y as [seed Y]. exists (fun j => if Nat.eqb j m then seed else seeds j). intros j Lj. destruct (Nat.eqb_spec j m) as [->|Nj]; [exact Y|apply IH; lia]. }
    destruct (X (List.length ns)) as [seeds S]. exists seeds. intros j entry Ee Te. apply S; auto. apply nth_error_Some. congruence. }
  destruct Ds as [seeds Ds].
  assert (Nd : forall j n Gc Bc iv, nth_error nodes j = Some n -> mn_data (nn_node n) = DPower PQ false Gc Bc iv ->
    nth_error (Net_Model.nodes (network_of (map nn_node nodes) (pp_edges p))) j = Some (Powernode PQ false Gc Bc (Input_Model.boundary_of iv))).
  { intros j n Gc Bc iv E1 E2. cbn. rewrite !nth_error_map, E1. cbn. unfold nodetype_of. rewrite E2. reflexivity. }
  rewrite Enum in Out.
  exists all, settings, problem, ns, es, (network_of (map nn_node nodes) (pp_edges p)), (pp_settings p), (pp_points p), initial, seeds.
  split; [exact A|]. split; [exact B|]. split; [exact C|]. split; [exact D|].
  split; [rewrite <- Mn; apply (construct_describes _ _ _ _ _ Em)|].
  split; [apply (timeevolver_of _ _ K)|]. split; [apply (points_grid _ _ _ I J)|]. split; [exact L|].
  destruct (noisy_listed pcg entropy uninit nan nodes (pp_edges p) ns es E _ _ _ _ Out) as [L1 L2]. split; [exact L1|]. split; [exact L2|]. split.
  { intros j entry Ee Te. destruct (Ds j entry Ee Te) as (n & s & Gc & Bc & iv & N1 & N2 & N3 & N4 & N5 & N6 & N7 & N8 & N9 & N10 & N11).
    split; [|split; [exact N7|split; [|split; [exact N10|exact N11]]]].
    - exists Gc, Bc, (Input_Model.boundary_of iv). split; [apply (Nd _ _ _ _ _ N1 N3)|apply (means_described _ _ _ _ _ _ _ N4)].
    - destruct (noisy_seed pcg entropy uninit nan nodes (pp_edges p) ns es E _ _ _ _ Out j n s N1 N2) as (r & R1 & R2 & R3). exists r.
      split; [exact R1|]. split; [rewrite <- N5; exact R2|]. rewrite R3, N9. reflexivity. }
  intros W Pk Bd Mi Tol. set (N := network_of (map nn_node nodes) (pp_edges p)) in *.
  destruct (simulate_chain (noisy_problem sampling nan factor linsolve nodes (pp_edges p) (pp_number p)) fuel sfuel (pp_settings p) (pp_controls p)
    (grown nan nodes) (grown_refl nan nodes) (grown_trans nan nodes)
    (fun e t0 t1 x c e1 He => grown_prepare sampling nan nodes (pp_edges p) e t0 t1 x c e1 He) _ _ _ _ _ Sim)
    as (S1 & S2 & S3 & before & after & S4 & S5 & S6 & S7).
  exists rows, (fun k => powers_in nan (after k)), (fun k j => samples (nth j (before k) (undrawn nan))), (fun k j => samples (nth j (after k) (undrawn nan))).
  split; [exact S1|]. split; [exact S2|]. split; [|split].
  - intros Ic x Ex. pose proof (eq_trans (eq_sym S3) Ex) as Ey. injection Ey as <-. rewrite <- Mn.
    rewrite (retyped_initial uninit _ _ _ initial Rt) in M. apply (run_initial _ _ _ _ _ _ _ _ _ Em F' M). rewrite Mn. exact Ic.
  - intros k t' x Et Ex. split; [|split].
    + apply (noisy_edges pcg entropy uninit nan nodes (pp_edges p) ns es E _ _ _ _ Out k t' x Et Ex).
    + apply (noisy_others pcg entropy uninit nan nodes (pp_edges p) ns es E _ _ _ _ Out k t' x W Et Ex).
    + rewrite S5. apply (noisy_stochastic pcg entropy uninit nan nodes (pp_edges p) ns es E _ _ _ _ Out k t' x Et Ex).
  - intros k t0 t1 u v H0 H1 H2 H3. assert (Cs : consecutive (noisy_problem sampling nan factor linsolve nodes (pp_edges p) (pp_number p)) (pp_points p) rows k t0 t1 u v)
      by (repeat split; assumption).
    pose proof (S7 k t0 t1 u v Cs) as Af. pose proof (accepted_again _ _ _ _ _ _ _ _ _ _ Af) as Ac.
    pose proof (noisy_same nan nodes (pp_edges p) (after k)) as Sh.
    destruct (network_step_within (list drawn) LU (pp_number p) (noisy_network nan nodes (pp_edges p)) (prepare_all sampling nan nodes (pp_edges p)) factor linsolve
      (pp_settings p) (pp_controls p) fuel t0 t1 u v (after k)) as (_ & c & e0 & Hc & _ & Eq).
    + apply (shape_well_formed _ _ Sh W).
    + apply (shape_pipes _ _ Sh Pk).
    + rewrite <- (shape_number _ _ Sh). symmetry. exact Enum.
    + apply noisy_boundary, Bd. apply (nth_error_In _ _ H1).
    + exact Mi.
    + exact Tol.
    + exact Ac.
    + split.
      * exists (control_vector c). split; [cbv beta; unfold N; rewrite <- (noisy_is nan nodes (pp_edges p) ns (after k) (noisy_as_made pcg entropy uninit nodes (pp_edges p) ns es E)); exact Eq|].
        intro Pos. destruct (run_controls _ _ _ _ _ _ _ _ _ _ _ Em O Q) as [R1 R2]. rewrite Mn in R1, R2. destruct (R2 Pos) as (cpoints & cj & R3 & R4 & R5).
        exists cj, cpoints. split; [exact R4|]. split; [apply (control_grid _ _ _ _ I R3)|]. intro Cc. apply (R5 Cc).
        destruct Hc as [[Z _]|[_ Hc]]; [rewrite R1 in Z; lia|exact Hc].
      * intros j entry Gc Bc b Ee Te Eb. destruct (Ds j entry Ee Te) as (n & s & Gc' & Bc' & iv & N1 & N2 & N3 & N4 & N5 & N6 & N7 & N8 & N9 & N10 & N11).
        pose proof (Nd _ _ _ _ _ N1 N3) as Q1. fold N in Q1. rewrite Eb in Q1. injection Q1 as -> -> ->.
        split; [apply (S6 k); apply nth_error_Some; congruence|].
        destruct Af as (c1 & full & sol & _ & Pr & _).
        destruct (step_drawn sampling nan nodes (pp_edges p) (before k) t0 t1 u c1 (after k) j n s PQ false Gc' Bc' iv (snd entry) (nn_output n) W Pr N1 N2 N3 ltac:(eauto)) as (mean & M1 & M2).
        exists mean. split; [exact M1|]. rewrite <- N8. exact M2.
Qed.
Print Assumptions C100_simulation.

(** With steps, the drawn power differs from a mean other than zero by at most the given part of it. *)
Theorem C100_cut_off : forall data sample k k' last mean dt PQ c, powers_drawn data sample k k' last mean dt PQ ->
  number_entry data "cut_off_factor" c -> (0 <= c)%R ->
  (exists n, int_entry data "number_of_stochastic_steps" n /\ (0 < n)%Z) ->
  (fst mean <> 0 -> Rabs (fst PQ - fst mean) <= c * Rabs (fst mean))%R /\
  (snd mean <> 0 -> Rabs (snd PQ - snd mean) <= c * Rabs (snd mean))%R.
Proof.
  intros data sample k k' last mean dt PQ c (pP & pQ & middle & D1 & D2 & E1 & E2) Hc C0 (m & Hm & Pm).
  assert (K : forall a b p s0 s1 l mu v, describes_process data a b p -> path_end p sample s0 s1 l mu dt v -> (mu <> 0 -> Rabs (v - mu) <= c * Rabs mu)%R).
  { intros a b p s0 s1 l mu v (_ & Dc & _ & _ & Dn) (n & h & path & _ & [S0 S1] & _ & _ & _ & Sn & _ & _ & Ev & St) Nz.
    assert (cut_off p = c) by (unfold number_entry in *; congruence).
    destruct n as [|n].
    - exfalso. destruct (Sn eq_refl) as [Z _]. destruct Hm as (x & Hx & Tx & Ty). destruct (Dn x Hx) as (y & Hy & Ux & _).
      assert (x = y) by (unfold number_entry in *; congruence). subst y. apply IZR_lt in Pm. rewrite Z in Ux.
      assert (1 <= IZR m)%R by (apply IZR_le; apply lt_IZR in Pm; lia). destruct (Rle_lt_dec 0 x) as [X|X]; [specialize (Tx X); specialize (Ux X)|specialize (Ty X)]; lra.
    - destruct (St n ltac:(lia)) as [_ Cu]. rewrite H in Cu. destruct (Cu Nz C0) as [Le _]. rewrite Ev in Le. exact Le. }
  split; [apply (K _ _ _ _ _ _ _ _ D1 E1)|apply (K _ _ _ _ _ _ _ _ D2 E2)].
Qed.
Print Assumptions C100_cut_off.
Example C100_cut_off_case : forall sample, let data := noise_node_json [("boundary_values", noise_boundary [])] in
  powers_drawn data sample 0 2 (1, 0)%R (4, 0)%R 1 (4, 0)%R /\ number_entry data "cut_off_factor" (1 / 2) /\
  exists n, int_entry data "number_of_stochastic_steps" n /\ (0 < n)%Z.
Proof.
  intros sample data. split; [|split; [reflexivity|]].
  - pose proof (noise_stochastic (fun w => w) [] [] _ (Seed_Model.make_random_seed []) eq_refl) as H. destruct (stochastic_inv _ _ _ _ _ H) as (D1 & D2 & _).
    eexists; eexists; exists 1%nat. split; [exact D1|]. split; [exact D2|].
    split; eapply sample_end, noise_path; cbn; lra.
  - exists 1%Z. split; [|lia]. exists 1%R. split; [reflexivity|]. split; intro; lra.
Qed.

(** A run with the same files, except that the stochastic nodes have the seeds that a first run
    reported, gives the same file: whatever the random device gives, with the same linear solver
    and the same uninitialised memory. *)
Theorem C100_repeat : forall G LU (pcg : (nat -> list Z) -> G) (sampling : G -> nat -> R -> R -> R) entropy entropy' nan
    (factor : list drawn -> R -> R -> vec -> list R -> vec -> option LU) linsolve fuel sfuel uninit read read' directory out,
  (forall j, Forall Seed_Spec.is_word (entropy j)) ->
  run_noisy pcg sampling entropy nan factor linsolve fuel sfuel uninit read directory = Some (Ok out) ->
  (forall name, In name ["/problem_data.json"; "/initial.json"; "/control.json"] -> read' (directory ++ name)%string = read (directory ++ name)%string) ->
  forall all problem ns es ns', read (directory ++ "/problem_data.json")%string = Ok all -> problem_of all directory problem ->
  build_net read (the_defaults (Some all)) problem = Ok (ns, es) -> build_net read' (the_defaults (Some all)) problem = Ok (ns', es) ->
  NoDup (map (fun entry => id (snd entry)) ns) ->
  Forall2 (fun entry entry' =>
    (fst entry <> stochastic_type -> entry' = entry) /\
    (fst entry = stochastic_type -> exists seed, seed_reported out (id (snd entry)) seed /\ reseeded entry seed entry')) ns ns' ->
  run_noisy pcg sampling entropy' nan factor linsolve fuel sfuel uninit read' directory = Some (Ok out).
Proof.
  intros G LU pcg sampling entropy entropy' nan factor linsolve fuel sfuel uninit read read' directory out Fw H Rd all0 problem0 ns es ns' Ha0 Hp0 Hb0 Hb' Nd F. unfold run_noisy in H |- *.
  destruct (prepare_noisy pcg entropy uninit read directory) as [[p nodes]| |] eqn:Ep; try discriminate.
  rewrite (prepare_again pcg entropy entropy' uninit read read' directory p nodes Ep Rd); [exact H|].
  intros all problem ns1 es1 Ha Hp Hb Hn. assert (all = all0) by congruence. subst all. pose proof (problems_same _ _ _ _ Hp Hp0) as Sm.
  rewrite (build_same _ _ _ _ Sm), Hb0 in Hb. injection Hb as <- <-. exists ns'. split; [rewrite (build_same _ _ _ _ Sm); exact Hb'|].
  apply (construct_again pcg entropy entropy' uninit ns ns' es nodes (pp_edges p) Hn); [symmetry; apply (forall2_length _ _ _ F)|].
  intros j entry entry' n E1 E2 E3 M. pose proof (forall2_nth _ _ _ F j entry entry' E1 E2) as [Q1 Q2].
  destruct (String.eqb_spec (fst entry) stochastic_type) as [T|T].
  - destruct (Q2 T) as (seed & Sr & Rs). apply (reseed_node pcg entropy entropy' uninit j entry entry' n seed Fw T M); [|exact Rs].
    (* the reported seed is that of this node *)
    destruct (noisy_prepared _ _ _ _ _ _ _ Ep) as (_ & _ & _ & _ & _ & _ & _ & _ & _ & _ & _ & _ & _ & _ & En & F1 & _).
    unfold simulate_noisy in H. destruct (simulate _ _ _ _ _ _ _ _) as [[[rows| |]|] e'] eqn:Sim; try discriminate. injection H as Out. rewrite En in F1.
    destruct (components_placed _ _ _ _ F1) as (Enum & _ & _). rewrite Enum in Out.
    apply (noisy_seed_unique pcg entropy uninit nan nodes (pp_edges p) ns es Hn _ _ _ _ Out Nd j entry n seed E1 E3 T Sr).
  - rewrite (Q1 T), (other_node pcg entropy entropy' uninit j entry T). exact M.
Qed.
Print Assumptions C100_repeat.

(** Every simulation ends. *)
Theorem C100_terminates : forall G LU (pcg : (nat -> list Z) -> G) (sampling : G -> nat -> R -> R -> R) entropy nan
    (factor : list drawn -> R -> R -> vec -> list R -> vec -> option LU) linsolve uninit read directory,
  exists bound, forall sfuel, (bound <= sfuel)%nat -> run_noisy pcg sampling entropy nan factor linsolve 1075 sfuel uninit read directory <> None.
Proof.
  intros G LU pcg sampling entropy nan factor linsolve uninit read directory. unfold run_noisy.
  destruct (prepare_noisy pcg entropy uninit read directory) as [[p nodes]| |]; [|exists 0%nat; discriminate|exists 0%nat; discriminate].
  exists (Z.to_nat (attempt_bound (use_simplified_newton (pp_settings p)) (retries (pp_settings p)))). intros sfuel Hs. unfold simulate_noisy, noisy_problem.
  pose proof (C90_terminates (list drawn) LU (pp_number p) (noisy_network nan nodes (pp_edges p)) (prepare_all sampling nan nodes (pp_edges p)) factor linsolve sfuel
    (pp_settings p) (pp_controls p) (pp_points p) (States_Model.vec_of (pp_initial p)) (map (fun _ => undrawn nan) nodes) ltac:(lia)) as T.
  destruct (simulate _ _ _ _ _ _ _ _) as [[[rows| |]|] e']; try discriminate. cbn [fst] in T. congruence.
Qed.
Print Assumptions C100_terminates.

(** The run of Noise_Proofs6.v: without a seed, whatever the generator and its samples are. *)
Definition noise_network : network := mkNet [Powernode PQ false 1 0 (Input_Model.boundary_of noise_ivec)] [].
Example C100_case : forall G (pcg : (nat -> list Z) -> G) (sampling : G -> nat -> R -> R -> R) entropy nan uninit,
  run_noisy pcg sampling entropy nan noise_factor noise_solve 1 1 uninit (noise_files []) "p"
    = Some (Ok (noise_output (Seed_Model.make_random_seed (entropy 0%nat)))) /\
  describes_network (map mean_entry (noise_entries [])) [] noise_network /\
  well_formed noise_network /\ pipes_ok noise_network /\ (forall t, In t [0; 1; 2]%R -> boundary_defined noise_network t) /\
  (0 <= maximal_iterations (newton small_solver))%Z /\ (tolerance (newton small_solver) < 1000000)%R /\
  initial_complete (map mean_entry (noise_entries [])) [] noise_network noise_initial.
Proof.
  intros G pcg sampling entropy nan uninit. split; [apply (noise_simulation pcg sampling entropy nan uninit [] _ _ ltac:(left; reflexivity) eq_refl)|].
  split.
  { assert (H : construct_noisy (fun w => w) (fun _ => []) (fun _ => 0%R) (noise_entries [], []) = Ok (noise_nodes _ (Seed_Model.make_random_seed []), []))
      by (apply (noise_construct _ _ _ [] _ _ ltac:(left; reflexivity)); reflexivity).
    destruct (noisy_inv _ _ _ _ _ _ _ H) as (C & _). exact (construct_describes _ _ _ _ _ C). }
  split; [constructor|]. split; [constructor|]. split.
  { intros t It j. destruct j as [|[|j]]; cbn; auto. unfold Input_Model.boundary_of.
    destruct It as [<-|[<-|[<-|[]]]]; [rewrite noise_means by auto|rewrite noise_means by auto|rewrite noise_means' by auto]; eexists; reflexivity. }
  split; [cbn; lia|]. split; [cbn; lra|].
  split.
  { eexists. split; [reflexivity|]. split; intros v E; cbn in E; injection E as <-.
    - eexists. split; [reflexivity|]. split; [repeat constructor; cbn; tauto|]. intros t w [E|[]]. injection E as <- <-. eexists. split; [reflexivity|].
      intros c [<-|[]]. exists "n". eexists. split; reflexivity.
    - exists []. split; [reflexivity|]. split; [constructor|]. intros t w []. }
  split; [repeat constructor; cbn; tauto|]. split; [repeat constructor; cbn; intuition discriminate|]. split; [intros [|i] entry e k E1; discriminate|].
  intros i entry t k E1 E2 K. destruct i as [|[|i]]; [|discriminate|discriminate]. injection E1 as <-. injection E2 as <-. injection K as <-.
  exists [(0, [1; 0])]%R. split; [left; reflexivity|]. split; [|split].
  - split; [intros tr [<-|[]]; reflexivity|]. split; [intros n E; cbn in E; injection E as <-; reflexivity|]. intros a I. exact I.
  - repeat constructor.
  - intros t It. exists 0%R, 0%R. split; [reflexivity|]. split; [reflexivity|]. unfold Interp_Spec.tolerance. destruct It as [<-|[]]; lra.
Qed.
Example C100_repeat_case : forall entropy, Forall Seed_Spec.is_word (entropy 0%nat) ->
  let seed := seed_json (Seed_Model.make_random_seed (entropy 0%nat)) in
  build_net (noise_files []) (the_defaults (Some noise_problem)) noise_problem_json = Ok (noise_entries [], []) /\
  build_net (noise_files [("seed", seed)]) (the_defaults (Some noise_problem)) noise_problem_json = Ok (noise_entries [("seed", seed)], []) /\
  problem_of noise_problem "p" noise_problem_json /\
  NoDup (map (fun entry => id (snd entry)) (noise_entries [])) /\
  Forall2 (fun entry entry' =>
    (fst entry <> stochastic_type -> entry' = entry) /\
    (fst entry = stochastic_type -> exists s, seed_reported (noise_output (Seed_Model.make_random_seed (entropy 0%nat))) (id (snd entry)) s /\ reseeded entry s entry'))
    (noise_entries []) (noise_entries [("seed", seed)]) /\
  noise_entries [] <> noise_entries [("seed", seed)].
Proof.
  intros entropy F seed. assert (L : List.length (Seed_Model.make_random_seed (entropy 0%nat)) = 8%nat) by (apply (Seed_Props.C92_param_again 8 (entropy 0%nat) F)).
  split; [apply noise_net; left; reflexivity|]. split; [apply noise_net; right; exists (Seed_Model.make_random_seed (entropy 0%nat)); auto|].
  split; [|split; [|split]].
  - eexists. split; [reflexivity|]. split; [reflexivity|]. intros k N. unfold noise_problem_json. cbn [entry_of field]. destruct (String.eqb_spec "GRAZER_file_directory" k); [congruence|reflexivity].
  - repeat constructor. intros [].
  - constructor; [|constructor]. split; [intro N; exfalso; apply N; reflexivity|]. intros _. exists seed. split.
    + eexists. split; [left; reflexivity|]. split; reflexivity.
    + split; [reflexivity|]. split.
      * intros k N. unfold noise_node_json. cbn [snd app entry_of field]. repeat match goal with |- context [String.eqb ?a k] => destruct (String.eqb_spec a k); [try congruence; reflexivity|] end. reflexivity.
      * eexists; eexists. split; [reflexivity|]. split; [reflexivity|]. reflexivity.
  - intro Z. discriminate.
Qed.

(** What one would expect of the file - that the power and its deviation that it reports for a time are
    those at that time - is false: at time 1 the mean power is 1, and the state has this power,
    but the file reports the power 4 of the next step and a deviation of 3. *)
Theorem C100_saved_refuted : exists (G LU : Type) (pcg : (nat -> list Z) -> G) (sampling : G -> nat -> R -> R -> R) entropy nan
    (factor : list drawn -> R -> R -> vec -> list R -> vec -> option LU) linsolve fuel sfuel uninit read out problem ns N b mean u r,
  run_noisy pcg sampling entropy nan factor linsolve fuel sfuel uninit read "p" = Some (Ok out) /\
  problem_of noise_problem "p" problem /\ read "p/problem_data.json" = Ok noise_problem /\
  build_net read (the_defaults (Some noise_problem)) problem = Ok (ns, []) /\ describes_network (map mean_entry ns) [] N /\
  nth_error (Net_Model.nodes N) 0 = Some (Powernode PQ false 1 0 b) /\ b 1%R = Ok mean /\ mean 0%nat = 1%R /\
  result_of out "nodes" stochastic_type "n" 1 r /\ reports r "time" 1 /\ reports r "V" (u 0%nat) /\ reports r "phi" (u 1%nat) /\
  fst (power N 0 1 0 u) = 1%R /\ reports r "P" 4 /\ reports r "P_deviation" 3.
Proof.
  exists (nat -> list Z), unit, (fun w => w), (fun _ _ _ _ => 0%R), (fun _ => []), 0%R, noise_factor, noise_solve, 1%nat, 1%nat, (fun _ => 0%R), (noise_files []),
    (noise_output (Seed_Model.make_random_seed [])), noise_problem_json, (noise_entries []), noise_network, (Input_Model.boundary_of noise_ivec), (vec_of [1; 0]%R), (vec_of [1; 0]%R), (noise_result 1 (4 - 1) 1).
  destruct (C100_case (nat -> list Z) (fun w => w) (fun _ _ _ _ => 0%R) (fun _ => []) 0%R (fun _ => 0%R)) as (A & B & _).
  destruct (C100_repeat_case (fun _ => []) ltac:(constructor)) as (C & _ & D & _).
  split; [exact A|]. split; [exact D|]. split; [reflexivity|]. split; [exact C|]. split; [exact B|]. split; [reflexivity|].
  split; [unfold Input_Model.boundary_of; rewrite noise_means by auto; reflexivity|]. split; [reflexivity|].
  split.
  { eexists; eexists. split; [left; reflexivity|]. split; [reflexivity|]. split; reflexivity. }
  split; [reflexivity|]. split; [reflexivity|]. split; [reflexivity|]. split; [cbn; rewrite ?cos_0, ?sin_0; ring|]. split; [reflexivity|].
  unfold reports. cbn. repeat f_equal. ring.
Qed.
Print Assumptions C100_saved_refuted.
