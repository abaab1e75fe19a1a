(** * A case: a compressor, a sink with a constraint, and a stochastic power node beside them *)
From Coq Require Import Reals ZArith Lra Lia List Arith Bool String FunctionalExtensionality.
From Verif Require Import Base Interp_Model Interp_Spec Interp_Proofs Interp_Props Json_Model Json_Spec Controls_Model Controls_Spec Calc Euler_Model Net_Model Net_Spec States_Model Newton_Model Evolve_Model Sim_Model Sim_Spec Sim_Proofs2
  Iface_Model Iface_Spec Iface_Props Input_Model Input_Proofs3 Input_Proofs5 Setup_Model Setup_Proofs2 Answer_Model Stoch_Model
  Noise_Model Noise_Spec Noise_Proofs Noise_Proofs2 Noise_Proofs3 Noise_Proofs5 Noptim_Model Noptim_Spec Noptim_Proofs.
From Coquelicot Require Rcomplements.
From Verif Require Seed_Model Seed_Spec Seed_Props Optim_Model Optim_Spec.
Import ListNotations.
Local Open Scope string_scope.
Local Open Scope list_scope.

(** The mean of the power is 1; it moves by the sample, and is cut off at -2 and 4. *)
Definition random_json : json :=
  JObj [("B", JNum 0); ("G", JNum 1); ("boundary_values", JObj [("data", JArr (map (row_entry "time") [(0, [1; 0]); (2, [1; 0])]%R)); ("id", JStr "n")]);
        ("cut_off_factor", JNum 3); ("id", JStr "n"); ("number_of_stochastic_steps", JNum 1); ("sigma_P", JNum 1);
        ("sigma_Q", JNum 0); ("stability_parameter", JNum (3 / 2)); ("theta_P", JNum 0); ("theta_Q", JNum 0)].
Definition random_entries : list (string * json) := opt_nodes_json ++ [("StochasticPQnode", random_json)].
Definition random_ivec : ivec := mk_ivec [0; 2]%R 2 [1; 0; 1; 0]%R.
Definition random_data {G} (g : G) : stochastic_data G := mkStochastic (3 / 2) 3 1 0 0 0 1 g.
Definition random_nodes {G} (g : G) (used : list Z) : list (noisy_node G) :=
  map (fun m => mkNoisy m None JNull) opt_nodes ++
  [mkNoisy (mkMade "StochasticPQnode" "n" (DPower PQ false 1 0 random_ivec)) (Some (random_data g)) (JObj [("seed", seed_json used)])].
Lemma random_power uninit : powernode_ctor uninit PQ false random_json = Ok (DPower PQ false 1 0 random_ivec).
Proof. cbv -[Rleb Rltb Reqb INR IZR Rdiv]. compare. cbv -[Rleb Rltb Reqb INR IZR Rdiv]. compare. reflexivity. Qed.
Lemma random_stochastic {G} (pcg : (nat -> list Z) -> G) entropy g used :
  Seed_Model.stochastic_node pcg entropy Seed_Model.Absent = Ok (g, map Seed_Model.Integer used) ->
  stochastic_ctor pcg entropy random_json = Ok (random_data g, JObj [("seed", seed_json used)]).
Proof.
  intro H. unfold stochastic_ctor. unfold number_at, int_at, random_json.
  cbn [at_const field app String.eqb Ascii.eqb Bool.eqb andb obind get_double get_int]. rewrite truncate_IZR.
  cbn [andb Z.leb Z.ltb Z.compare Z.opp Z.pow Z.pow_pos Pos.iter Z.mul Pos.mul Pos.compare Pos.compare_cont obind].
  change (seed_value_of (JObj [("data", JArr (map (row_entry "time") [(0, [1; 0]); (2, [1; 0])]%R)); ("id", JStr "n")])) with Seed_Model.Absent.
  rewrite H. cbn [obind fst snd]. rewrite output_seed. reflexivity.
Qed.
Lemma random_sink uninit : make_node uninit ("ConstraintSink", JObj [("boundary_values", small_table "b" 3); ("id", JStr "b")])
  = Ok (mkMade "ConstraintSink" "b" (DFlow (mk_ivec [0; 2]%R 1 [- (3); - (3)]%R))).
Proof. cbv -[Rleb Rltb Reqb INR IZR Ropp]. compare. cbv -[Rleb Rltb Reqb INR IZR Ropp]. compare. reflexivity. Qed.
Lemma random_pressure uninit : make_node uninit ("Pressureboundarynode", JObj [("boundary_values", small_table "a" 50); ("id", JStr "a")])
  = Ok (mkMade "Pressureboundarynode" "a" (DPressure (mk_ivec [0; 2]%R 1 [50; 50]%R))).
Proof. cbv -[Rleb Rltb Reqb INR IZR Ropp]. compare. cbv -[Rleb Rltb Reqb INR IZR Ropp]. compare. reflexivity. Qed.
Lemma random_construct {G} (pcg : (nat -> list Z) -> G) entropy uninit g used :
  Seed_Model.stochastic_node pcg (entropy 2%nat) Seed_Model.Absent = Ok (g, map Seed_Model.Integer used) ->
  construct_noisy pcg entropy uninit (random_entries, small_edges_json) = Ok (random_nodes g used, opt_edges).
Proof.
  intro H. unfold construct_noisy, random_entries. cbn [fst snd opt_nodes_json app List.length seq combine omapM]. unfold make_noisy_node. cbn [fst snd].
  change (String.eqb "ConstraintSink" "StochasticPQnode") with false. change (String.eqb "Pressureboundarynode" "StochasticPQnode") with false.
  change (String.eqb "StochasticPQnode" "StochasticPQnode") with true. cbv iota. rewrite random_sink, random_pressure. cbn [omap obind].
  change (id_of random_json) with (Ok "n"). cbn [obind]. rewrite random_power. cbn [obind].
  rewrite (random_stochastic pcg (entropy 2%nat) g used H). cbn [omap obind fst snd map nn_node].
  assert (E : forall d, omapM (make_edge [mkMade "ConstraintSink" "b" (DFlow (mk_ivec [0; 2]%R 1 [- (3); - (3)]%R)); mkMade "Pressureboundarynode" "a" (DPressure (mk_ivec [0; 2]%R 1 [50; 50]%R)); mkMade "StochasticPQnode" "n" d]) small_edges_json = Ok opt_edges).
  { intro d. cbv -[Rleb Rltb Reqb INR IZR Ropp]. compare. reflexivity. }
  rewrite E. reflexivity.
Qed.

Lemma random_means t : (0 <= t <= 2)%R -> interp_at random_ivec t = Ok [1; 0]%R.
Proof.
  intro Ht. apply (constant_table [0; 2]%R 2 [1; 0]%R t); [repeat constructor; lra|discriminate|reflexivity|].
  exists 0%R, 2%R. split; [reflexivity|]. split; [reflexivity|]. unfold Interp_Spec.tolerance. lra.
Qed.
Definition random_state (v : R) : vec := vec_of [v; 0; 50; 3; 60; 3]%R.
Definition only_first (a : R) : vec := vec_of [a; 0; 0; 0; 0; 0]%R.
Section Case.
Context {G : Type}.
Variables (sampling : G -> stream) (g : G) (used : list Z) (nan : R).
Notation nodes := (random_nodes g used).
Notation at_drawn p a b k := [a; b; mkDrawn p 0 k].

Lemma random_eval p a b k t0 t1 last v : (0 <= t1 <= 2)%R ->
  evaluate (noisy_network nan nodes opt_edges (at_drawn p a b k)) t0 t1 last (random_state v) (control_vector [10]) (fun _ => 0) = Ok (only_first (v * v - p)).
Proof.
  intro H. cbv -[interp_at Rplus Ropp Rmult Rminus Rdiv IZR random_state only_first]. rewrite !small_interp by lra. cbv -[Rplus Ropp Rmult Rminus Rdiv IZR random_state only_first].
  apply (f_equal Ok). apply functional_extensionality. intro j. unfold random_state, only_first, vec_of.
  do 6 (destruct j as [|j]; [cbn; ring|]). destruct j; reflexivity.
Qed.
Lemma random_norm a : euclidean_norm 6 (only_first a) = Rabs a.
Proof. unfold euclidean_norm. rewrite <- sqrt_Rsqr_abs. f_equal. cbn. unfold Rsqr. ring. Qed.

(** ** The draws *)
Lemma random_path draw k last theta sigma mu xi : theta = 0%R -> draw k 0%R (sqrt (1 / 1))%R = xi -> (sigma = 0 /\ mu = 0 \/ sigma = 1 /\ mu = 1 /\ -2 <= last + xi <= 4)%R ->
  sample_path (random_data g) draw k last theta mu 1 sigma = Ok (last + sigma * xi, S k)%R.
Proof.
  intros -> Hx Hc. unfold sample_path, euler_maruyama_oup. cbn [random_data stability_parameter cut_off_factor number_of_stochastic_steps].
  assert (E : compute_stable_number_of_oup_steps (3 / 2) 0 1 1 = Ok 1%Z).
  { unfold compute_stable_number_of_oup_steps. change (1 <? 0)%Z with false. change (1 =? 0)%Z with false. compare. reflexivity. }
  rewrite E. cbn [obind omap]. change (Z.to_nat 1) with 1%nat. cbn [oup_loop]. rewrite Nat.add_1_r. f_equal. f_equal. rewrite Hx.
  unfold oup_step. cbv zeta. replace (last + 0 * (mu - last) * (1 / 1) + sigma * xi)%R with (last + sigma * xi)%R by field.
  destruct Hc as [[-> ->]|(-> & -> & Hc)].
  - assert (sgn 0 = 0%R) as -> by (unfold sgn; compare; ring).
    replace (Rltb (0 * (last + 0 * xi)) ((1 - 3) * 0 * 0)) with false by (symmetry; apply Rltb_false; lra).
    replace (Rltb ((1 + 3) * 0 * 0) (0 * (last + 0 * xi))) with false by (symmetry; apply Rltb_false; lra). reflexivity.
  - assert (sgn 1 = 1%R) as -> by (unfold sgn; compare; ring).
    replace (Rltb (1 * (last + 1 * xi)) ((1 - 3) * 1 * 1)) with false by (symmetry; apply Rltb_false; lra).
    replace (Rltb ((1 + 3) * 1 * 1) (1 * (last + 1 * xi))) with false by (symmetry; apply Rltb_false; lra). reflexivity.
Qed.
Lemma random_draw e t0 t1 xi c : (t1 - t0 = 1)%R -> (0 <= t1 <= 2)%R -> sampling g (samples (nth 2 e (undrawn nan))) 0%R (sqrt (1 / 1))%R = xi -> (-3 <= xi <= 3)%R ->
  prepare_all sampling nan nodes opt_edges e t0 t1 (random_state 1) c
  = Ok (at_drawn (1 + xi)%R (nth 0 e (undrawn nan)) (nth 1 e (undrawn nan)) (S (S (samples (nth 2 e (undrawn nan)))))).
Proof.
  intros Ht Hr Hx Hb. unfold prepare_all. cbn [random_nodes opt_nodes app with_drawn List.length seq combine map fst snd omapM prepare_node nn_noise nn_node mn_data obind].
  unfold boundary_at. rewrite (random_means t1 Hr). cbn [obind get nth_error].
  match goal with |- context [P ?n ?x] => let r := eval cbv -[Rplus Ropp Rmult Rminus Rdiv IZR vec_of] in (P n x) in change (P n x) with r end.
  match goal with |- context [Q ?n ?x] => let r := eval cbv -[Rplus Ropp Rmult Rminus Rdiv IZR vec_of] in (Q n x) in change (Q n x) with r end.
  cbn [obind]. rewrite Ht. set (k := samples _) in *.
  change (distribution (random_data g)) with g.
  match goal with |- context [sample_path _ _ k ?l _ _ _ _] => replace l with 1%R by (unfold vec_of; cbn; ring) end.
  rewrite (random_path _ k 1 _ _ 1 xi eq_refl Hx) by (right; cbn; lra). cbn [obind fst snd].
  match goal with |- context [sample_path _ _ (S k) ?l _ _ _ _] => replace l with 0%R by (unfold vec_of; cbn; ring) end.
  rewrite (random_path _ (S k) 0 _ _ 0 _ eq_refl eq_refl) by (left; cbn; lra). cbn [obind fst snd omap].
  change (sigma_P (random_data g)) with 1%R. change (sigma_Q (random_data g)) with 0%R. apply (f_equal Ok). repeat f_equal; ring.
Qed.

(** ** The simulations *)
Lemma random_controls a : current_controls (mk_ivec [0; 1]%R 1 [a; 10]%R) 1 = Ok [10%R].
Proof.
  unfold current_controls. cbn [iinner]. change (0 <? 1)%nat with true. cbv iota.
  cbv -[Rleb Rltb Reqb IZR EPSILON Rplus Rminus Rmult Rdiv]; pose proof EPSILON_pos; compare; try reflexivity; apply (f_equal Ok); repeat (apply f_equal2; [lra|]); try reflexivity.
Qed.
Section Solver.
Context {LU : Type}.
Variables (factor : list drawn -> R -> R -> vec -> list R -> vec -> option LU) (linsolve : LU -> vec -> vec).
Definition random_system := noisy_problem sampling nan factor linsolve nodes opt_edges 6.
Lemma random_stay a b k t0 t1 last full fuel : (0 <= t1 <= 2)%R ->
  solve (system_of random_system (at_drawn 1%R a b k) t0 t1 last [10%R]) fuel (newton small_solver) full (random_state 1)
  = Some (Ok (random_state 1, {| success := true; residual := Fin 0; used_iterations := 0 |})).
Proof.
  intro H. unfold solve. cbn [system_of ns_eval ns_norm]. cbn [pr_eval pr_norm random_system noisy_problem network_problem]. rewrite (random_eval 1 a b k t0 t1 last 1 H).
  replace (1 * 1 - 1)%R with 0%R by ring. rewrite random_norm, Rabs_R0. cbn [xleb].
  replace (Rleb 0 (tolerance (newton small_solver))) with true by (symmetry; apply Rleb_true; cbn; lra). reflexivity.
Qed.
Lemma random_quiet a e fuel sfuel : sampling g (samples (nth 2 e (undrawn nan))) 0%R (sqrt (1 / 1))%R = 0%R ->
  simulate random_system fuel (S sfuel) small_solver (mk_ivec [0; 1]%R 1 [a; 10]%R) [0; 1]%R (random_state 1) e
  = (Some (Ok [random_state 1; random_state 1]), at_drawn 1%R (nth 0 e (undrawn nan)) (nth 1 e (undrawn nan)) (S (S (samples (nth 2 e (undrawn nan)))))).
Proof.
  intro Hx. unfold simulate. rewrite random_controls. cbv iota. cbn [simulate_loop]. rewrite random_controls. cbv iota.
  assert (D : pr_prepare random_system e 0 1 (random_state 1) [10%R] = Ok (at_drawn 1%R (nth 0 e (undrawn nan)) (nth 1 e (undrawn nan)) (S (S (samples (nth 2 e (undrawn nan))))))).
  { pose proof (random_draw e 0 1 0 [10%R] ltac:(lra) ltac:(lra) Hx ltac:(lra)) as Q. replace (1 + 0)%R with 1%R in Q by ring. exact Q. }
  unfold time_step, make_one_step. cbn [attempts]. rewrite D. cbn [use_simplified_newton small_solver negb]. fold small_solver.
  rewrite random_stay by lra. reflexivity.
Qed.
Lemma random_never a e fuel sfuel rows e' : (forall k, (samples (nth 2 e (undrawn nan)) <= k)%nat -> sampling g k 0%R (sqrt (1 / 1))%R = (-2)%R) ->
  simulate random_system fuel sfuel small_solver (mk_ivec [0; 1]%R 1 [a; 10]%R) [0; 1]%R (random_state 1) e <> (Some (Ok rows), e').
Proof.
  intros Hs H.
  destruct (simulate_chain random_system fuel sfuel small_solver (mk_ivec [0; 1]%R 1 [a; 10]%R)
    (grown nan nodes) (grown_refl nan nodes) (grown_trans nan nodes)
    (fun e t0 t1 x c e1 He => grown_prepare sampling nan nodes opt_edges e t0 t1 x c e1 He) _ _ _ _ _ H)
    as (S1 & _ & S3 & before & after & S4 & _ & _ & S7).
  destruct rows as [|u [|v [|w rows]]]; try discriminate. cbn in S3. injection S3 as ->.
  assert (Cs : Evolve_Spec.consecutive random_system [0; 1]%R [random_state 1; v] 0 0 1 (random_state 1) v) by (repeat split; reflexivity).
  pose proof (S7 0%nat 0%R 1%R (random_state 1) v Cs) as Af. pose proof (accepted_again _ _ _ _ _ _ _ _ _ _ Af) as Ac.
  destruct Af as (c1 & full & sol & _ & Pr & _).
  assert (Gr : (samples (nth 2 e (undrawn nan)) <= samples (nth 2 (before 0%nat) (undrawn nan)))%nat) by (apply (S4 2%nat); cbn; lia).
  pose proof (random_draw (before 0%nat) 0 1 (-2) c1 ltac:(lra) ltac:(lra) (Hs _ Gr) ltac:(lra)) as D.
  pose proof (eq_trans (eq_sym Pr) D) as Ea. apply (f_equal (fun o => match o with Ok x => x | _ => [] end)) in Ea. cbv iota beta in Ea.
  pose proof (noisy_same nan nodes opt_edges (after 0%nat)) as Sh.
  assert (W : well_formed (network_of (map nn_node nodes) opt_edges)) by (unfold well_formed; cbn; repeat constructor; cbn; auto; discriminate).
  destruct (network_step_within (list drawn) LU 6 (noisy_network nan nodes opt_edges) (prepare_all sampling nan nodes opt_edges) factor linsolve
    small_solver (mk_ivec [0; 1]%R 1 [a; 10]%R) fuel 0 1 (random_state 1) v (after 0%nat)) as (_ & w & e0 & _ & _ & Eq).
  - apply (shape_well_formed _ _ Sh W).
  - apply (shape_pipes _ _ Sh). unfold pipes_ok. cbn. repeat constructor.
  - rewrite <- (shape_number _ _ Sh). reflexivity.
  - apply noisy_boundary. intro j.
    destruct j as [|[|[|j]]]; cbn [network_of random_nodes opt_nodes app nodes map nodetype_of mn_data nth_error nn_node Net_Model.nodes].
    + unfold Input_Model.boundary_of. rewrite small_interp by lra. eexists. reflexivity.
    + unfold Input_Model.boundary_of. rewrite small_interp by lra. eexists. reflexivity.
    + unfold Input_Model.boundary_of. rewrite random_means by lra. eexists. reflexivity.
    + destruct j; exact Logic.I.
  - cbn. lia.
  - cbn. lra.
  - exact Ac.
  - destruct Eq as [Eq _]. rewrite Ea in Eq. specialize (Eq 2%nat _ eq_refl). cbv beta iota in Eq.
    cbn [node_equation_within] in Eq. destruct Eq as (pq & Ep & Eq & _).
    match type of Ep with ?l = _ => let r := eval cbv -[Rplus IZR] in l in change (r = Ok pq) in Ep end.
    injection Ep as <-.
    match type of Eq with within ?e ?l ?r => let l' := eval cbv -[Rplus Ropp Rmult Rminus Rdiv IZR cos sin] in l in
      let r' := eval cbv -[Rplus Ropp Rmult Rminus Rdiv IZR] in r in change (within (1 / 100) l' r') in Eq end.
    unfold within in Eq. apply Rcomplements.Rabs_le_between in Eq. nra.
Qed.
End Solver.

(** With a suitable linear solver the state moves. *)
Definition random_factor (_ : list drawn) (_ _ : R) (_ : vec) (_ : list R) (_ : vec) : option unit := Some tt.
Definition random_solve (_ : unit) (b : vec) : vec := only_first (b 0%nat / 3)%R.
Notation system := (random_system random_factor random_solve).
Lemma random_newton a b k t0 t1 last full : (0 <= t1 <= 2)%R ->
  newton_step (system_of system (at_drawn 4%R a b k) t0 t1 last [10%R]) 1 full (Some tt) (random_state 1) (only_first (-3))
  = Some (Ok (random_state 2, only_first 0)).
Proof.
  intro H. set (sys := system_of _ _ _ _ _ _).
  assert (Ev : forall v, ns_eval sys (random_state v) = only_first (v * v - 4)%R).
  { intro v. unfold sys. cbn [system_of ns_eval pr_eval random_system noisy_problem network_problem]. rewrite random_eval by exact H. reflexivity. }
  assert (Ng : forall lu x, ns_neg sys (ns_linsolve sys lu (only_first x)) = only_first (- x / 3)%R).
  { intros lu x. apply functional_extensionality. intro j. do 6 (destruct j as [|j]; [cbn; field|]). destruct j; cbn; ring. }
  assert (Mv : ns_move sys (random_state 1) 1 (only_first 1) = random_state 2).
  { apply functional_extensionality. intro j. do 6 (destruct j as [|j]; [cbn; ring|]). destruct j; cbn; ring. }
  assert (Nm : forall x, ns_norm sys (only_first x) = Fin (Rabs x)).
  { intro x. unfold sys. cbn [system_of ns_norm pr_norm random_system noisy_problem network_problem]. rewrite random_norm. reflexivity. }
  unfold newton_step. replace (if full then ns_factor sys (random_state 1) else Some tt) with (Some tt) by (destruct full; reflexivity).
  cbv iota zeta. rewrite Ng. replace (- -3 / 3)%R with 1%R by field. rewrite Mv, Ev. replace (2 * 2 - 4)%R with 0%R by ring. rewrite Ng, !Nm.
  replace (- 0 / 3)%R with 0%R by field. rewrite Rabs_R0, Rabs_R1. cbn [damp]. unfold xgtb. cbn [xscale xltb].
  replace (Rltb ((1 - / 2 * 1) * 1) 0) with false by (symmetry; apply Rltb_false; lra). reflexivity.
Qed.
Lemma random_newton_loop a b k t0 t1 last full left : (0 <= t1 <= 2)%R ->
  newton_loop (system_of system (at_drawn 4%R a b k) t0 t1 last [10%R]) 1 (1 / 100) full (Some tt) (S (S left)) (random_state 1) (only_first (-3)) default_solution
  = Some (Ok (random_state 2, {| success := success default_solution; residual := Fin 0; used_iterations := used_iterations default_solution + 1 |})).
Proof.
  intro H. assert (Nm : forall x, ns_norm (system_of system (at_drawn 4%R a b k) t0 t1 last [10%R]) (only_first x) = Fin (Rabs x)).
  { intro x. cbn [system_of ns_norm pr_norm random_system noisy_problem network_problem]. rewrite random_norm. reflexivity. }
  cbn [newton_loop]. rewrite random_newton by exact H. rewrite !Nm. rewrite Rabs_R0. unfold xgtb. cbn [xltb]. rewrite (Rabs_left (-3)) by lra.
  replace (Rltb (1 / 100) (- -3)) with true by (symmetry; apply Rltb_true; lra). replace (Rltb (1 / 100) 0) with false by (symmetry; apply Rltb_false; lra). reflexivity.
Qed.
Lemma random_move a b k t0 t1 last full : (0 <= t1 <= 2)%R ->
  solve (system_of system (at_drawn 4%R a b k) t0 t1 last [10%R]) 1 (newton small_solver) full (random_state 1)
  = Some (Ok (random_state 2, {| success := true; residual := Fin 0; used_iterations := 1 |})).
Proof.
  intro H. assert (Ev : ns_eval (system_of system (at_drawn 4%R a b k) t0 t1 last [10%R]) (random_state 1) = only_first (-3)).
  { cbn [system_of ns_eval pr_eval random_system noisy_problem network_problem]. rewrite random_eval by exact H. replace (1 * 1 - 4)%R with (-3)%R by ring. reflexivity. }
  unfold solve. rewrite Ev. cbn [ns_norm system_of]. cbn [pr_norm random_system noisy_problem network_problem]. rewrite random_norm. rewrite (Rabs_left (-3)) by lra. cbn [xleb].
  replace (Rleb (- -3) (tolerance (newton small_solver))) with false by (symmetry; apply not_true_is_false; rewrite Rleb_true; cbn; lra).
  change (ns_factor (system_of system (at_drawn 4%R a b k) t0 t1 last [10%R]) (random_state 1)) with (Some tt).
  change (Z.to_nat (maximal_iterations (newton small_solver))) with 10%nat. change (tolerance (newton small_solver)) with (1 / 100)%R.
  rewrite random_newton_loop by exact H. cbv iota. cbn [residual used_iterations default_solution maximal_iterations newton small_solver]. destruct full; reflexivity.
Qed.
Lemma random_jump a e : sampling g (samples (nth 2 e (undrawn nan))) 0%R (sqrt (1 / 1))%R = 3%R ->
  simulate system 1 1 small_solver (mk_ivec [0; 1]%R 1 [a; 10]%R) [0; 1]%R (random_state 1) e
  = (Some (Ok [random_state 1; random_state 2]), at_drawn 4%R (nth 0 e (undrawn nan)) (nth 1 e (undrawn nan)) (S (S (samples (nth 2 e (undrawn nan)))))).
Proof.
  intro Hx. unfold simulate. rewrite random_controls. cbv iota. cbn [simulate_loop]. rewrite random_controls. cbv iota.
  assert (D : pr_prepare system e 0 1 (random_state 1) [10%R] = Ok (at_drawn 4%R (nth 0 e (undrawn nan)) (nth 1 e (undrawn nan)) (S (S (samples (nth 2 e (undrawn nan))))))).
  { pose proof (random_draw e 0 1 3 [10%R] ltac:(lra) ltac:(lra) Hx ltac:(lra)) as Q. replace (1 + 3)%R with 4%R in Q by ring. exact Q. }
  unfold time_step, make_one_step. cbn [attempts]. rewrite D. cbn [use_simplified_newton small_solver negb]. fold small_solver.
  rewrite random_move by lra. reflexivity.
Qed.
End Case.
