(** * Property C86: what the program reports about a run *)
From Coq Require Import List Arith Reals ZArith Bool String Lra Lia.
From Verif Require Import Base Json_Model Files_Model Files_Spec Optim_Model Optim_Spec Optim_Proofs Run_Model Run_Spec Run_Proofs.
Import ListNotations.
Local Open Scope string_scope.
Local Open Scope list_scope.
Open Scope R_scope.

(** The exit code is 0 exactly if help was asked for or the run came to its end, and 1 if it ended
    with an exception. *)
Theorem C86_exit_code : forall B (r : request B), (forall code, r = Misuse code -> code <> 0%Z) ->
  (main r = Some 0%Z <-> r = Help_or_version \/ exists j result, r = Run j /\ run j = Ok result) /\
  (forall j, r = Run j -> (main r = Some 1%Z <-> run j = Exc)).
Proof.
  intros B r H. split.
  - split.
    + destruct r as [|code|j]; cbn; auto.
      * intro E. injection E as ->. destruct (H 0%Z eq_refl eq_refl).
      * destruct (run j) as [res| |] eqn:E; try discriminate. right. eauto.
    + intros [->|(j & res & -> & E)]; cbn; [|rewrite E]; reflexivity.
  - intros j ->. cbn. destruct (run j); split; congruence.
Qed.
Print Assumptions C86_exit_code.

(** Without the request to optimize, a run that came to its end has simulated, and states.json
    contains the simulated states (if the operating system wrote the file). *)
Theorem C86_simulation_partial : forall B (j : job B) d printed,
  ~ asked_to_optimize (all_json j) -> run j = Ok (d, printed) ->
  exists st d0 t, simulated j = Ok st /\ prepared j ["states.json"] = Ok d0 /\ states_text j st = Some t /\
    (write_succeeds (writing j "states.json") t -> ~ is_dir d0 "states.json" -> holds d "states.json" t) /\
    (forall m, m <> "states.json" -> d m = d0 m).
Proof.
  intros B j d printed W H. assert (W' : wants_optimization (all_json j) = false).
  { destruct (wants_optimization (all_json j)) eqn:E; auto. apply wants_iff in E. tauto. }
  destruct (run_simulation j d printed W' H) as (_ & st & d0 & t & S & P & T & V). exists st, d0, t.
  repeat (split; auto). { intros Ws N. eapply save_holds; eauto. } intros m N. eapply save_other; eauto.
Qed.
Print Assumptions C86_simulation_partial.

(** With it, the files contain the controls Ipopt returned and the states belonging to them. *)
Theorem C86_optimization_partial : forall B F (j : job B) d printed,
  deterministic B F -> asked_to_optimize (all_json j) -> run j = Ok (d, printed) ->
  exists status x obj d0, finalize (solver j) = Some (status, x, obj) /\ prepared j ["states.json"; "controls.json"] = Ok d0 /\
    (forall st, F x = Some st ->
       exists tc ts, controls_text j x = Some tc /\ states_text j st = Some ts /\
         (write_succeeds (writing j "controls.json") tc -> write_succeeds (writing j "states.json") ts ->
          ~ is_dir d0 "controls.json" -> ~ is_dir d0 "states.json" ->
          holds d "controls.json" tc /\ holds d "states.json" ts)) /\
    (forall m, m <> "states.json" -> m <> "controls.json" -> d m = d0 m) /\
    In (Overall_objective (Some obj)) printed.
Proof.
  intros B F j d printed D W H. apply wants_iff in W.
  destruct (run_optimization j d printed W H) as (lower & upper & o & status & x & obj & _ & _ & _ & Hf & o2 & cost & penalty & _ & o3 & lv & uv & st & G & Hp & d0 & d1 & tc & ts & P & Tc & Ts & V1 & V2).
  exists status, x, obj, d0. split; auto. split; auto. split; [|split].
  - intros st' Hst. pose proof (saved_states_right B F o2 x st' lower upper D Hst) as Q. rewrite G in Q. cbn in Q. subst st'.
    exists tc, ts. split; auto. split; auto. intros W1 W2 N1 N2. split.
    + unfold holds. rewrite (save_other _ _ _ _ _ _ V2) by discriminate. exact (save_holds _ _ _ _ _ V1 W1 N1).
    + eapply save_holds; eauto. intros [b Hb]. apply N2. exists b. rewrite <- (save_other _ _ _ _ _ _ V1); auto. discriminate.
  - intros m N1 N2. rewrite (save_other _ _ _ _ _ _ V2), (save_other _ _ _ _ _ _ V1); auto.
  - rewrite Hp. apply in_or_app. right. cbn. tauto.
Qed.
Print Assumptions C86_optimization_partial.

(** If the solution is the point Ipopt evaluated last, the printed cost, penalty and violations are
    those of the solution (C62 speaks about the other case). *)
Theorem C86_printed_values_partial : forall B F (j : job B) d printed status x obj st st0 d0 e0 lower upper,
  deterministic B F -> asked_to_optimize (all_json j) -> run j = Ok (d, printed) ->
  finalize (solver j) = Some (status, x, obj) -> constructed j = Ok (fresh st0 d0 e0) -> bounds j = Ok (lower, upper) ->
  announced B None (callbacks (solver j)) -> last_point B None (callbacks (solver j)) = Some x -> F x = Some st ->
  List.length lower = List.length (b_constr B x st) -> List.length upper = List.length (b_constr B x st) -> b_constr B x st <> [] ->
  exists lv uv, largest_excess lower (b_constr B x st) lv /\ largest_excess (b_constr B x st) upper uv /\ forall l, In l printed <->
      (status <> 0%Z /\ l = Failed_to_find_optimum 0) \/
      l = Cost (Some (b_cost B x st)) \/ l = Penalty (Some (b_penalty B x st)) \/ l = Overall_objective (Some obj) \/
      l = Lower_violation lv \/ l = Upper_violation uv \/ l = Can_be_found.
Proof.
  intros B F j d printed status x obj st st0 d0 e0 lower upper D W H Hf Hc Hb An La Fx L1 L2 N. apply wants_iff in W.
  destruct (run_optimization j d printed W H) as (lower' & upper' & o & status' & x' & obj' & Hb' & Hc' & _ & Hf' & o2 & cost & penalty & Fi & o3 & lv & uv & st' & G & Hp & _).
  rewrite Hb in Hb'. injection Hb' as <- <-. rewrite Hc in Hc'. injection Hc' as <-. rewrite Hf in Hf'. injection Hf' as <- <- <-.
  destruct (reports_right B F st0 d0 e0 (callbacks (solver j)) x st lower upper D An La Fx L1 L2 N) as (p1 & p2 & lv' & uv' & E1 & E2 & X1 & X2).
  rewrite E1 in Fi. injection Fi as <- <- <-. rewrite E2 in G. injection G as <- <- <- <-.
  exists lv', uv'. split; auto. split; auto. intro l. rewrite Hp, in_app_iff. unfold SUCCESS.
  destruct (Z.eqb_spec status 0) as [Q|Q]; cbn [negb In]; intuition congruence.
Qed.
Print Assumptions C86_printed_values_partial.

(** The message "FAILED TO FIND AN OPTIMUM" appears exactly if Ipopt ended with another status than
    SUCCESS. *)
Theorem C86_failure_message : forall B (j : job B) d printed,
  asked_to_optimize (all_json j) -> run j = Ok (d, printed) ->
  (exists s, In (Failed_to_find_optimum s) printed) <->
  (exists status x obj, finalize (solver j) = Some (status, x, obj) /\ status <> 0%Z).
Proof.
  intros B j d printed W H. apply wants_iff in W.
  destruct (run_optimization j d printed W H) as (lower & upper & o & status & x & obj & _ & _ & _ & Hf & o2 & cost & penalty & _ & o3 & lv & uv & st & _ & Hp & _).
  rewrite Hp. unfold SUCCESS. destruct (Z.eqb_spec status 0) as [->|N]; cbn [negb app]; split.
  - intros [s Hs]. cbn in Hs. repeat (destruct Hs as [Hs|Hs]; [discriminate|]). destruct Hs.
  - intros (s & x' & obj' & E & N). congruence.
  - intros _. exists status, x, obj. auto.
  - intros _. exists 0%Z. left. reflexivity.
Qed.
Print Assumptions C86_failure_message.

(** But the number in it is always that of SUCCESS. *)
Theorem C86_status_always_success : forall B (j : job B) d printed s,
  run j = Ok (d, printed) -> In (Failed_to_find_optimum s) printed -> s = 0%Z.
Proof.
  intros B j d printed s H I. destruct (wants_optimization (all_json j)) eqn:W.
  - destruct (run_optimization j d printed W H) as (lower & upper & o & status & x & obj & _ & _ & _ & Hf & o2 & cost & penalty & _ & o3 & lv & uv & st & _ & Hp & _).
    rewrite Hp in I. apply in_app_or in I. destruct I as [I|I].
    + destruct (negb _); [|destruct I]. destruct I as [I|[]]. injection I as <-. reflexivity.
    + cbn in I. repeat (destruct I as [I|I]; [discriminate|]). destruct I.
  - destruct (run_simulation j d printed W H) as (-> & _). destruct I as [I|[]]. discriminate.
Qed.
Print Assumptions C86_status_always_success.

(** The exit code and the files do not depend on Ipopt's statuses at all. *)
Theorem C86_exit_code_ignores_ipopt : forall B (j : job B) status returned,
  main (Run (with_statuses j status returned)) = main (Run j) /\
  omap fst (run (with_statuses j status returned)) = omap fst (run j).
Proof.
  intros B j status returned. pose proof (run_statuses j status returned) as Q. split; auto. cbn [main].
  destruct (run j) as [[d l]| |]; destruct (run (with_statuses j status returned)) as [[d' l']| |]; try discriminate Q; reflexivity.
Qed.
Print Assumptions C86_exit_code_ignores_ipopt.

(** States or controls that cannot be written as text end the program with exit code 1. *)
Theorem C86_no_text : forall B (j : job B), setup j = Ok tt ->
  (forall st d, ~ asked_to_optimize (all_json j) -> simulated j = Ok st -> prepared j ["states.json"] = Ok d ->
     states_text j st = None -> main (Run j) = Some 1%Z) /\
  (forall lower upper o status x obj d r, asked_to_optimize (all_json j) -> bounds j = Ok (lower, upper) ->
     constructed j = Ok o -> initialize (solver j) = 0%Z -> finalize (solver j) = Some (status, x, obj) ->
     (let '(o1, w, _, _) := optimize (solver j) o in report o1 w lower upper = Ok r) ->
     prepared j ["states.json"; "controls.json"] = Ok d -> controls_text j x = None -> main (Run j) = Some 1%Z).
Proof.
  intros B j S. split.
  - intros st d W Hs Hp Ht. assert (W' : wants_optimization (all_json j) = false).
    { destruct (wants_optimization (all_json j)) eqn:E; [|reflexivity]. exfalso. apply W. apply wants_iff. exact E. }
    unfold main, run. rewrite S, W', Hs. cbn [obind negb]. rewrite Hp. cbn [obind]. rewrite Ht. reflexivity.
  - intros lower upper o status x obj d r W Hb Ho Hi Hf Hr Hp Ht. apply wants_iff in W.
    unfold main, run. rewrite S, W, Hb, Ho. cbn [obind negb].
    unfold optimize in *. rewrite Hi in *. change (0 =? SUCCESS)%Z with true in *. cbn [negb] in *. rewrite Hf in *.
    destruct (finalize_solution (after o (callbacks (solver j))) x) as [o2 [c p]].
    assert (X : snd (fst r) = x).
    { unfold report in Hr. cbn [best_solution] in Hr. destruct (final_reports o2 x lower upper) as [o3 [v st]].
      destruct v as [[lv uv]| |]; cbn [omap] in Hr; [injection Hr as <-; reflexivity|discriminate Hr|discriminate Hr]. }
    rewrite Hr. cbn [obind]. destruct r as [[rep sol] st]. cbn [fst snd] in X. subst sol. rewrite Hp. cbn [obind].
    rewrite Ht. reflexivity.
Qed.
Print Assumptions C86_no_text.

(** A run of the optimization whose controls are a number and whose states equal the controls; Ipopt
    evaluates the point 1 and ends there. *)
Definition small_dir : directory := fun n => if String.eqb n "states.json" then Some (EFile "") else
  if String.eqb n "controls.json" then Some (EFile "") else None.
Definition small_job (optimize : bool) (e : environment) (init status : Z) : job echo :=
  mk_job (JObj [("optimize", JBool optimize)]) (Ok tt) (Ok (1 : St echo)) (fun _ => Ok small_dir)
    (fun _ : St echo => Some "s") (fun _ : Ctl echo => Some "c") (fun _ => e) (Ok ([0], [5]))
    (Ok (fresh (B := echo) (0 : St echo) (tt : Der echo) (tt : Env echo)))
    (mk_ipopt (B := echo) init [EvalF (B := echo) 1 true] (Some (status, 1, 1)) status).

Lemma small_run e status : exists d printed,
  run (small_job true e 0 status) = Ok (d, (if negb (status =? 0)%Z then [Failed_to_find_optimum 0] else []) ++ printed ++ [Can_be_found]).
Proof.
  destruct (save e small_dir "controls.json" (Some "c")) as [d1| |] eqn:E1;
    [|unfold save in E1; destruct (open_trunc e small_dir "controls.json"); discriminate..].
  destruct (save e d1 "states.json" (Some "s")) as [d| |] eqn:E2;
    [|unfold save in E2; destruct (open_trunc e d1 "states.json"); discriminate..].
  exists d. eexists.
  unfold run, small_job. cbn [setup all_json bounds constructed solver prepared states_text controls_text writing obind].
  change (wants_optimization _) with true. cbn [negb]. unfold optimize. cbn [initialize].
  change (0 =? SUCCESS)%Z with true. cbn [negb finalize callbacks]. cbv [after Optim_Model.run handle announce new_x fresh
    evaluate_objective evaluate_cost evaluate_penalty refresh simulate echo states_up_to_date map fst last derivatives_up_to_date cached_states stored env
    finalize_solution b_cost b_penalty report best_solution final_reports evaluate_constraints b_constr obind omap maxCoeff vminus combine fold_left
    best_cost_value best_penalty_value best_objective_value option_map].
  rewrite E1, E2. reflexivity.
Qed.

(** Full statement: the exit code 0 and the message that optimal controls can be found mean that
    Ipopt found an optimum.  It is false. *)
Theorem C86_no_optimum_refuted : exists B (j : job B) d printed,
  asked_to_optimize (all_json j) /\ run j = Ok (d, printed) /\ main (Run j) = Some 0%Z /\
  In Can_be_found printed /\ ~ found_optimum (solver j).
Proof.
  destruct (small_run (mkEnv false false [1%nat]) 2) as (d & p & E);
    exists echo, (small_job true (mkEnv false false [1%nat]) 0 2), d; eexists;
    (split; [eexists; split; reflexivity|]); (split; [exact E|]); (split; [unfold main; rewrite E; reflexivity|]);
    (split; [apply in_or_app; right; apply in_or_app; right; left; reflexivity|]);
    intros (_ & Q & _); discriminate Q.
Qed.
Print Assumptions C86_no_optimum_refuted.

(** Full statement: the reported status is Ipopt's. *)
Theorem C86_status_refuted : exists B (j : job B) d printed status x obj s,
  asked_to_optimize (all_json j) /\ run j = Ok (d, printed) /\ finalize (solver j) = Some (status, x, obj) /\
  In (Failed_to_find_optimum s) printed /\ s <> status.
Proof.
  destruct (small_run (mkEnv false false [1%nat]) 2) as (d & p & E);
    exists echo, (small_job true (mkEnv false false [1%nat]) 0 2), d; eexists; exists 2%Z, 1, 1, 0%Z;
    (split; [eexists; split; reflexivity|]); (split; [exact E|]); (split; [reflexivity|]);
    (split; [apply in_or_app; left; left; reflexivity|discriminate]).
Qed.
Print Assumptions C86_status_refuted.

(** Full statement: after exit code 0 the result files contain the results.  It is false when the
    operating system cannot write: the states are lost without notice, also in a simulation. *)
Theorem C86_lost_file_refuted : exists B (j : job B) d printed st t,
  ~ asked_to_optimize (all_json j) /\ run j = Ok (d, printed) /\ main (Run j) = Some 0%Z /\ In Can_be_found printed /\
  simulated j = Ok st /\ states_text j st = Some t /\ t <> "" /\ forall m, ~ holds d m t.
Proof.
  exists echo, (small_job false (mkEnv false true []) 0 0), small_dir, [Can_be_found], 1, "s".
  split; [intros (fs & E & F); injection E as <-; discriminate F|]. split; [reflexivity|]. split; [reflexivity|].
  split; [left; reflexivity|]. split; [reflexivity|]. split; [reflexivity|]. split; [discriminate|].
  intros m. unfold holds, small_dir. destruct (String.eqb m "states.json"); [discriminate|].
  destruct (String.eqb m "controls.json"); discriminate.
Qed.
Print Assumptions C86_lost_file_refuted.

(** If Ipopt cannot be initialized, or ends without calling finalize_solution, there is undefined
    behaviour instead of an error. *)
Theorem C86_no_solution : forall B (j : job B) lower upper o, setup j = Ok tt ->
  asked_to_optimize (all_json j) -> bounds j = Ok (lower, upper) -> constructed j = Ok o ->
  (initialize (solver j) <> 0%Z \/ finalize (solver j) = None) -> run j = UB.
Proof.
  intros B j lower upper o S W Hb Ho H. apply wants_iff in W. unfold run. rewrite S, W, Hb, Ho. cbn [obind negb]. unfold optimize, SUCCESS.
  destruct (Z.eqb_spec (initialize (solver j)) 0) as [E|N]; cbn [negb]; [|reflexivity].
  destruct H as [H|H]; [congruence|]. rewrite H. reflexivity.
Qed.
Print Assumptions C86_no_solution.

(** Cases: a simulation and an optimization that write their files. *)
Example C86_simulation_case : exists d, run (small_job false (mkEnv false false [1%nat]) 0 0) = Ok (d, [Can_be_found]) /\
  holds d "states.json" "s" /\ write_succeeds (mkEnv false false [1%nat]) "s" /\ ~ is_dir small_dir "states.json".
Proof.
  eexists. split; [reflexivity|]. split; [reflexivity|]. split; [split; [reflexivity|exists []; reflexivity]|].
  intros [b Hb]. discriminate Hb.
Qed.
Example C86_optimization_case : exists d printed, run (small_job true (mkEnv false false [1%nat]) 0 0) = Ok (d, printed) /\
  found_optimum (solver (small_job true (mkEnv false false [1%nat]) 0 0)) /\ deterministic echo (fun c => Some c) /\
  holds d "states.json" "s" /\ holds d "controls.json" "c" /\ ~ (exists s, In (Failed_to_find_optimum s) printed).
Proof.
  assert (D : deterministic echo (fun c => Some c)) by (intros e c; reflexivity).
  assert (W : asked_to_optimize (all_json (small_job true (mkEnv false false [1%nat]) 0 0))) by (eexists; split; reflexivity).
  assert (H : exists d printed, run (small_job true (mkEnv false false [1%nat]) 0 0) = Ok (d, printed)).
  { destruct (small_run (mkEnv false false [1%nat]) 0) as (d & p & E); eauto. }
  destruct H as (d & printed & H). exists d, printed. split; auto.
  split; [split; [reflexivity|split; [reflexivity|exists 1, 1; reflexivity]]|]. split; auto.
  destruct (C86_optimization_partial echo (fun c => Some c) _ d printed D W H) as (st & x & obj & d0 & Hf & P & Q & _).
  injection Hf as <- <- <-. injection P as <-. destruct (Q 1 eq_refl) as (tc & ts & Tc & Ts & K).
  injection Tc as <-. injection Ts as <-.
  assert (Wr : forall t, String.length t = 1%nat -> write_succeeds (mkEnv false false [1%nat]) t).
  { intros t Ht. split; [reflexivity|]. exists []. cbn. rewrite Ht. reflexivity. }
  destruct K as [K1 K2]; try (apply Wr; reflexivity); try (intros [b Hb]; discriminate Hb).
  split; auto. split; auto. rewrite (C86_failure_message echo _ d printed W H).
  intros (s & x & obj & E & N). injection E as <- <- <-. auto.
Qed.
Example C86_printed_case : let j := small_job true (mkEnv false false [1%nat]) 0 0 in
  announced echo None (callbacks (solver j)) /\ last_point echo None (callbacks (solver j)) = Some 1 /\
  b_constr echo 1 1 = [1] /\ exists d printed, run j = Ok (d, printed) /\
  In (Cost (Some 1)) printed /\ In (Penalty (Some 0)) printed /\ In (Lower_violation 0) printed.
Proof.
  cbn zeta. set (j := small_job true (mkEnv false false [1%nat]) 0 0).
  assert (D : deterministic echo (fun c => Some c)) by (intros e c; reflexivity).
  assert (W : asked_to_optimize (all_json j)) by (eexists; split; reflexivity).
  assert (A : announced echo None (callbacks (solver j))) by (cbn; auto).
  assert (La : last_point echo None (callbacks (solver j)) = Some 1) by reflexivity.
  split; auto. split; auto. split; [reflexivity|].
  destruct (small_run (mkEnv false false [1%nat]) 0) as (d & p & E). change (run j = Ok (d, [] ++ p ++ [Can_be_found])) in E.
  exists d. eexists. split; [exact E|].
  destruct (C86_printed_values_partial echo (fun c => Some c) j d _ 0%Z 1 1 1 0 tt tt [0] [5] D W E eq_refl eq_refl eq_refl A La eq_refl eq_refl eq_refl)
    as (lv & uv & L1 & L2 & Q); [discriminate|].
  rewrite !Q. assert (lv = 0) as ->; [|intuition].
  destruct L1 as (P & _ & [->|(i & a & b & Ha & Hb & ->)]); auto. destruct i as [|[|i]]; [|discriminate Ha..].
  injection Ha as <-. injection Hb as <-. lra.
Qed.
