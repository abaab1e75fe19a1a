(** * Properties C12 - C14: callbacks, final reports, state cache *)
From Coq Require Import List Arith Reals Lra Lia.
From Verif Require Import Base Interp_Model Optim_Model Optim_Spec Optim_Proofs.
From Verif Require Interp_Proofs.
Import ListNotations.
Open Scope R_scope.

(** C12.  [states i] are the states belonging to callback number [i].  Every successful callback
    answers with the value for its own controls and a simulation of them; a callback fails only
    if a simulation or derivative computation at its point failed; callbacks between two
    announcements of new points use the same states. *)
Theorem C12_callbacks_fresh : forall B st d e h, announced B None h ->
  let replies := map snd (run (fresh st d e) h) in
  length replies = length h /\
  exists states : nat -> St B,
    (forall i cb r, nth_error h i = Some cb -> nth_error replies i = Some (Some r) ->
       right_answer B cb (states i) r) /\
    (forall i cb, nth_error h i = Some cb -> nth_error replies i = Some None -> may_fail B cb) /\
    (forall i j cb c new r, (i < j < length h)%nat -> nth_error h i = Some cb -> asks B cb = Some (c, new) ->
       nth_error replies i = Some (Some r) ->
       (forall k cb c, (i < k <= j)%nat -> nth_error h k = Some cb -> asks B cb <> Some (c, true)) ->
       states j = states i).
Proof. exact callbacks_full. Qed.
Print Assumptions C12_callbacks_fresh.

Example C12_example : announced echo None
    [EvalG (B:=echo) 3 true; EvalF (B:=echo) 3 false; EvalF (B:=echo) 4 true; JacStructure false; EvalGradF (B:=echo) 4 false] /\
  map snd (run (fresh (B:=echo) 0 tt tt) [EvalG (B:=echo) 3 true; EvalF (B:=echo) 3 false; EvalF (B:=echo) 4 true])
    = [Some (Vector [3]); Some (Number (3 + 0)); Some (Number (4 + 0))].
Proof. split; [cbn; auto 10|reflexivity]. Qed.

(** C13.  Full statement: for every announced history and every delivered solution the reported
    cost, penalty and violations are those of the solution.  It is false: the evaluations after
    the optimization do not announce the solution as a new point. *)
Theorem C13_reports_belong_to_solution_refuted : exists (B : backend) F st0 d0 e0 h sol st lower upper,
  deterministic B F /\ announced B None h /\ F sol = Some st /\
  In (EvalF sol true) h /\ ~ In None (map snd (run (fresh st0 d0 e0) h)) /\
  length lower = length (b_constr B sol st) /\ length upper = length (b_constr B sol st) /\
  b_constr B sol st <> [] /\
  exists o1 cost penalty, finalize_solution (after (fresh st0 d0 e0) h) sol = (o1, (cost, penalty)) /\
    cost <> b_cost B sol st /\
    exists o2 lv uv st', final_reports o1 sol lower upper = (o2, (Ok (lv, uv), st')) /\
      ~ largest_excess (b_constr B sol st) upper uv.
Proof. exact reports_stale. Qed.
Print Assumptions C13_reports_belong_to_solution_refuted.

(** They are right if the solution is the point evaluated last. *)
Theorem C13_reports_belong_to_solution_partial : forall B F st0 d0 e0 h sol st lower upper,
  deterministic B F -> announced B None h -> last_point B None h = Some sol -> F sol = Some st ->
  length lower = length (b_constr B sol st) -> length upper = length (b_constr B sol st) ->
  b_constr B sol st <> [] ->
  exists o1 o2 lv uv,
    finalize_solution (after (fresh st0 d0 e0) h) sol = (o1, (b_cost B sol st, b_penalty B sol st)) /\
    final_reports o1 sol lower upper = (o2, (Ok (lv, uv), st)) /\
    largest_excess lower (b_constr B sol st) lv /\ largest_excess (b_constr B sol st) upper uv.
Proof. exact reports_right. Qed.
Print Assumptions C13_reports_belong_to_solution_partial.

Example C13_example : exists h : list (callback echo),
  deterministic echo (fun c => Some c) /\ announced echo None h /\ last_point echo None h = Some 1 /\
  b_constr echo 1 1 <> [] /\ (2 <= length h)%nat.
Proof.
  exists [EvalF (B:=echo) 5 true; EvalF (B:=echo) 1 true]. split; [intros e c; reflexivity|].
  split; [cbn; auto|]. split; [reflexivity|]. split; [discriminate|cbn; lia].
Qed.

(** The states that are saved are always those of the solution. *)
Theorem C13_saved_states : forall B F o sol st lower upper,
  deterministic B F -> F sol = Some st -> snd (snd (final_reports (B:=B) o sol lower upper)) = st.
Proof. exact saved_states_right. Qed.
Print Assumptions C13_saved_states.

(** Without constraints the violation report takes the maximum of an empty vector. *)
Theorem C13_report_without_constraints_undefined : forall B F o sol st, deterministic B F -> F sol = Some st ->
  (forall st', b_constr B sol st' = []) ->
  fst (snd (final_reports (B:=B) o sol [] [])) = UB.
Proof. exact reports_undefined. Qed.
Print Assumptions C13_report_without_constraints_undefined.

Example C13_example_empty :
  let B := mk_backend unit unit unit unit (fun _ _ => (tt, Some tt)) (fun _ _ _ => (tt, (true, tt)))
     (fun _ _ => 0) (fun _ _ => 0) (fun _ _ => []) (fun _ => []) (fun _ => []) in
  deterministic B (fun _ => Some tt) /\ forall st', b_constr B tt st' = [].
Proof. split; [intros e []; reflexivity|reflexivity]. Qed.

(** If the simulation of the solution fails, the reported cost and penalty are 0, as if the solution
    were free, and the violations are computed from uninitialised memory. *)
Theorem C13_failed_solution : forall B st0 d0 e0 h sol lower upper,
  (forall e, snd (simulate B e sol) = None) -> announced B None h -> last_point B None h = Some sol ->
  exists o1, finalize_solution (after (fresh st0 d0 e0) h) sol = (o1, (0, 0)) /\
    fst (snd (final_reports o1 sol lower upper)) = UB.
Proof.
  intros B st0 d0 e0 h sol lower upper Hf Han Hl.
  pose proof (after_inv B None h (fresh st0 d0 e0) (inv_none B None (fresh st0 d0 e0) eq_refl eq_refl) Han) as [HI _]. rewrite Hl in HI.
  set (o := after (fresh st0 d0 e0) h) in *. clearbody o.
  assert (Old : states_up_to_date o = false).
  { destruct (states_up_to_date o); [|reflexivity]. destruct (HI eq_refl) as (c & Q & e & e' & S). injection Q as <-. specialize (Hf e). rewrite S in Hf. discriminate. }
  assert (R : forall o, states_up_to_date o = false -> exists o', refresh (B:=B) o sol = (o', false) /\ states_up_to_date o' = false).
  { intros o' E. unfold refresh. rewrite E. specialize (Hf (env o')). destruct (simulate B (env o') sol) as [e r]. cbn in Hf. subst r. eexists. split; reflexivity. }
  unfold finalize_solution, evaluate_cost, evaluate_penalty, final_reports, evaluate_constraints.
  destruct (R o Old) as (o1 & -> & U1). destruct (R o1 U1) as (o2 & -> & U2). exists o2. split; [reflexivity|].
  destruct (R o2 U2) as (o3 & -> & U3). destruct (evaluate_objective (new_x o3) sol). reflexivity.
Qed.
Print Assumptions C13_failed_solution.
Example C13_failed_case :
  let B := mk_backend R unit unit unit (fun _ c => (tt, if Rltb 0 c then None else Some tt)) (fun _ _ _ => (tt, (true, tt)))
     (fun _ _ => 7) (fun _ _ => 0) (fun _ _ => [1]) (fun _ => []) (fun _ => []) in
  (forall e, snd (simulate B e 1) = None) /\ announced B None [EvalF (B:=B) 0 true; EvalF (B:=B) 1 true] /\
  last_point B None [EvalF (B:=B) 0 true; EvalF (B:=B) 1 true] = Some 1.
Proof. cbv zeta. split; [|split; [cbn; auto|reflexivity]]. intro e. cbn. replace (Rltb 0 1) with true by (symmetry; apply Interp_Proofs.Rltb_true; lra). reflexivity. Qed.

(** C14.  Full statement: for every history of requests every lookup is answered by the
    simulation of the request.  It is false when requests with equal controls have different
    numbers of time points: vectors of different sizes are compared. *)
Theorem C14_cache_lookup_refuted : exists sim r1 r2,
  proper_request 2 1 r1 /\ proper_request 3 1 r2 /\
  cache_run sim empty_scache [Lookup r1; Lookup r2] = UB.
Proof. exact cache_undefined. Qed.
Print Assumptions C14_cache_lookup_refuted.

Theorem C14_cache_lookup_partial : forall sim n m ops,
  (forall op r, In op ops -> op_request op = Some r -> proper_request n m r) ->
  exists rs, cache_run sim empty_scache ops = Ok rs /\ length rs = length ops /\
    forall i op r, nth_error ops i = Some op -> nth_error rs i = Some r -> right_cache_reply sim op r.
Proof. exact cache_right. Qed.
Print Assumptions C14_cache_lookup_partial.

Theorem C14_cached_states : forall sim s r st, sim r = Some st ->
  exists s', cache_step sim s (Refresh r) = Ok (s', Refreshed true) /\
    cache_step sim s' Cached = Ok (s', States (Some st)).
Proof. exact cached_after_refresh. Qed.
Print Assumptions C14_cached_states.

Example C14_example : proper_request 2 1 (mk_request one_control [0; 1] [5]) /\
  proper_request 2 1 (mk_request one_control [0; 2] [5]).
Proof. repeat split; discriminate. Qed.
