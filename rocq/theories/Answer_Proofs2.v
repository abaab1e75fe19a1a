(** * The callbacks for the problem of the input files *)
From Coq Require Import Reals ZArith Lra Lia List Arith Bool FunctionalExtensionality.
From Coquelicot Require Import Coquelicot.
From Verif Require Import Base Interp_Model Calc Net_Model Net_Spec Interp_Spec Interp_Proofs Interp_Proofs2 Jac_Model Jac_Spec Jac_Proofs2
  Ctimes_Model Adjoint_Model Adjoint_Spec Adjoint_Proofs Adjoint_Proofs3 Adjoint_Proofs4 Iface_Model Iface_Spec Iface_Proofs3
  Whole_Spec Whole_Proofs3 Whole_Props Sim_Spec Input_Model Setup_Model Setup_Proofs Answer_Model Answer_Spec Answer_Proofs.
From Verif Require Newton_Model Newton_Proofs Evolve_Model Evolve_Spec Evolve_Proofs Sim_Model Sim_Props Whole_Model Optim_Model Optim_Spec Optim_Props.
Import ListNotations.
Local Open Scope R_scope.

(** ** A simulation ends, and it is defined *)
Lemma solve_not_ub N fuel cfg full x : Newton_Model.solve N fuel cfg full x <> Some UB.
Proof.
  assert (S : forall lu0 z v, Newton_Model.newton_step N fuel full lu0 z v <> Some UB).
  { intros lu0 z v. unfold Newton_Model.newton_step. destruct (if full then _ else _) as [lu|]; [|discriminate].
    match goal with |- match ?d with _ => _ end <> _ => assert (U : d <> Some UB) by apply Newton_Proofs.damp_not_ub; destruct d as [[[[? ?] ?]| |]|] end; congruence. }
  assert (L : forall lu0 left z v s, Newton_Model.newton_loop N fuel (Newton_Model.tolerance cfg) full lu0 left z v s <> Some UB).
  { intros lu0 left. induction left as [|left IH]; intros z v s; cbn [Newton_Model.newton_loop]; [discriminate|].
    destruct (Newton_Model.xgtb _ _); [|discriminate]. pose proof (S lu0 z v) as U.
    destruct (Newton_Model.newton_step N fuel full lu0 z v) as [[[z' v']| |]|]; first [apply IH|congruence]. }
  unfold Newton_Model.solve. destruct (Newton_Model.xleb _ _); [discriminate|].
  match goal with |- context [Newton_Model.newton_loop N fuel ?a ?b ?c ?d ?e ?f ?g] => pose proof (L c d e f g) end.
  destruct full, (Newton_Model.ns_factor N x); try discriminate;
    destruct (Newton_Model.newton_loop _ _ _ _ _ _ _ _ _) as [[[? ?]| |]|]; congruence.
Qed.
Lemma attempts_not_ub {V E} (prepare : E -> outcome E) (solver : E -> bool -> V -> Newton_Model.nresult (V * Newton_Model.solution)) cfg x :
  (forall e, prepare e <> UB) -> (forall e full y, solver e full y <> Some UB) ->
  forall fuel retry full e, fst (fst (Evolve_Model.attempts prepare solver fuel cfg x retry full e)) <> Some UB.
Proof.
  intros Hp Hs. induction fuel as [|fuel IH]; intros retry full e; cbn [Evolve_Model.attempts]; [discriminate|].
  specialize (Hp e). destruct (prepare e) as [e1| |]; [|discriminate|congruence]. cbv zeta.
  specialize (Hs e1 full x). destruct (solver e1 full x) as [[[y sol]| |]|]; cbn [fst]; try congruence; try discriminate.
  destruct (Newton_Model.success sol); [discriminate|]. destruct (_ <? _)%Z; [discriminate|].
  match goal with |- context [Evolve_Model.attempts prepare solver fuel cfg x ?a ?b ?c] => specialize (IH a b c); destruct (Evolve_Model.attempts prepare solver fuel cfg x a b c) as [[r e2] log] end.
  exact IH.
Qed.
Lemma simulate_not_ub P fuel sfuel cfg controls points x e :
  (forall e t0 t1 u c, Evolve_Model.pr_prepare P e t0 t1 u c <> UB) -> (2 <= length points)%nat ->
  (forall t, In t points -> Evolve_Model.current_controls controls t <> UB) ->
  fst (Evolve_Model.simulate P fuel sfuel cfg controls points x e) <> Some UB.
Proof.
  intros Hp L Hc.
  assert (K : forall times t0 y z e, (forall t, In t times -> Evolve_Model.current_controls controls t <> UB) ->
    fst (Evolve_Model.simulate_loop P fuel sfuel cfg controls times t0 y z e) <> Some UB).
  { induction times as [|t1 times IH]; intros t0 y z e1 H; cbn [Evolve_Model.simulate_loop]; [discriminate|].
    pose proof (H t1 (or_introl eq_refl)) as Q. destruct (Evolve_Model.current_controls controls t1) as [c| |]; [|discriminate|congruence].
    assert (T : fst (fst (Evolve_Model.time_step P fuel sfuel cfg t0 t1 y z c e1)) <> Some UB).
    { unfold Evolve_Model.time_step, Evolve_Model.make_one_step. apply attempts_not_ub; [intro; apply Hp|]. intros e2 full w. apply (solve_not_ub (Evolve_Model.system_of P e2 t0 t1 y c)). }
    destruct (Evolve_Model.time_step P fuel sfuel cfg t0 t1 y z c e1) as [[[[[w sol]| |]|] e'] log]; cbn [fst] in T |- *; try congruence; try discriminate.
    destruct (Newton_Model.success sol); [|discriminate]. specialize (IH t1 w w e' (fun t It => H t (or_intror It))).
    destruct (Evolve_Model.simulate_loop P fuel sfuel cfg controls times t1 w w e') as [[[rows| |]|] e'']; cbn [fst] in *; congruence. }
  unfold Evolve_Model.simulate. destruct points as [|t0 [|t1 rest]]; [cbn in L; lia|cbn in L; lia|].
  pose proof (Hc t1 (or_intror (or_introl eq_refl))) as Q. destruct (Evolve_Model.current_controls controls t1) as [c| |]; [|discriminate|congruence].
  specialize (K (t1 :: rest) t0 x x e (fun t It => Hc t (or_intror It))).
  destruct (Evolve_Model.simulate_loop P fuel sfuel cfg controls (t1 :: rest) t0 x x e) as [[[rows| |]|] e']; cbn [fst] in *; congruence.
Qed.

Lemma Forall2_length {A B} (Q : A -> B -> Prop) l l' : Forall2 Q l l' -> length l = length l'.
Proof. intro H. induction H; cbn [length]; congruence. Qed.
Lemma is_derive_eq (f : R -> R) (x l l' : R) : is_derive f x l -> l = l' -> is_derive f x l'.
Proof. intros H <-. exact H. Qed.

Section Callbacks.
Context {LU : Type}.
Variables (factor : unit -> R -> R -> vec -> list R -> vec -> option LU) (linsolve : LU -> vec -> vec) (solve : solver_type) (fuel sfuel : nat).
Variables (uninit : nat -> R) (read : String.string -> outcome Json_Model.json) (directory : String.string) (p : prepared) (o : optimizer).
Hypothesis Hprep : prepare_optimization uninit read directory = Ok (p, o).
Let N := network_of (pp_nodes p) (pp_edges p).
Let sinks := constraint_nodes (pp_nodes p).
Let st := state_timepoints o.
Let ct := control_timepoints o.
Let cons := constraint_timepoints o.
Let n := number_of_states N.
Let m := number_of_controls N.
Let B := network_backend factor linsolve solve fuel sfuel p o.
Let cfg := pp_settings p.
Hypothesis HW : well_formed N.
Hypothesis HP : pipes_ok N.
Hypothesis HB : forall t, In t st -> boundary_defined N t.
Hypothesis Hst : increasing st.
Hypothesis Hlen : (2 <= length st)%nat.
Hypothesis Hct : increasing ct.
Hypothesis HS : constrained_nodes N sinks.
Hypothesis Hmi : (0 <= Newton_Model.maximal_iterations (Evolve_Model.newton cfg))%Z.
Hypothesis Htol : Newton_Model.tolerance (Evolve_Model.newton cfg) < 1000000.

Lemma numbers : o_nx o = n /\ o_nu o = m /\ o_ng o = length sinks /\ (0 < m)%nat /\ initial_state o = pp_initial p /\ length (initial_state o) = n /\
  ctor_time_checks st ct cons = Ok tt /\ make_data (length sinks) m cons ct = Some (Ok (constraint_jacobian o)) /\
  Iface_Spec.controlled ct st /\ constraint_times_of st cons.
Proof.
  destruct (optimization_parts _ _ _ _ _ Hprep) as (all & settings & problem & ns & es & k & Q & A & _ & C & D & E & F & G & I & J & Sx & S0 & Su & Sg & St & X0 & Ho & _).
  destruct (constraint_nodes_positions _ _ _ _ _ E) as [_ Cl]. destruct (constructed _ _ _ _ _ _ _ _ _ Ho) as (Fi & pairs & l & Hl & Eo).
  assert (Eg : o_ng o = length sinks) by (unfold sinks; congruence).
  split; [exact Sx|]. split; [exact Su|]. split; [exact Eg|]. split; [unfold m, N; congruence|]. split; [exact X0|].
  split; [unfold n, N; rewrite <- Sx; apply Fi|].
  split; [apply (ctor_checked _ _ _ _ _ _ _ _ _ Ho)|]. split; [|split; apply Fi].
  unfold m, N. rewrite <- Su, <- Eg. unfold cons, ct. rewrite Hl. rewrite (f_equal constraint_jacobian Eo). reflexivity.
Qed.
Lemma sorted_times : nondecreasing cons /\ nondecreasing ct.
Proof.
  destruct (optimization_parts _ _ _ _ _ Hprep) as (all & settings & problem & ns & es & k & Q & A & _ & C & D & E & F & G & I & J & Sx & S0 & Su & Sg & St & X0 & Ho & _).
  destruct (constructed _ _ _ _ _ _ _ _ _ Ho) as (Fi & _). split; apply Fi.
Qed.
Lemma covers t : In t st -> exists ul, compute_index_lambda ct t = Ok ul.
Proof.
  intro I. destruct numbers as (_ & _ & _ & _ & _ & _ & _ & _ & (N1 & _ & C) & _). specialize (C t I).
  destruct (index_lambda_full ct t (nth 0 ct 0) (last ct 0) Hct) as (u & la & E & _).
  - apply nth_error_nth'. destruct ct; [congruence|cbn; lia].
  - apply nth_error_last, N1.
  - exact C.
  - exists (u, la). exact E.
Qed.

Section Point.
Variable c : list R.
Hypothesis Tc : table_of ct m c.
Notation U := (along N st ct c).

Lemma mapped : mapped_controls o c = mk_ivec ct m c.
Proof. destruct numbers as (_ & E & _). unfold mapped_controls. rewrite E. reflexivity. Qed.
Lemma nonneg : (0 < m)%nat. Proof. apply numbers. Qed.

Section Solved.
Variable states : list vec.
Hypothesis Hsim : simulation factor linsolve fuel sfuel p o c = Some (Ok states).
Let X := states_table n states.
Lemma solved : length states = length st /\ nth_error states 0 = Some (States_Model.vec_of (initial_state o)) /\
  trajectory N (Newton_Model.tolerance (Evolve_Model.newton cfg)) st ct (initial_state o) c states U.
Proof.
  destruct numbers as (Ex & Eu & _ & _ & _ & Li & _). unfold simulation in Hsim. rewrite mapped, Ex in Hsim.
  destruct (Evolve_Model.simulate _ _ _ _ _ _ _ _) as [r e'] eqn:Es in Hsim. cbn [fst] in Hsim. subst r.
  destruct (Sim_Props.C90_simulation unit LU n (fun _ => N) (fun e _ _ _ _ => Ok e) factor linsolve fuel sfuel cfg (mk_ivec ct m c) st (vec_of (initial_state o)) tt states e' (fun _ => conj HW (conj HP eq_refl)) (fun _ => HB) Hmi Htol Es) as (S1 & S2 & S3).
  split; [exact S1|]. split; [exact S2|]. split; [exact S1|]. split; [apply along_controls; auto; apply covers|]. split.
  - intros x E k K. pose proof (eq_trans (eq_sym S2) E) as Q. injection Q as <-. unfold vec_of. rewrite (nth_error_nth' _ 0) by (rewrite Li; exact K). reflexivity.
  - intros k t0 t1 u v H0 H1 H2 H3. destruct (S3 k t0 t1 u v H0 H1 H2 H3) as (w & _ & _ & Hw & _ & Eq).
    destruct Hw as [[Z _]|[_ Hw]]; [cbn [iinner] in Z; pose proof nonneg; lia|].
    assert (Q : Sim_Model.control_vector w = U (S k)).
    { unfold along. rewrite (nth_error_nth _ _ 0 H1). unfold row_of. fold m. rewrite Hw. reflexivity. }
    rewrite <- Q. exact Eq.
Qed.

Lemma table : table_of st n X.
Proof. destruct solved as [L _]. unfold table_of, X. rewrite table_length, L. reflexivity. Qed.
Lemma cost_right : Optim_Model.b_cost B c X + Optim_Model.b_penalty B c X = total_cost N st U.
Proof.
  destruct numbers as (Ex & _). unfold B. cbn [Optim_Model.b_cost Optim_Model.b_penalty network_backend]. rewrite mapped, Ex. fold st sinks. fold N. unfold n, m.
  rewrite (cost_answer N sinks st ct Hst Hlen Hct covers c X Tc table), (penalty_answer N sinks st ct Hst Hlen Hct covers c X Tc table). cbn [number_or_zero]. ring.
Qed.
Lemma constraints_answer variables : Forall2 (variable_at N) sinks variables -> constraints_right variables st cons states (Optim_Model.b_constr B c X).
Proof.
  intro V. destruct numbers as (Ex & _ & Eg & _ & _ & _ & _ & _ & _ & idx & Pos & [T1 T2]). pose proof (Forall2_length _ _ _ V) as LV.
  unfold B. cbn [Optim_Model.b_constr network_backend]. unfold constraint_values. rewrite mapped, Ex, Eg. fold st sinks cons. fold N.
  set (f := fun q => match evaluate_constraint_row (Whole_Model.network_problem N sinks) cons (mk_ivec ct m c) (mk_ivec st n X) q with
                     | Ok g => map g (seq 0 (length sinks)) | _ => [] end).
  assert (Row : forall q i t, nth_error cons q = Some t -> nth_error st i = Some t -> exists g, f q = map g (seq 0 (length sinks)) /\
    forall r j position, nth_error sinks r = Some j -> nth_error variables r = Some position -> g r = entry X n i position).
  { intros q i t Hq Hi. destruct (constraint_row_exists N sinks st ct cons Hst Hct covers c X Tc table q i t Hq Hi) as [g E]. fold n m in E. exists g. unfold f. rewrite E. split; [reflexivity|].
    intros r j position Hr Hv. destruct (constraint_row N sinks st ct cons Hst Hct covers c X Tc table variables q r i j t position V Hq Hi Hr Hv) as (g' & E' & G).
    pose proof (eq_trans (eq_sym E) E') as Q. injection Q as <-. exact G. }
  assert (Len : forall q, (q < length cons)%nat -> length (f q) = length sinks).
  { intros q Hq. destruct (nth_error cons q) as [t|] eqn:Eq; [|apply nth_error_None in Eq; lia].
    assert (I : exists i, nth_error st i = Some t).
    { destruct (nth_error idx q) as [i|] eqn:Ei; [|apply nth_error_None in Ei; rewrite <- T1 in Ei; fold cons in Ei; lia].
      exists i. rewrite <- (T2 q i Ei). exact Eq. }
    destruct I as [i Hi]. destruct (Row q i t Eq Hi) as (g & -> & _). rewrite map_length, seq_length. reflexivity. }
  unfold constraints_right. rewrite <- LV. split; [apply (blocks_length f (length sinks)), Len|].
  intros q r i t position x Hq Hi Hv Hx. assert (Lr : (r < length sinks)%nat) by (rewrite LV; apply nth_error_Some; congruence).
  rewrite (blocks_nth f (length sinks)); [|apply nth_error_Some; congruence|exact Lr|exact Len].
  destruct (Row q i t Hq Hi) as (g & -> & G). destruct (nth_error sinks r) as [j|] eqn:Ej; [|apply nth_error_None in Ej; lia].
  rewrite nth_error_map, (nth_error_nth' _ 0%nat) by (rewrite seq_length; exact Lr). rewrite seq_nth by exact Lr. cbn [option_map Nat.add].
  rewrite (G r j position Ej Hv). f_equal. apply table_entry; [exact Hx|].
  clear -V Ej Hv. revert r Ej Hv. induction V as [|a b l l' K V IH]; intros [|r] Ej Hv; try discriminate; [|apply (IH r Ej Hv)].
  cbn in Hv. injection Hv as <-. apply K.
Qed.

Lemma derivatives_are : derivatives solve p o c X
  = compute_derivatives (Whole_Model.network_problem N sinks) solve (constraint_jacobian o) st ct cons (mk_ivec ct m c) (mk_ivec st n X).
Proof. destruct numbers as (Ex & _). unfold derivatives. rewrite mapped, Ex. reflexivity. Qed.

Section Derivatives.
Hypothesis Hsolve : solver_correct n solve.
Variables (G : nat -> vec) (J : nat -> R).
Hypothesis HD : derivatives solve p o c X = Ok (Some (G, J)).
Lemma variation_at W W' Y : variation N st ct c states W W' Y -> W 0 = c /\ Y 0 = X.
Proof.
  intros (F & _ & E & Q). split; [exact E|]. apply (table_unique n (length st)).
  - apply (nf_X_table _ _ _ _ _ _ F).
  - apply table.
  - intros i k Hi Hk. destruct solved as [L _]. destruct (nth_error states i) as [x|] eqn:Ex; [|apply nth_error_None in Ex; lia].
    etransitivity; [exact (Q i x k Ex Hk)|]. symmetry. apply table_entry; assumption.
Qed.
Lemma gradient_answer : gradient_right N st ct c states (Optim_Model.gradient_of B (G, J)).
Proof.
  destruct numbers as (Ex & Eu & _ & _ & _ & _ & Tk & Md & _). unfold B. cbn [Optim_Model.gradient_of network_backend fst]. fold ct. rewrite Eu.
  assert (Len : forall i, (i < length ct)%nat -> length (map (G i) (seq 0 m)) = m) by (intros; rewrite map_length, seq_length; reflexivity).
  split; [apply (blocks_length (fun j => map (G j) (seq 0 m)) m), Len|].
  intros W W' Y V. destruct (variation_at W W' Y V) as [E0 E1]. destruct V as (F & Rt & _ & _). pose proof HD as D. rewrite derivatives_are, <- E0, <- E1 in D.
  destruct (C84_objective _ _ _ _ _ _ _ _ _ _ _ _ Hst Hlen Hct Rt HS F Md Tk Hsolve D) as (V & V1 & _ & V2).
  exists V. split; [intros s k t Hk; apply (V1 s _ _ Hk)|].
  eapply is_derive_eq; [exact V2|]. apply Rsum_ext. intros j Hj. apply Rsum_ext. intros k Hk. f_equal. symmetry.
  unfold entry. apply nth_error_nth. fold m. rewrite (blocks_nth (fun j => map (G j) (seq 0 m)) m); auto. rewrite nth_error_map.
  rewrite (nth_error_nth' _ 0%nat) by (rewrite seq_length; exact Hk). rewrite seq_nth by exact Hk. reflexivity.
Qed.
Lemma jacobian_answer variables : Forall2 (variable_at N) sinks variables ->
  jacobian_right N variables st ct cons c states (supply_indices (constraint_jacobian o)) (Optim_Model.jacobian_of B (G, J)).
Proof.
  intro Va. pose proof (Forall2_length _ _ _ Va) as LV. destruct numbers as (Ex & Eu & _ & _ & _ & _ & Tk & Md & (Nc & _) & _).
  unfold B. cbn [Optim_Model.jacobian_of network_backend snd].
  destruct sorted_times as [S1 S2]. split.
  - destruct (jacobian_pattern (length sinks) m cons ct S1 S2 Nc) as (l' & E & L & _). rewrite Md in E. injection E as <-. rewrite map_length, seq_length, L. reflexivity.
  - intros W W' Y V q r i t position Hq Hi Hr. destruct (variation_at W W' Y V) as [E0 E1]. destruct V as (F & Rt & _ & _). pose proof HD as D. rewrite derivatives_are, <- E0, <- E1 in D.
    assert (Lr : (r < length sinks)%nat) by (rewrite LV; apply nth_error_Some; congruence).
    destruct (nth_error sinks r) as [j|] eqn:Ej; [|apply nth_error_None in Ej; lia].
    destruct (C84_constraint _ _ _ _ _ _ _ _ _ _ _ _ Hst Hlen Hct Rt HS F Md Tk Hsolve D q r i j t Hq Hi Ej) as (ie & e & d & _ & _ & _ & V1 & V2).
    assert (Eq : forall s, entry (Y s) n i (end_position N ie d) = entry (Y s) n i position).
    { intro s. destruct (V1 s) as (g & Eg & Vg).
      destruct (constraint_row N sinks st ct cons Hst Hct covers (W s) (Y s) (nf_W_table _ _ _ _ _ _ F s) (nf_X_table _ _ _ _ _ _ F s) variables q r i j t position Va Hq Hi Ej Hr) as (g' & Eg' & Vg').
      pose proof (eq_trans (eq_sym Eg) Eg') as Q. injection Q as <-. unfold n. congruence. }
    apply (is_derive_ext _ _ _ _ Eq). eapply is_derive_eq; [exact V2|]. apply Rsum_ext. intros k Hk. apply Rsum_ext. intros k' Hk'. f_equal.
    rewrite <- LV. symmetry. apply (matrix_at_whole (length sinks) m cons ct); assumption.
Qed.
End Derivatives.
End Solved.
End Point.

Definition solution (c : list R) : option (list vec * (nat -> vec)) :=
  match simulation factor linsolve fuel sfuel p o c with Some (Ok states) => Some (states, along N st ct c) | _ => None end.
Lemma solution_trajectory c states U : table_of ct m c -> solution c = Some (states, U) ->
  trajectory N (Newton_Model.tolerance (Evolve_Model.newton cfg)) st ct (initial_state o) c states U.
Proof.
  intros Tc H. unfold solution in H. destruct (simulation factor linsolve fuel sfuel p o c) as [[rows| |]|] eqn:E; try discriminate. injection H as <- <-.
  apply (solved c Tc rows E).
Qed.
Lemma simulated_solution c e X : table_of ct m c -> Optim_Spec.simulation_of B c X \/ Optim_Model.simulate B e c = (tt, Some X) ->
  exists states, simulation factor linsolve fuel sfuel p o c = Some (Ok states) /\ solution c = Some (states, along N st ct c) /\ X = states_table n states.
Proof.
  intros Tc H. assert (E : Answer_Model.simulated factor linsolve fuel sfuel p o c = Some X).
  { destruct H as [(e1 & e2 & H)|H]; apply (f_equal snd) in H; exact H. }
  unfold Answer_Model.simulated in E. unfold solution. destruct (simulation factor linsolve fuel sfuel p o c) as [[rows| |]|]; try discriminate.
  exists rows. split; [reflexivity|]. split; [reflexivity|]. destruct numbers as (Ex & _). rewrite Ex in E. congruence.
Qed.
Lemma failed_solution c e e' : Optim_Model.simulate B e c = (e', None) -> solution c = None.
Proof.
  intro H. apply (f_equal snd) in H. change (Answer_Model.simulated factor linsolve fuel sfuel p o c = None) in H. revert H.
  unfold Answer_Model.simulated, solution. destruct (simulation factor linsolve fuel sfuel p o c) as [[rows| |]|]; congruence.
Qed.
(** Why a solution is missing. *)
Lemma missing c : table_of ct m c -> fuel = 1075%nat ->
  (Evolve_Spec.attempt_bound (Evolve_Model.use_simplified_newton cfg) (Evolve_Model.retries cfg) <= Z.of_nat sfuel)%Z ->
  solution c = None -> simulation factor linsolve fuel sfuel p o c = Some Exc.
Proof.
  intros Tc Ef Es H. unfold solution in H. destruct (simulation factor linsolve fuel sfuel p o c) as [[rows| |]|] eqn:E; try discriminate; [reflexivity|exfalso..].
  - revert E. unfold simulation.
    match goal with |- fst (Evolve_Model.simulate ?P ?a ?b ?cc ?d ?e ?f ?g) = _ -> False => apply (simulate_not_ub P a b cc d e f g) end; [discriminate|exact Hlen|]. intros t It Q. rewrite (mapped c) in Q. unfold Evolve_Model.current_controls in Q.
    cbn [iinner] in Q. rewrite (proj2 (Nat.ltb_lt 0 m) nonneg) in Q. destruct (covers t It) as [[u la] K].
    destruct (control_at_time ct m c t u la Hct Tc K) as [Z _]. congruence.
  - revert E. unfold simulation. rewrite Ef.
    match goal with |- fst (Evolve_Model.simulate ?P ?a ?b ?cc ?d ?e ?f ?g) = _ -> False => apply (Evolve_Proofs.simulate_terminates P b cc d e f g) end; [|exact Es].
    intros e t0 t1 x w lu z. left. cbn. apply functional_extensionality. intro k. ring.
Qed.

Section History.
Variables (st0 : list R) (d0 : (nat -> vec) * (nat -> R)) (h : list (Optim_Model.callback B)).
Hypothesis Hh : Optim_Spec.announced B None h.
Let replies := map snd (Optim_Model.run (Optim_Model.fresh (B:=B) st0 d0 tt) h).
Variable variables : list nat.
Hypothesis HV : Forall2 (variable_at N) sinks variables.

Lemma answered i cb c new r : nth_error h i = Some cb -> Optim_Spec.asks B cb = Some (c, new) -> table_of ct m c -> nth_error replies i = Some (Some r) ->
  exists states U, solution c = Some (states, U) /\
    match cb with
    | Optim_Model.EvalF _ _ => r = Optim_Model.Number (total_cost N st U)
    | Optim_Model.EvalG _ _ => exists g, r = Optim_Model.Vector g /\ constraints_right variables st cons states g
    | Optim_Model.EvalGradF _ _ => exists g, r = Optim_Model.Vector g /\ (solver_correct n solve -> gradient_right N st ct c states g)
    | Optim_Model.EvalJacG _ _ => exists g, r = Optim_Model.Vector g /\
        (solver_correct n solve -> jacobian_right N variables st ct cons c states (supply_indices (constraint_jacobian o)) g)
    | Optim_Model.JacStructure _ => False
    end.
Proof.
  intros Hcb Ha Tc Hr. destruct (Optim_Props.C12_callbacks_fresh B st0 d0 tt h Hh) as (_ & X & A & _). specialize (A i cb r Hcb Hr). set (x := X i) in A. clearbody x. clear X Hr.
  destruct cb as [c1 w|c1 w|c1 w|c1 w|w]; cbn [Optim_Spec.asks] in Ha; [| | | |discriminate]; injection Ha as -> ->; unfold Optim_Spec.right_answer in A; destruct r as [y|y|]; try contradiction.
  - destruct A as [S V]. destruct (simulated_solution c tt x Tc (or_introl S)) as (states & E & E1 & E2). exists states, (along N st ct c). split; [exact E1|].
    subst y x. f_equal. apply (cost_right c Tc states E).
  - destruct A as (S & d & (e1 & e2 & D) & V). destruct (simulated_solution c tt x Tc (or_introl S)) as (states & E & E1 & E2). exists states, (along N st ct c). split; [exact E1|].
    exists y. split; [reflexivity|]. intro Sc. subst y x. unfold B in D. cbn in D. destruct (derivatives solve p o c (states_table n states)) as [[[G J]|]| |] eqn:ED; try discriminate.
    injection D as _ <-. apply (gradient_answer c Tc states E Sc G J ED).
  - destruct A as [S V]. destruct (simulated_solution c tt x Tc (or_introl S)) as (states & E & E1 & E2). exists states, (along N st ct c). split; [exact E1|].
    exists y. split; [reflexivity|]. subst y x. apply (constraints_answer c Tc states E variables HV).
  - destruct A as (S & d & (e1 & e2 & D) & V). destruct (simulated_solution c tt x Tc (or_introl S)) as (states & E & E1 & E2). exists states, (along N st ct c). split; [exact E1|].
    exists y. split; [reflexivity|]. intro Sc. subst y x. unfold B in D. cbn in D. destruct (derivatives solve p o c (states_table n states)) as [[[G J]|]| |] eqn:ED; try discriminate.
    injection D as _ <-. apply (jacobian_answer c Tc states E Sc G J ED variables HV).
Qed.

Lemma refused i cb c new : nth_error h i = Some cb -> Optim_Spec.asks B cb = Some (c, new) -> table_of ct m c -> nth_error replies i = Some None ->
  solution c = None \/
  ((exists k, cb = Optim_Model.EvalGradF k new \/ cb = Optim_Model.EvalJacG k new) /\
   (sinks <> [] /\ nth_error cons 0 <> nth_error st 1 \/
    exists states, solution c = Some (states, along N st ct c) /\
      ~ solver_accepts (Whole_Model.network_problem N sinks) solve st (mk_ivec ct m c) (mk_ivec st n (states_table n states)))).
Proof.
  intros Hcb Ha Tc Hr. destruct (Optim_Props.C12_callbacks_fresh B st0 d0 tt h Hh) as (_ & X & _ & A & _). specialize (A i cb Hcb Hr). clear X Hr.
  assert (K : (exists e e', Optim_Model.simulate B e c = (e', None)) \/
     (exists x e e' d, Optim_Spec.simulation_of B c x /\ Optim_Model.derive B e c x = (e', (false, d))) /\ (exists k, cb = Optim_Model.EvalGradF k new \/ cb = Optim_Model.EvalJacG k new)).
  { destruct cb as [c1 w|c1 w|c1 w|c1 w|w]; cbn [Optim_Spec.asks] in Ha; [| | | |discriminate]; injection Ha as -> ->; unfold Optim_Spec.may_fail in A; eauto.
    - destruct A as [A|A]; eauto.
    - destruct A as [A|A]; eauto. }
  destruct K as [(e & e' & K)|[(x & e & e' & d & S & D) Q]]; [left; apply (failed_solution c e e' K)|]. right. split; [exact Q|].
  destruct (simulated_solution c tt x Tc (or_introl S)) as (states & E & E1 & ->). unfold B in D. cbn in D.
  destruct numbers as (Ex & _ & _ & _ & _ & _ & Tk & Md & (N1 & N2 & Cv) & _).
  assert (Dec : (sinks <> [] /\ nth_error cons 0 <> nth_error st 1) \/ (length sinks = 0%nat \/ nth_error cons 0 = nth_error st 1)).
  { destruct sinks as [|j l]; [right; left; reflexivity|].
    destruct (nth_error cons 0) as [a|], (nth_error st 1) as [b|]; try (left; split; discriminate); [|right; right; reflexivity].
    destruct (Req_dec a b) as [->|D']; [right; right; reflexivity|left; split; [discriminate|congruence]]. }
  destruct Dec as [Dec|Dec]; [left; exact Dec|right]. exists states. split; [exact E1|].
  assert (L : last st 0 < last ct 0 + tolerance).
  { apply Cv. apply (nth_error_In _ (length st - 1)). apply nth_error_last. exact N2. }
  destruct (derivatives_computed (Whole_Model.network_problem N sinks) solve (constraint_jacobian o) st ct cons c (states_table n states) Hst Hlen Hct Md Tk L Tc
    (table c Tc states E) Dec) as (r & Er & Hr).
  intro Acc. specialize (Hr Acc). pose proof (eq_trans (derivatives_are c states) Er) as Q2. rewrite Q2 in D.
  destruct r as [[G J]|]; [discriminate|congruence].
Qed.
End History.
End Callbacks.

(** ** The index lists *)
Lemma structure_of uninit read directory p o : prepare_optimization uninit read directory = Ok (p, o) ->
  let m := number_of_controls (network_of (pp_nodes p) (pp_edges p)) in let k := length (constraint_nodes (pp_nodes p)) in
  let places := supply_indices (constraint_jacobian o) in
  NoDup places /\ (forall row col, In (row, col) places <-> structural_entry k m (constraint_timepoints o) (control_timepoints o) row col) /\
  ((Z.of_nat (length (control_timepoints o) * m) <= 2147483647)%Z -> (Z.of_nat (length (constraint_timepoints o) * k) <= 2147483647)%Z ->
   jacobian_structure o (length places) = Ok (map (fun '(row, col) => (Z.of_nat row, Z.of_nat col)) places)).
Proof.
  intro H. cbv zeta. destruct (sorted_times _ _ _ _ _ H) as [S1 S2].
  destruct (numbers _ _ _ _ _ H) as (_ & _ & _ & _ & _ & _ & _ & Md & (Nc & _) & _).
  destruct (jacobian_pattern (length (constraint_nodes (pp_nodes p))) (number_of_controls (network_of (pp_nodes p) (pp_edges p))) _ _ S1 S2 Nc) as (l & E & L & ND & I & _). rewrite Md in E. injection E as <-.
  split; [exact ND|]. split; [exact I|]. intros K1 K2. unfold jacobian_structure. rewrite L, Nat.eqb_refl. cbn [negb]. f_equal.
  apply map_ext_in. intros [r c] Hi. apply I in Hi. apply structural_range in Hi. f_equal; apply to_int_small; unfold index_max; lia.
Qed.
