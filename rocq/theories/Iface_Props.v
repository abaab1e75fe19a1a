(** * Property C85: the problem as it is described to Ipopt *)
From Coq Require Import List Arith Reals ZArith Lra Lia.
From Verif Require Import Base Interp_Model Interp_Spec Ctimes_Spec Jac_Model Jac_Spec Interp_Proofs Interp_Proofs2 Ctimes_Proofs
  Iface_Model Iface_Spec Iface_Proofs Iface_Proofs2 Iface_Proofs3.
Import ListNotations.
Open Scope R_scope.

(** An optimizer can be constructed exactly from data that belong together. *)
Theorem C85_accepts : forall nx nu ng st ct cons x0 iv,
  (exists o, optimizer_ctor nx nu ng st ct cons x0 iv = Ok o) <-> fits nx nu ng st ct cons x0 iv.
Proof.
  intros. destruct (ctor_result nx nu ng st ct cons x0 iv) as [(_ & _ & pairs & l & _ & _ & [[F E]|[N E]])|[N E]]; rewrite E.
  - split; eauto.
  - split; [intros [o H]; discriminate|tauto].
  - split; [intros [o H]; discriminate|]. intros (_ & _ & _ & _ & F1 & _ & F2 & _). tauto.
Qed.
Print Assumptions C85_accepts.

Definition case_init (p q : list R) : init_values :=
  mk_init (mk_ivec p 1 (repeat 5 (length p))) (mk_ivec p 1 (repeat 1 (length p))) (mk_ivec p 1 (repeat 9 (length p)))
          (mk_ivec q 1 (repeat 40 (length q))) (mk_ivec q 1 (repeat 60 (length q))).
Lemma case_fits : fits 1 1 1 [0; 1; 2] [0; 2] [2] [7] (case_init [0; 2] [2]).
Proof.
  assert (I1 : increasing [0; 1; 2]) by (repeat constructor; lra).
  assert (I2 : increasing [0; 2]) by (repeat constructor; lra).
  split; [reflexivity|]. split; [exists [0; 2]; intros v [<-|[<-|[<-|[]]]]; split; reflexivity|].
  split; [exists [2]; intros v [<-|[<-|[]]]; split; reflexivity|].
  split; [apply is_sorted_nondecreasing, is_sorted_increasing, I1|].
  split; [apply is_sorted_nondecreasing, is_sorted_increasing, I2|].
  split; [apply is_sorted_nondecreasing; reflexivity|].
  split.
  - split; [discriminate|]. split; [discriminate|]. cbn [nth last]. change tolerance with EPSILON. pose proof EPSILON_pos.
    intros t [<-|[<-|[<-|[]]]]; lra.
  - exists [2%nat]. split; [split|split; [reflexivity|]].
    + intros [|k] i H; [injection H as <-; cbn; lia|destruct k; discriminate].
    + intros [|k] i i' H H'; [discriminate|destruct k; discriminate].
    + intros [|k] i H; [injection H as <-; reflexivity|destruct k; discriminate].
Qed.
Example C85_accepts_case : exists o, optimizer_ctor 1 1 1 [0; 1; 2] [0; 2] [2] [7] (case_init [0; 2] [2]) = Ok o.
Proof. apply C85_accepts, case_fits. Qed.

(** Other data are rejected with an exception, if the state times lie in the span of the (sorted)
    control times. *)
Theorem C85_rejects_partial : forall nx nu ng st ct cons x0 iv,
  nondecreasing ct -> controlled ct st -> ~ fits nx nu ng st ct cons x0 iv ->
  optimizer_ctor nx nu ng st ct cons x0 iv = Exc.
Proof.
  intros nx nu ng st ct cons x0 iv H1 H2 N.
  destruct (ctor_result nx nu ng st ct cons x0 iv) as [(_ & _ & pairs & l & _ & _ & [[F E]|[_ E]])|[N' E]]; tauto.
Qed.
Print Assumptions C85_rejects_partial.

(** If not, there is no exception but undefined behaviour (a violated assertion): the members are
    initialized with compute_index_lambda before the checks for these cases are reached. *)
Theorem C85_span_checked_too_late : forall nx nu ng st ct cons x0 iv,
  ~ (nondecreasing ct /\ controlled ct st) -> optimizer_ctor nx nu ng st ct cons x0 iv = UB.
Proof.
  intros nx nu ng st ct cons x0 iv N.
  destruct (ctor_result nx nu ng st ct cons x0 iv) as [(H1 & H2 & _)|[_ E]]; tauto.
Qed.
Print Assumptions C85_span_checked_too_late.

(** So it is false that data that do not fit are rejected: control times ending before the last
    state time. *)
Theorem C85_rejects_refuted : exists nx nu ng st ct cons x0 iv,
  increasing st /\ increasing ct /\ ct <> [] /\ last ct 0 + 1 <= last st 0 /\ constraint_times_of st cons /\
  ~ fits nx nu ng st ct cons x0 iv /\ optimizer_ctor nx nu ng st ct cons x0 iv = UB.
Proof.
  exists 1%nat, 1%nat, 1%nat, [0; 1; 3], [0; 2], [1], [7], (case_init [0; 2] [1]).
  assert (N : ~ controlled [0; 2] [0; 1; 3]).
  { intros (_ & _ & H). specialize (H 3 ltac:(cbn; tauto)). cbn [nth last] in H. change tolerance with EPSILON in H.
    unfold EPSILON in H. lra. }
  split; [repeat constructor; lra|]. split; [repeat constructor; lra|]. split; [discriminate|]. split; [cbn; lra|]. split.
  { exists [1%nat]. split; [split|split; [reflexivity|]].
    - intros [|k] i H; [injection H as <-; cbn; lia|destruct k; discriminate].
    - intros [|k] i i' H H'; [discriminate|destruct k; discriminate].
    - intros [|k] i H; [injection H as <-; reflexivity|destruct k; discriminate]. }
  split; [intros (_ & _ & _ & _ & _ & _ & H & _); auto|]. apply C85_span_checked_too_late. tauto.
Qed.
Print Assumptions C85_rejects_refuted.

(** The sizes told to Ipopt are the numbers of controls, of constraints and of the entries the
    Jacobian may have; every index of the structure arrives unchanged as an int.  If one of the sizes
    does not fit into an int, get_nlp_info returns false. *)
Theorem C85_sizes : forall nx nu ng st ct cons x0 iv o, optimizer_ctor nx nu ng st ct cons x0 iv = Ok o ->
  exists L, NoDup L /\ (forall row col, In (row, col) L <-> structural_entry ng nu cons ct row col) /\
    (forall row col, In (row, col) L -> (row < length cons * ng)%nat /\ (col < length ct * nu)%nat) /\
    ((Z.of_nat (length ct * nu) <= 2147483647 /\ Z.of_nat (length cons * ng) <= 2147483647 /\ Z.of_nat (length L) <= 2147483647)%Z ->
      get_nlp_info o = Some ((length ct * nu)%nat, (length cons * ng)%nat, length L) /\
      jacobian_structure o (length L) = Ok (map (fun '(row, col) => (Z.of_nat row, Z.of_nat col)) L)) /\
    (~ (Z.of_nat (length ct * nu) <= 2147483647 /\ Z.of_nat (length cons * ng) <= 2147483647 /\ Z.of_nat (length L) <= 2147483647)%Z ->
      get_nlp_info o = None).
Proof. exact sizes. Qed.
Print Assumptions C85_sizes.

(** Ipopt receives the bounds and the starting point as they were given, if they were given at the
    control times and the constraint times (as the program does). *)
Theorem C85_bounds : forall uninit nx nu ng st ct cons x0 iv o, optimizer_ctor nx nu ng st ct cons x0 iv = Ok o ->
  increasing ct -> increasing cons -> cons <> [] ->
  ipoints (initial_controls iv) = ct -> ipoints (constraint_lower_bounds iv) = cons ->
  (forall v, In v [initial_controls iv; lower_bounds iv; upper_bounds iv; constraint_lower_bounds iv; constraint_upper_bounds iv] ->
     table_of (ipoints v) (iinner v) (ivalues v)) ->
  get_bounds_info uninit o (length ct * nu) (length cons * ng)
    = Ok (ivalues (lower_bounds iv), ivalues (upper_bounds iv), ivalues (constraint_lower_bounds iv), ivalues (constraint_upper_bounds iv)) /\
  get_starting_point uninit o (length ct * nu) = Ok (ivalues (initial_controls iv)).
Proof. exact bounds_same. Qed.
Print Assumptions C85_bounds.

(** Given on other grids that cover these times, they are interpolated. *)
Theorem C85_bounds_sampled : forall uninit nx nu ng st ct cons x0 iv o, optimizer_ctor nx nu ng st ct cons x0 iv = Ok o ->
  forall getter v pts inner,
  In (getter, v, pts, inner)
    [(get_initial_controls uninit o, initial_controls iv, ct, nu); (get_lower_bounds uninit o, lower_bounds iv, ct, nu);
     (get_upper_bounds uninit o, upper_bounds iv, ct, nu);
     (get_constraint_lower_bounds uninit o, constraint_lower_bounds iv, cons, ng);
     (get_constraint_upper_bounds uninit o, constraint_upper_bounds iv, cons, ng)] ->
  increasing pts -> increasing (ipoints v) -> inside_span (ipoints v) pts -> table_of (ipoints v) (iinner v) (ivalues v) ->
  exists r, getter = Ok r /\ table_of pts inner r /\
    forall j k t, nth_error pts j = Some t -> (k < inner)%nat ->
      piecewise_linear tolerance (ipoints v) (fun i => entry (ivalues v) inner i k) t (entry r inner j k).
Proof.
  intros uninit nx nu ng st ct cons x0 iv o H getter v pts inner I Ip Iv S T.
  destruct (constructed _ _ _ _ _ _ _ _ _ H) as (F & pairs & l & _ & ->).
  destruct F as (_ & [p G] & [q G'] & _). cbn [In] in I.
  destruct I as [I|[I|[I|[I|[I|[]]]]]]; injection I as <- <- <- <-; apply getter_sampled; auto;
    try (apply G; cbn; tauto); apply G'; cbn; tauto.
Qed.
Print Assumptions C85_bounds_sampled.

(** The constructor does not check that: with bounds that end before the control times it succeeds,
    and asking for the bounds is undefined behaviour.  The same without any constraint time. *)
Theorem C85_bounds_refuted : exists nx nu ng st ct cons x0 iv o,
  optimizer_ctor nx nu ng st ct cons x0 iv = Ok o /\ increasing ct /\ cons <> [] /\
  (forall uninit, get_bounds_info uninit o (length ct * nu) (length cons * ng) = UB).
Proof.
  destruct (proj2 (C85_accepts 1 1 1 [0; 1; 2] [0; 2] [2] [7] (case_init [0; 1] [2]))) as [o Ho].
  { destruct case_fits as (F1 & _ & F3 & F4). split; [exact F1|]. split; [|split; [exact F3|exact F4]].
    exists [0; 1]. intros v [<-|[<-|[<-|[]]]]; split; reflexivity. }
  exists 1%nat, 1%nat, 1%nat, [0; 1; 2], [0; 2], [2], [7], (case_init [0; 1] [2]), o. split; [exact Ho|].
  split; [repeat constructor; lra|]. split; [discriminate|]. intro uninit.
  destruct (constructed _ _ _ _ _ _ _ _ _ Ho) as (_ & pairs & l & _ & ->).
  unfold get_bounds_info. change (get_total_no_constraints _) with 1%nat. change (length [2] * 1)%nat with 1%nat. cbn [Nat.eqb negb].
  unfold get_lower_bounds, construct_and_interpolate_from.
  cbn [control_timepoints o_nu init case_init lower_bounds].
  rewrite is_sorted_increasing by (repeat constructor; lra). cbn [negb].
  unfold interpolate_from. cbn [iinner ipoints Nat.eqb negb get nth_error obind].
  rewrite (proj2 (Rltb_false 0 0)) by lra. cbn [last]. rewrite (proj2 (Rltb_true 1 2)) by lra. reflexivity.
Qed.
Print Assumptions C85_bounds_refuted.

Theorem C85_no_constraint_times : forall uninit nx nu ng st ct x0 iv o n m,
  optimizer_ctor nx nu ng st ct [] x0 iv = Ok o -> forall r, get_bounds_info uninit o n m <> Ok r.
Proof.
  intros uninit nx nu ng st ct x0 iv o n m H r E. destruct (constructed _ _ _ _ _ _ _ _ _ H) as (_ & pairs & l & _ & ->).
  unfold get_bounds_info in E. destruct (negb _); [discriminate|].
  apply obind_Ok in E. destruct E as (? & _ & E). apply obind_Ok in E. destruct E as (? & _ & E).
  apply obind_Ok in E. destruct E as (? & _ & E). apply obind_Ok in E. destruct E as (? & _ & E).
  apply obind_Ok in E. destruct E as (? & E & _).
  unfold get_constraint_lower_bounds in E. cbn [constraint_timepoints] in E. rewrite empty_getter in E. discriminate.
Qed.
Print Assumptions C85_no_constraint_times.

Example C85_case : exists o, optimizer_ctor 1 1 1 [0; 1; 2] [0; 2] [2] [7] (case_init [0; 2] [2]) = Ok o /\
  get_nlp_info o = Some (2%nat, 1%nat, 2%nat) /\
  forall uninit, get_bounds_info uninit o 2 1 = Ok ([1; 1], [9; 9], [40], [60]) /\ get_starting_point uninit o 2 = Ok [5; 5].
Proof.
  destruct C85_accepts_case as [o Ho]. exists o. split; [exact Ho|]. split.
  - destruct (constructed _ _ _ _ _ _ _ _ _ Ho) as (_ & pairs & l & Hl & ->).
    unfold make_data in Hl. cbn [length Nat.add make_data_loop Nat.eqb get nth_error] in Hl.
    rewrite (proj2 (Rltb_true 0 2)) in Hl by lra. cbn in Hl. injection Hl as <-. reflexivity.
  - intro uninit. apply (C85_bounds uninit 1 1 1 [0; 1; 2] [0; 2] [2] [7] (case_init [0; 2] [2]) o Ho); try reflexivity.
    + repeat constructor; lra.
    + repeat constructor.
    + discriminate.
    + intros v [<-|[<-|[<-|[<-|[<-|[]]]]]]; reflexivity.
Qed.

(** An initial state of the wrong size is rejected. *)
Example C85_rejects_case : optimizer_ctor 1 1 1 [0; 1; 2] [0; 2] [2] [] (case_init [0; 2] [2]) = Exc.
Proof.
  destruct case_fits as (_ & _ & _ & _ & F5 & _ & F7 & _). apply C85_rejects_partial; auto.
  intros (H & _). discriminate H.
Qed.

(** Bounds given on a coarser grid. *)
Example C85_sampled_case : exists o, optimizer_ctor 1 1 1 [0; 1; 2] [0; 2] [2] [7] (case_init [-1; 5] [2]) = Ok o /\
  forall uninit, exists r, get_lower_bounds uninit o = Ok r /\ length r = 2%nat.
Proof.
  destruct (proj2 (C85_accepts 1 1 1 [0; 1; 2] [0; 2] [2] [7] (case_init [-1; 5] [2]))) as [o Ho].
  { destruct case_fits as (F1 & _ & F3 & F4). split; [exact F1|]. split; [|split; [exact F3|exact F4]].
    exists [-1; 5]. intros v [<-|[<-|[<-|[]]]]; split; reflexivity. }
  exists o. split; [exact Ho|]. intro uninit.
  destruct (C85_bounds_sampled uninit _ _ _ _ _ _ _ _ _ Ho (get_lower_bounds uninit o)
    (lower_bounds (case_init [-1; 5] [2])) [0; 2] 1%nat) as (r & E & T & _).
  - cbn [In]. tauto.
  - repeat constructor; lra.
  - cbn. repeat constructor; lra.
  - exists (-1), 5, 0, 2. cbn. repeat split; lra.
  - reflexivity.
  - exists r. split; auto.
Qed.

(** Without constraint times the constructor succeeds. *)
Example C85_no_constraint_times_case : exists o, optimizer_ctor 1 1 1 [0; 1; 2] [0; 2] [] [7] (case_init [0; 2] []) = Ok o.
Proof.
  apply C85_accepts. destruct case_fits as (F1 & F2 & _ & F4 & F5 & _ & F7 & _).
  split; [exact F1|]. split; [exact F2|]. split; [exists []; intros v [<-|[<-|[]]]; split; reflexivity|].
  split; [exact F4|]. split; [exact F5|]. split; [apply is_sorted_nondecreasing; reflexivity|]. split; [exact F7|].
  exists []. split; [split|split; [reflexivity|]].
  - intros [|k] i H; discriminate.
  - intros [|k] i i' H H'; discriminate.
  - intros [|k] i H; discriminate.
Qed.
