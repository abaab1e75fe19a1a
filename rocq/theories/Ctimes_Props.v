(** * Properties C15, C16: choice of the constraint times *)
From Coq Require Import List Arith Reals Lra Lia ZArith.
From Verif Require Import Base Interp_Model Interp_Spec Ctimes_Model Ctimes_Spec Ctimes_Proofs.
Import ListNotations.
Open Scope R_scope.

(** C15 *)
Theorem C15_constraint_times : forall state z control, increasing state -> (2 <= length state)%nat ->
  increasing control -> control <> [] ->
  nth 0 control 0 <= nth 0 state 0 -> last state 0 <= last control 0 + tolerance ->
  exists cons idx, select_constraint_times state z = Ok cons /\
    positions_after_start (length state) idx /\ times_at state idx cons /\ increasing cons /\
    cons <> [] /\
    gaps_at_most (2 * effective_n z - 1) idx /\
    (forall i, nth_error idx 0 = Some i -> (i <= effective_n z)%nat) /\
    ctor_time_checks state control cons = Ok tt.
Proof. exact selection_full. Qed.
Print Assumptions C15_constraint_times.

Theorem C15_nonpositive_setting : forall state z, (z <= 0)%Z ->
  select_constraint_times state z = select_constraint_times state 1 /\ effective_n z = 1%nat.
Proof. exact nonpositive_setting. Qed.
Print Assumptions C15_nonpositive_setting.

(** With a single state time there is no constraint time, but a spacing above one throws. *)
Theorem C15_one_state : forall t z,
  ((z <= 1)%Z -> select_constraint_times [t] z = Ok []) /\ ((1 < z)%Z -> select_constraint_times [t] z = Exc).
Proof.
  intros t z. split; intro H.
  - assert (E : effective_n z = 1%nat).
    { unfold effective_n. destruct (Z.leb_spec z 0); [reflexivity|]. replace z with 1%Z by lia. reflexivity. }
    unfold select_constraint_times. rewrite E. reflexivity.
  - assert (E : exists k, effective_n z = S (S k)).
    { unfold effective_n. destruct (Z.leb_spec z 0); [lia|]. exists (Z.to_nat z - 2)%nat. lia. }
    destruct E as [k E]. unfold select_constraint_times. rewrite E. cbn [length Nat.sub].
    unfold number_of_constrainttimes. rewrite Nat.mod_0_l by lia. cbn [Nat.eqb].
    rewrite Nat.div_0_l by lia. cbn [seq omapM obind]. rewrite (Nat.mod_small 1) by lia. reflexivity.
Qed.
Print Assumptions C15_one_state.

Example C15_example : increasing [0; 1; 2; 3] /\ (2 <= length [0; 1; 2; 3])%nat /\
  increasing [0; 3] /\ [0; 3] <> [] /\ nth 0 [0; 3] 0 <= nth 0 [0; 1; 2; 3] 0 /\
  last [0; 1; 2; 3] 0 <= last [0; 3] 0 + tolerance /\
  select_constraint_times [0; 1; 2; 3] 3 = Ok [3].
Proof.
  repeat split; try (repeat constructor; lra); try discriminate; simpl; try lra; try lia.
  unfold tolerance. assert (0 < / 10 ^ 10) by (apply Rinv_0_lt_compat; lra). lra.
Qed.

(** C16.  Full statement: [forall state z cons, increasing state -> 2 <= length state -> 0 < z ->
    select_constraint_times state z = Ok cons -> In (last state 0) cons].  It is false. *)
Theorem C16_final_time_constrained_refuted : exists state z cons,
  increasing state /\ (2 <= length state)%nat /\ (0 < z)%Z /\
  select_constraint_times state z = Ok cons /\ ~ In (last state 0) cons.
Proof. exact final_time_missed. Qed.
Print Assumptions C16_final_time_constrained_refuted.

(** Exactly when the final time is constrained: the spacing does not divide the number of
    state times, or it is one or two. *)
Theorem C16_final_time_constrained_partial : forall state z cons,
  increasing state -> (2 <= length state)%nat ->
  select_constraint_times state z = Ok cons ->
  (In (last state 0) cons <->
   ~ (exists k, length state = (k * effective_n z)%nat) \/ (effective_n z <= 2)%nat).
Proof. exact final_time_iff. Qed.
Print Assumptions C16_final_time_constrained_partial.

Example C16_example : increasing [0; 1; 2; 3] /\ select_constraint_times [0; 1; 2; 3] 2 = Ok [1; 3].
Proof. split; [repeat constructor; lra|reflexivity]. Qed.
