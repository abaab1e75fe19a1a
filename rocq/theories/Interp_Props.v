(** * Properties C01-C06, C51: interpolation, time grids, quadrature *)
From Coq Require Import List Arith Reals Lra Lia Sorted.
From Verif Require Import Base Interp_Model Interp_Spec Interp_Proofs Interp_Proofs2.
Import ListNotations.
Open Scope R_scope.

(** C01 *)
Theorem C01_interpolation : forall v t,
  increasing (ipoints v) -> ipoints v <> [] -> table_of (ipoints v) (iinner v) (ivalues v) ->
  (covered tolerance (ipoints v) t ->
     exists row, interp_at v t = Ok row /\ length row = iinner v /\
       forall k, (k < iinner v)%nat ->
         piecewise_linear tolerance (ipoints v)
           (fun i => entry (ivalues v) (iinner v) i k) t (nth k row 0) /\
         forall lo hi, (forall i, (i < length (ipoints v))%nat ->
                          lo <= entry (ivalues v) (iinner v) i k <= hi) ->
                       lo <= nth k row 0 <= hi) /\
  (~ covered tolerance (ipoints v) t -> interp_at v t = Exc).
Proof. exact interpolation_full. Qed.
Print Assumptions C01_interpolation.

(** The specification [piecewise_linear] determines the value (so C01 pins the result down). *)
Theorem C01_unique_value : forall tol pts f t y1 y2, 0 <= tol -> increasing pts ->
  piecewise_linear tol pts f t y1 -> piecewise_linear tol pts f t y2 -> y1 = y2.
Proof. exact piecewise_linear_unique. Qed.
Print Assumptions C01_unique_value.

Example C01_example :
  let v := mk_ivec [0; 1; 3] 2 [10; 0; 20; 0; 40; 8] in
  increasing (ipoints v) /\ ipoints v <> [] /\ table_of (ipoints v) (iinner v) (ivalues v) /\
  covered tolerance (ipoints v) 2 /\
  piecewise_linear tolerance (ipoints v) (fun i => entry (ivalues v) (iinner v) i 1) 2 4.
Proof.
  cbv zeta. cbn [ipoints iinner ivalues].
  split; [repeat constructor; lra|]. split; [discriminate|]. split; [reflexivity|].
  pose proof EPSILON_pos. unfold tolerance, EPSILON in *.
  split; [exists 0, 3; repeat split; try reflexivity; lra|].
  right; left. exists 1%nat, 1, 3. repeat split; try lra. unfold entry; simpl. field.
Qed.

(** C02.  Full statement: [forall pts m g, ~ Sorted Rle pts -> ctor_from_vector pts m g = Exc].
    It is false: the check looks at the moved-from parameter. *)
Theorem C02_unsorted_rejected_refuted :
  exists pts m g, ~ Sorted Rle pts /\ ctor_from_vector pts m g = Ok (mk_ivec pts m g).
Proof. exact unsorted_accepted. Qed.
Print Assumptions C02_unsorted_rejected_refuted.

(** What holds: the constructor takes the points as they are (it never rejects any list,
    in particular no sorted one). *)
Theorem C02_points_taken_partial : forall pts m g,
  ctor_from_vector pts m g = Ok (mk_ivec pts m g).
Proof. exact ctor_accepts_everything. Qed.
Print Assumptions C02_points_taken_partial.

(** C03 *)
Theorem C03_time_grid : forall first desired lst, first < lst -> 0 < desired ->
  exists d n, make_from_start_delta_end first desired lst = Ok d /\ (0 < n)%nat /\
    equidistant_grid first lst n (equidistant_points d) /\
    increasing (equidistant_points d) /\
    nth_error (equidistant_points d) 0 = Some first /\
    nth_error (equidistant_points d) n = Some lst /\
    (lst - first) / INR n <= desired /\
    (forall m, (0 < m)%nat -> (lst - first) / INR m <= desired -> (n <= m)%nat).
Proof. exact delta_end_grid_full. Qed.
Print Assumptions C03_time_grid.

Theorem C03_bad_arguments_rejected : forall first desired lst, lst <= first \/ desired <= 0 ->
  make_from_start_delta_end first desired lst = Exc.
Proof. exact delta_end_reject. Qed.
Print Assumptions C03_bad_arguments_rejected.

(** The state grid of a run (Timedata, then the grid builder): same guarantees. *)
Theorem C03_run_time_grid : forall tstart tend desired, tstart < tend -> 0 < desired ->
  exists g n, state_grid tstart tend desired = Ok g /\ (0 < n)%nat /\
    equidistant_grid tstart tend n g /\ increasing g /\
    nth_error g 0 = Some tstart /\ nth_error g n = Some tend /\
    (tend - tstart) / INR n <= desired /\
    (forall m, (0 < m)%nat -> (tend - tstart) / INR m <= desired -> (n <= m)%nat).
Proof. exact state_grid_full. Qed.
Print Assumptions C03_run_time_grid.

(** The grid with a prescribed number of points. *)
Theorem C03_number_of_points_grid : forall first lst n, first < lst -> (2 <= n)%Z ->
  exists d, make_from_start_number_end first lst n = Ok d /\
    equidistant_grid first lst (Z.to_nat n - 1) (equidistant_points d).
Proof. exact number_end_grid. Qed.
Print Assumptions C03_number_of_points_grid.

Example C03_example : exists d, make_from_start_delta_end 0 (3/10) 1 = Ok d /\ length (equidistant_points d) = 5%nat.
Proof. exact grid_example. Qed.

(** C51.  Full statement: a run with [desired_delta_t <= 0] does not start a simulation:
    [forall tstart tend desired, tstart < tend -> desired < 0 -> forall g, state_grid tstart tend desired <> Ok g].
    False: a large negative step is accepted and gives the one-point grid. *)
Theorem C51_negative_step_rejected_refuted :
  exists tstart tend desired, tstart < tend /\ desired < 0 /\
    state_grid tstart tend desired = Ok [tstart].
Proof. exact state_grid_negative_step_accepted. Qed.
Print Assumptions C51_negative_step_rejected_refuted.

(** What holds: a step that is negative, but at most the time span in size, is rejected. *)
Theorem C51_moderate_negative_step_rejected_partial : forall tstart tend desired,
  tstart < tend -> desired < 0 -> - desired <= tend - tstart ->
  state_grid tstart tend desired = Exc.
Proof. exact state_grid_moderate_negative. Qed.
Print Assumptions C51_moderate_negative_step_rejected_partial.

Theorem C51_reversed_times_rejected_partial : forall tstart tend desired, tend <= tstart -> desired <> 0 ->
  (forall g, state_grid tstart tend desired <> Ok g).
Proof. exact state_grid_end_before_start. Qed.
Print Assumptions C51_reversed_times_rejected_partial.

Example C51_example : 0 < 1 /\ -1/2 < 0 /\ - (-1/2) <= 1 - 0.
Proof. lra. Qed.

(** C04 *)
Theorem C04_index_weight_pairs : forall pts t a b, increasing pts ->
  nth_error pts 0 = Some a -> nth_error pts (length pts - 1) = Some b -> a <= t < b + tolerance ->
  exists u la, compute_index_lambda pts t = Ok (u, la) /\
    (u < length pts)%nat /\ 0 <= la <= 1 /\ (la <> 1 -> (1 <= u)%nat) /\
    forall m table row, table_of pts m table -> interp_at (mk_ivec pts m table) t = Ok row ->
      forall k, (k < m)%nat -> nth k row 0 = weighted u la (fun i => entry table m i k).
Proof. exact index_lambda_full. Qed.
Print Assumptions C04_index_weight_pairs.

Example C04_example : let pts := [0; 1; 3] in
  increasing pts /\ nth_error pts 0 = Some 0 /\ nth_error pts (length pts - 1) = Some 3 /\
  0 <= 2 < 3 + tolerance.
Proof.
  cbv zeta. split; [repeat constructor; lra|]. pose proof EPSILON_pos. unfold tolerance, EPSILON in *.
  repeat split; try reflexivity; lra.
Qed.

(** C04, the last admitted time.  The optimizer's constructor admits a final state time that
    exceeds the last control time by exactly 1e-10 (ImplicitOptimizer.cpp:128) and
    interpolation is defined there; the index/weight computation dereferences the end
    iterator. *)
Theorem C04_last_admitted_time_refuted :
  exists pts t b, increasing pts /\ nth_error pts (length pts - 1) = Some b /\
    t <= b + tolerance /\ covered tolerance pts t /\ compute_index_lambda pts t = UB.
Proof. exact index_lambda_edge. Qed.
Print Assumptions C04_last_admitted_time_refuted.

(** C05 *)
Theorem C05_quadrature : forall pts f, (2 <= length pts)%nat -> increasing pts ->
  length (quadrature_weights pts) = length pts /\
  (forall i w, nth_error (quadrature_weights pts) i = Some w -> 0 <= w) /\
  Rsum (length pts) (fun i => nth i (quadrature_weights pts) 0 * f i) = trapezoid pts f /\
  Rsum (length pts) (fun i => nth i (quadrature_weights pts) 0) =
    nth (length pts - 1) pts 0 - nth 0 pts 0 /\
  (forall c d, (forall i, (i < length pts)%nat -> f i = c + d * nth i pts 0) ->
     let a := nth 0 pts 0 in let b := nth (length pts - 1) pts 0 in
     Rsum (length pts) (fun i => nth i (quadrature_weights pts) 0 * f i) =
     (c * b + d * (b * b) / 2) - (c * a + d * (a * a) / 2)).
Proof. exact quadrature_full. Qed.
Print Assumptions C05_quadrature.

Example C05_example : (2 <= length [0; 1; 3])%nat /\ increasing [0; 1; 3] /\
  trapezoid [0; 1; 3] (fun i => INR i) = 7/2.
Proof. split; [simpl; lia|]. split; [repeat constructor; lra|]. unfold trapezoid; simpl. field. Qed.

(** C06 *)
Theorem C06_resampling : forall dst src,
  increasing (ipoints src) -> increasing (ipoints dst) ->
  table_of (ipoints src) (iinner src) (ivalues src) ->
  table_of (ipoints dst) (iinner dst) (ivalues dst) ->
  iinner dst = iinner src -> inside_span (ipoints src) (ipoints dst) ->
  exists v', interpolate_from dst src = Ok v' /\
    ipoints v' = ipoints dst /\ iinner v' = iinner dst /\
    table_of (ipoints v') (iinner v') (ivalues v') /\
    (forall j k t, nth_error (ipoints dst) j = Some t -> (k < iinner dst)%nat ->
       piecewise_linear tolerance (ipoints src) (fun i => entry (ivalues src) (iinner src) i k) t
         (entry (ivalues v') (iinner dst) j k) /\
       forall c d, (forall i x, nth_error (ipoints src) i = Some x ->
                      entry (ivalues src) (iinner src) i k = c + d * x) ->
                   entry (ivalues v') (iinner dst) j k = c + d * t).
Proof. exact resample_full. Qed.
Print Assumptions C06_resampling.

Theorem C06_resampling_same_grid : forall dst src,
  increasing (ipoints src) -> ipoints src <> [] ->
  table_of (ipoints src) (iinner src) (ivalues src) ->
  table_of (ipoints dst) (iinner dst) (ivalues dst) ->
  iinner dst = iinner src -> ipoints dst = ipoints src ->
  interpolate_from dst src = Ok src.
Proof. exact resample_same_grid. Qed.
Print Assumptions C06_resampling_same_grid.

Example C06_example : inside_span [0; 1; 3] [1/2; 2; 3] /\ increasing [1/2; 2; 3].
Proof.
  split; [|repeat constructor; lra]. exists 0, 3, (1/2), 3. repeat split; try reflexivity; lra.
Qed.
