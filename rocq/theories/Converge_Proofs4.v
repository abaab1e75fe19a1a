(** * Convergence of the Newton solver for networks *)
From Coq Require Import Reals ZArith List Arith Bool Lra Lia FunctionalExtensionality.
From Coquelicot Require Import Coquelicot.
From Verif Require Import Base Interp_Model Interp_Proofs Calc Euler_Spec Newton_Model Evolve_Model Net_Model Net_Spec Net_Proofs6 Net_Proofs9 Net_Props Sim_Model
  Converge_Spec Converge_Proofs Converge_Proofs2 Converge_Proofs3.
Import ListNotations.
Local Open Scope R_scope.

(** ** Derivatives *)

Lemma size_bounded n (h : vec) : has_size n h -> exists m, 0 < m /\ forall k, Rabs (h k) <= m.
Proof.
  intro S. assert (Q : exists m, 0 < m /\ forall k, (k < n)%nat -> Rabs (h k) <= m).
  { clear S. induction n as [|n (m & P & H)]; [exists 1; split; [lra|intros; lia]|].
    exists (m + Rabs (h n)). pose proof (Rabs_pos (h n)). split; [lra|]. intros k K.
    destruct (Nat.eq_dec k n) as [->|N]; [lra|]. specialize (H k ltac:(lia)). lra. }
  destruct Q as (m & P & H). exists m. split; [exact P|]. intro k. destruct (Nat.lt_ge_cases k n) as [K|K]; [auto|].
  rewrite (S k K), Rabs_R0. lra.
Qed.

Lemma jacobian_derivative n f u J : is_jacobian n n f u J -> derivative_at n (fun x => value (f x)) u J.
Proof.
  intros (g & Hj & d & D & E) h i S I. destruct (size_bounded n h S) as (m & M & B).
  apply (is_derive_ext_loc (fun s : R => g (fun k => u k + s * h k) i)).
  - assert (Dm : 0 < d / m) by (apply Rdiv_lt_0_compat; assumption). exists (mkposreal _ Dm). intros s Hs. change (Rabs (s - 0) < d / m) in Hs.
    rewrite Rminus_0_r in Hs. rewrite E; [reflexivity|]. intro k. replace (u k + s * h k - u k) with (s * h k) by ring.
    rewrite Rabs_mult. apply Rle_lt_trans with (Rabs s * m); [apply Rmult_le_compat_l; [apply Rabs_pos|apply B]|].
    apply Rmult_lt_reg_r with (/ m); [apply Rinv_0_lt_compat; exact M|]. rewrite Rmult_assoc, Rinv_r, Rmult_1_r by lra. exact Hs.
  - apply (Hj i I (fun s k => u k + s * h k) 0 h). split; [intro; ring|]. intro k. auto_derive; [exact Logic.I|ring].
Qed.

(** ** The system of one time step *)

Lemma network_system E LU n net prepare (factor : E -> R -> R -> vec -> list R -> vec -> option LU) linsolve e t0 t1 last c :
  system_of (network_problem E LU n net prepare factor linsolve) e t0 t1 last c =
  vector_system n (step_residuals (net e) t0 t1 last (control_vector c)) (factor e t0 t1 last c) linsolve.
Proof.
  unfold system_of, vector_system, network_problem. cbn.
  replace (fun r : vec => Fin (euclidean_norm n r)) with (fun r => Fin (length_of n r)); [reflexivity|].
  extensionality r. rewrite norm_length. reflexivity.
Qed.

Lemma network_solve E LU n net prepare (factor : E -> R -> R -> vec -> list R -> vec -> option LU) linsolve e t0 t1 last c fuel cfg full (x : vec) :
  @eq (option (outcome (vec * solution))) (solve (system_of (network_problem E LU n net prepare factor linsolve) e t0 t1 last c) fuel cfg full x)
    (solve (vector_system n (step_residuals (net e) t0 t1 last (control_vector c)) (factor e t0 t1 last c) linsolve) fuel cfg full x).
Proof.
  assert (H : (fun r : vec => Fin (euclidean_norm n r)) = (fun r => Fin (length_of n r))) by (extensionality r; rewrite norm_length; reflexivity).
  exact (f_equal (fun nrm : vec -> xdouble => (solve {| ns_vec := vec; ns_lu := LU; ns_eval := step_residuals (net e) t0 t1 last (control_vector c); ns_norm := nrm;
    ns_move := fun x l s k => x k + l * s k; ns_neg := fun s k => - s k; ns_factor := factor e t0 t1 last c; ns_linsolve := linsolve |} fuel cfg full x : option (outcome (vec * solution)))) H).
Qed.

Lemma network_derivative N t0 t1 last x c : well_formed N -> pipes_ok N -> boundary_defined N t1 -> regular_state N x ->
  derivative_at (number_of_states N) (step_residuals N t0 t1 last c) x (step_matrix N t0 t1 last c x).
Proof.
  intros W P B Rg. destruct (C53_new_state N t0 t1 last x c (fun _ => 0) W P B Rg) as (ts & E & Hj).
  unfold step_matrix. rewrite E. apply (jacobian_derivative _ (fun x => evaluate N t0 t1 last x c (fun _ => 0)) x _ Hj).
Qed.

(** ** Networks with linear equations *)

Definition linear_gas (g : gasedge) : Prop := match ge_kind g with Pipe _ _ _ | Gaspowerconnection _ _ _ => False | _ => True end.

Lemma linear_gas_of N i e g : linear_network N -> In e (edges N) -> gas_of N i e = Some g -> linear_gas g.
Proof.
  intros [He _] I G. specialize (He e I). unfold gas_of in G. destruct (edge_block N i) as [s a].
  destruct (e_type e); try contradiction; try discriminate; injection G as <-; exact Logic.I.
Qed.
Lemma numbered_in N ie : In ie (numbered N) -> In (snd ie) (edges N).
Proof. intro H. destruct ie as [i e]. exact (in_combine_r _ _ _ _ H). Qed.
Lemma linear_attached N j : linear_network N -> List.Forall (fun de => linear_gas (snd de)) (attached_gas N j).
Proof.
  intro L. apply List.Forall_forall. intros [d g] H. unfold attached_gas, gas_list in H. apply in_app_or in H.
  assert (K : forall l d', (forall ie, In ie l -> In ie (numbered N)) ->
    In (d, g) (flat_map (fun ie => match gas_of N (fst ie) (snd ie) with Some g => [(d', g)] | None => [] end) l) -> linear_gas g).
  { intros l d' Hl Q. apply in_flat_map in Q. destruct Q as (ie & I & Q). destruct (gas_of N (fst ie) (snd ie)) as [g'|] eqn:G; [|contradiction].
    destruct Q as [Q|[]]. injection Q as _ <-. eapply linear_gas_of; [exact L|apply numbered_in, Hl, I|exact G]. }
  destruct H as [H|H]; apply K in H; try exact H; intros ie I; apply filter_In in I; tauto.
Qed.

Lemma linear_boundary d g f row x y : linear_gas g -> dboundary_p_qvol_dstate d g f row x = dboundary_p_qvol_dstate d g f row y.
Proof. unfold linear_gas, dboundary_p_qvol_dstate. destruct (ge_kind g); intro L; try contradiction; reflexivity. Qed.
Lemma linear_loop x y : forall rest o l, List.Forall (fun de : direction * gasedge => linear_gas (snd de)) rest -> derivative_loop rest x o l = derivative_loop rest y o l.
Proof.
  induction rest as [|[d e] rest IH]; intros o l F; [reflexivity|]. inversion_clear F as [|? ? F1 F2]. cbn [snd] in F1. cbn [derivative_loop].
  destruct rest as [|de rest].
  - rewrite !(linear_boundary d e _ _ x y F1). reflexivity.
  - rewrite !(linear_boundary d e _ _ x y F1). rewrite (IH _ l F2). reflexivity.
Qed.

Lemma linear_derivative N t0 t1 last x y c : linear_network N -> d_evaluate_d_new_state N t0 t1 last x c = d_evaluate_d_new_state N t0 t1 last y c.
Proof.
  intro L. unfold d_evaluate_d_new_state. cbv zeta. f_equal.
  assert (Ed : forall sel, on_edges N sel (fun g => edge_d_new_state g t0 t1 last x c) = on_edges N sel (fun g => edge_d_new_state g t0 t1 last y c)).
  { intro sel. unfold on_edges. assert (K : forall l, (forall ie, In ie l -> In (snd ie) (edges N)) ->
      flat_map (fun ie => if sel (snd ie) then match gas_of N (fst ie) (snd ie) with Some g => [edge_d_new_state g t0 t1 last x c] | None => [] end else []) l =
      flat_map (fun ie => if sel (snd ie) then match gas_of N (fst ie) (snd ie) with Some g => [edge_d_new_state g t0 t1 last y c] | None => [] end else []) l).
    { induction l as [|ie l IH]; intro H; [reflexivity|]. cbn [flat_map]. rewrite IH by (intros; apply H; right; assumption). f_equal.
      destruct (sel (snd ie)); [|reflexivity]. destruct (gas_of N (fst ie) (snd ie)) as [g|] eqn:G; [|reflexivity]. f_equal.
      pose proof (linear_gas_of N _ _ g L (H ie (or_introl eq_refl)) G) as Lg. unfold linear_gas in Lg. unfold edge_d_new_state. destruct (ge_kind g); try contradiction; reflexivity. }
    apply K. intros ie I. apply numbered_in, I. }
  rewrite !Ed. f_equal. unfold on_nodes. apply map_ext_in. intros [j t] I. apply in_combine_r in I. cbn [fst snd].
  pose proof (linear_attached N j L) as La. destruct L as [_ Ln]. specialize (Ln t I).
  assert (Fl : flow_derivative (attached_gas N j) x = flow_derivative (attached_gas N j) y).
  { unfold flow_derivative. destruct (attached_gas N j) as [|[d e] rest]; [reflexivity|]. inversion_clear La as [|? ? F1 F2]. cbn [snd] in F1.
    destruct (List.last _ _) as [dl el]. rewrite !(linear_boundary d e _ _ x y F1). rewrite (linear_loop x y rest _ _ F2). reflexivity. }
  unfold node_d_new_state. destruct t as [|s b|b|k ext G B b]; [exact Fl|exact Fl| |].
  - unfold pressure_derivative. f_equal. apply map_ext_in. intros [d e] Id. apply linear_boundary. rewrite List.Forall_forall in La. exact (La _ Id).
  - destruct k; try contradiction. reflexivity.
Qed.

Lemma linear_regular N x : linear_network N -> regular_state N x /\ pipes_ok N.
Proof.
  intros [He _]. split.
  - intros i e E. specialize (He e (nth_error_In _ _ E)). destruct (e_type e); try exact Logic.I. contradiction.
  - apply List.Forall_forall. intros e I. specialize (He e I). destruct (e_type e); try exact Logic.I. contradiction.
Qed.

Lemma linear_smooth N t0 t1 last c x0 radius : linear_network N -> well_formed N -> boundary_defined N t1 ->
  smooth_in_ball (number_of_states N) (step_residuals N t0 t1 last c) (step_matrix N t0 t1 last c) x0 radius 0.
Proof.
  intros L W B. split.
  - intros x _. destruct (linear_regular N x L) as [Rg P]. apply network_derivative; assumption.
  - intros x y v _ _. replace (step_matrix N t0 t1 last c x) with (step_matrix N t0 t1 last c y).
    + rewrite distance_refl. lra.
    + unfold step_matrix. rewrite (linear_derivative N t0 t1 last x y c L). reflexivity.
Qed.

(** ** A simulation in which every step is solved at the first attempt *)

Lemma simulation_succeeds LU n N (factor : unit -> R -> R -> vec -> list R -> vec -> option LU) linsolve fuel sfuel cfg controls points x :
  let PB := network_problem unit LU n (fun _ => N) (fun e _ _ _ _ => Ok e) factor linsolve in
  (2 <= List.length points)%nat -> (forall t, In t points -> exists c, current_controls controls t = Ok c) ->
  (forall t0 t1 last full c, In t1 points -> exists y sol, solve (system_of PB tt t0 t1 last c) fuel (newton cfg) full last = Some (Ok (y, sol)) /\ success sol = true) ->
  exists rows, simulate PB fuel (S sfuel) cfg controls points x tt = (Some (Ok rows), tt).
Proof.
  intros PB Hp Hc Hs.
  assert (K : forall times t0 last, (forall t, In t times -> In t points) -> exists rows, simulate_loop PB fuel (S sfuel) cfg controls times t0 last last tt = (Some (Ok rows), tt)).
  { induction times as [|t1 times IH]; intros t0 last Ht; [eexists; reflexivity|]. cbn [simulate_loop].
    destruct (Hc t1 (Ht t1 (or_introl eq_refl))) as (c & Ec). rewrite Ec. unfold time_step, make_one_step. cbn [attempts]. cbn [pr_prepare PB network_problem].
    destruct (Hs t0 t1 last (negb (use_simplified_newton cfg)) c (Ht t1 (or_introl eq_refl))) as (y & sol & E & Sc).
    rewrite E, Sc. destruct (IH t1 y) as (rows & R); [intros; apply Ht; right; assumption|]. exists (y :: rows). rewrite R, Sc. reflexivity. }
  unfold simulate. destruct points as [|p0 [|p1 rest]]; [cbn in Hp; lia|cbn in Hp; lia|].
  destruct (Hc p1 ltac:(cbn; auto)) as (c & ->). destruct (K (p1 :: rest) p0 x) as (rows & ->); [intros; right; assumption|]. exists (x :: rows). reflexivity.
Qed.
