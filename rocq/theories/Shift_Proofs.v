(** Shifting all times changes nothing else. *)
From Coq Require Import Reals ZArith Lra Lia List Arith Bool FunctionalExtensionality.
From Verif Require Import Base Interp_Model Calc Euler_Model Box_Model Net_Model Newton_Model Evolve_Model Sim_Model.
From Verif Require Import Shift_Spec.
Import ListNotations.
Local Open Scope R_scope.

(** ** Comparisons, tables *)
Lemma Rltb_later s a b : Rltb (a + s) (b + s) = Rltb a b.
Proof. unfold Rltb. destruct (Rlt_dec (a + s) (b + s)), (Rlt_dec a b); try reflexivity; exfalso; lra. Qed.
Lemma Rleb_later s a b : Rleb (a + s) (b + s) = Rleb a b.
Proof. unfold Rleb. destruct (Rle_dec (a + s) (b + s)), (Rle_dec a b); try reflexivity; exfalso; lra. Qed.
Lemma lower_bound_later s l t : lower_bound (map (fun t => t + s) l) (t + s) = lower_bound l t.
Proof. induction l as [|a l IH]; [reflexivity|]. cbn. rewrite Rltb_later, IH. reflexivity. Qed.
Lemma last_later s l : l <> [] -> last (map (fun t => t + s) l) 0 = last l 0 + s.
Proof.
  induction l as [|a l IH]; [easy|]. intros _. destruct l as [|b l]; [reflexivity|].
  change (last (map (fun t => t + s) (a :: b :: l)) 0) with (last (map (fun t => t + s) (b :: l)) 0).
  change (last (a :: b :: l) 0) with (last (b :: l) 0). apply IH. discriminate.
Qed.
Lemma get_later s l i : get (map (fun t => t + s) l) i = omap (fun t => t + s) (get l i).
Proof. unfold get. rewrite nth_error_map. destruct (nth_error l i); reflexivity. Qed.
Lemma interp_later s v t : interp_at (later s v) (t + s) = interp_at v t.
Proof.
  unfold interp_at, later. cbn [ipoints iinner ivalues]. destruct (ipoints v) as [|p0 ps] eqn:E; [reflexivity|].
  rewrite last_later by discriminate. rewrite lower_bound_later, !get_later, map_length. cbn [map].
  rewrite Rleb_later.
  replace (last (p0 :: ps) 0 + s + EPSILON) with (last (p0 :: ps) 0 + EPSILON + s) by ring. rewrite Rltb_later.
  rewrite Rleb_later. replace (p0 + s - EPSILON) with (p0 - EPSILON + s) by ring. rewrite Rltb_later.
  destruct (Rleb (last (p0 :: ps) 0) t); [reflexivity|]. destruct (Rleb t p0); [reflexivity|].
  destruct (Nat.eqb _ 0); [reflexivity|].
  destruct (get (p0 :: ps) (lower_bound (p0 :: ps) t)) as [tn| |]; [|reflexivity|reflexivity].
  destruct (get (p0 :: ps) (lower_bound (p0 :: ps) t - 1)) as [tp| |]; [|reflexivity|reflexivity].
  cbn [omap obind]. replace (t + s - (tp + s)) with (t - tp) by ring. replace (tn + s - (tp + s)) with (tn - tp) by ring. reflexivity.
Qed.

(** ** The network *)
Section Network.
Variables (s : R) (N N' : network).
Hypothesis H : network_later s N N'.

Lemma node_at j : match nth_error (nodes N) j, nth_error (nodes N') j with
  | Some t, Some t' => node_later s t t' | None, None => True | _, _ => False end.
Proof.
  destruct H as (F & _). clear H. revert j. induction F as [|t t' l l' Ht F IH]; intros [|j]; cbn; auto. apply IH.
Qed.
Lemma number_nodes : length (nodes N') = length (nodes N).
Proof. destruct H as (F & _). induction F as [|t t' l l' _ F IH]; [reflexivity|]. cbn. rewrite IH. reflexivity. Qed.
Lemma later_edges : edges N' = edges N.
Proof. apply H. Qed.
Lemma later_sizes : state_sizes N' = state_sizes N.
Proof.
  unfold state_sizes. rewrite later_edges. f_equal. destruct H as (F & _). induction F as [|t t' l l' Ht F IH]; [reflexivity|].
  cbn. rewrite IH. destruct Ht; reflexivity.
Qed.
Lemma later_node_block j : node_block N' j = node_block N j.
Proof. unfold node_block, state_blocks. rewrite later_sizes. reflexivity. Qed.
Lemma later_edge_block i : edge_block N' i = edge_block N i.
Proof. unfold edge_block, state_blocks. rewrite later_sizes, number_nodes. reflexivity. Qed.
Lemma later_control_block i : control_block N' i = control_block N i.
Proof. unfold control_block, control_blocks, control_sizes. rewrite later_edges. reflexivity. Qed.
Lemma later_number_of_states : number_of_states N' = number_of_states N.
Proof. unfold number_of_states. rewrite later_sizes. reflexivity. Qed.
Lemma later_power_start j : power_start N' j = power_start N j.
Proof.
  unfold power_start. pose proof (node_at j) as A. rewrite later_node_block.
  destruct (nth_error (nodes N) j), (nth_error (nodes N') j); try easy. destruct A; reflexivity.
Qed.
Lemma later_lines j : power_lines N' j = power_lines N j.
Proof.
  unfold power_lines. rewrite later_edges. f_equal; apply flat_map_ext; intro e; unfold line_of; destruct (e_type e); try reflexivity;
    rewrite later_power_start; reflexivity.
Qed.
Lemma later_power_of j : power_of N' j = power_of N j.
Proof.
  unfold power_of. pose proof (node_at j) as A. rewrite later_node_block, later_lines.
  destruct (nth_error (nodes N) j), (nth_error (nodes N') j); try easy. destruct A; reflexivity.
Qed.
Lemma later_gas_of i e : gas_of N' i e = gas_of N i e.
Proof.
  unfold gas_of. rewrite later_edge_block. destruct (edge_block N i). destruct (e_type e); try reflexivity;
    rewrite ?later_control_block, ?later_power_of; reflexivity.
Qed.
Lemma later_numbered : numbered N' = numbered N.
Proof. unfold numbered. rewrite later_edges. reflexivity. Qed.
Lemma later_gas_list l d : gas_list N' l d = gas_list N l d.
Proof. unfold gas_list. apply flat_map_ext. intro ie. rewrite later_gas_of. reflexivity. Qed.
Lemma later_attached j : attached_gas N' j = attached_gas N j.
Proof. unfold attached_gas. rewrite later_numbered, !later_gas_list. reflexivity. Qed.
Lemma later_on_edges {A} sel (f f' : gasedge -> outcome (list A)) : (forall g, f' g = f g) -> on_edges N' sel f' = on_edges N sel f.
Proof.
  intro E. unfold on_edges. rewrite later_numbered. apply flat_map_ext. intro ie. rewrite later_gas_of.
  destruct (sel (snd ie)); [|reflexivity]. destruct (gas_of N (fst ie) (snd ie)); [rewrite E|]; reflexivity.
Qed.
Lemma later_on_nodes {A} (f f' : nat -> nodetype -> outcome (list A)) : (forall j t t', node_later s t t' -> f' j t' = f j t) -> on_nodes N' f' = on_nodes N f.
Proof.
  intro E. unfold on_nodes. rewrite number_nodes. destruct H as (F & _). clear H. generalize 0%nat.
  induction F as [|t t' l l' Ht F IH]; intro k; [reflexivity|]. cbn. rewrite (E k t t' Ht), IH. reflexivity.
Qed.
Lemma evaluate_point_later bl t0 t1 dx a b c d : evaluate_point bl (t0 + s) (t1 + s) dx a b c d = evaluate_point bl t0 t1 dx a b c d.
Proof. unfold evaluate_point. replace (t1 + s - (t0 + s)) with (t1 - t0) by ring. reflexivity. Qed.
Lemma d_left_later bl t0 t1 dx a b c d : devaluate_point_d_new_left bl (t0 + s) (t1 + s) dx a b c d = devaluate_point_d_new_left bl t0 t1 dx a b c d.
Proof. unfold devaluate_point_d_new_left. replace (t1 + s - (t0 + s)) with (t1 - t0) by ring. reflexivity. Qed.
Lemma d_right_later bl t0 t1 dx a b c d : devaluate_point_d_new_right bl (t0 + s) (t1 + s) dx a b c d = devaluate_point_d_new_right bl t0 t1 dx a b c d.
Proof. unfold devaluate_point_d_new_right. replace (t1 + s - (t0 + s)) with (t1 - t0) by ring. reflexivity. Qed.
Lemma pipe_loop_ext {A} e (f f' : nat -> outcome (list A)) : (forall i, f' i = f i) -> pipe_loop e f' = pipe_loop e f.
Proof. intro E. unfold pipe_loop. destruct (pipe_indices e); cbn [obind]; try reflexivity. f_equal. apply map_ext. exact E. Qed.
Lemma edge_evaluate_later t0 t1 last x c g : edge_evaluate g (t0 + s) (t1 + s) last x c = edge_evaluate g t0 t1 last x c.
Proof.
  unfold edge_evaluate. destruct (ge_kind g); try reflexivity. apply pipe_loop_ext. intro i. unfold cell_evaluate. rewrite evaluate_point_later. reflexivity.
Qed.
Lemma edge_d_later t0 t1 last x c g : edge_d_new_state g (t0 + s) (t1 + s) last x c = edge_d_new_state g t0 t1 last x c.
Proof.
  unfold edge_d_new_state. destruct (ge_kind g); try reflexivity. apply pipe_loop_ext. intro i. unfold cell_d_new_state. rewrite d_left_later, d_right_later. reflexivity.
Qed.
Lemma edge_d_last_later t0 t1 last x c g : edge_d_last_state g (t0 + s) (t1 + s) last x c = edge_d_last_state g t0 t1 last x c.
Proof. reflexivity. Qed.

Lemma evaluate_writes_later t0 t1 last x c : evaluate_writes N' (t0 + s) (t1 + s) last x c = evaluate_writes N t0 t1 last x c.
Proof.
  unfold evaluate_writes. f_equal. f_equal; [|f_equal; apply later_on_edges; intro g; apply edge_evaluate_later].
  apply later_on_nodes. intros j t t' Ht. unfold node_evaluate. rewrite later_attached.
  destruct Ht as [|sink b b' E|b b' E|k ext G B b b' E]; [reflexivity| | |]; rewrite E, ?later_power_of; reflexivity.
Qed.
Lemma evaluate_later t0 t1 last x c v : evaluate N' (t0 + s) (t1 + s) last x c v = evaluate N t0 t1 last x c v.
Proof. unfold evaluate. rewrite evaluate_writes_later, later_number_of_states. reflexivity. Qed.
Lemma d_new_later t0 t1 last x c : d_evaluate_d_new_state N' (t0 + s) (t1 + s) last x c = d_evaluate_d_new_state N t0 t1 last x c.
Proof.
  unfold d_evaluate_d_new_state. f_equal. f_equal; [|f_equal; apply later_on_edges; intro g; apply edge_d_later].
  apply later_on_nodes. intros j t t' Ht. unfold node_d_new_state. rewrite later_attached.
  destruct Ht; try reflexivity. rewrite later_power_of. reflexivity.
Qed.
Lemma d_last_later t0 t1 last x c : d_evaluate_d_last_state N' (t0 + s) (t1 + s) last x c = d_evaluate_d_last_state N t0 t1 last x c.
Proof.
  unfold d_evaluate_d_last_state. f_equal. f_equal; [|f_equal; apply later_on_edges; reflexivity].
  apply later_on_nodes. reflexivity.
Qed.
Lemma d_control_later t0 t1 last x c : d_evaluate_d_control N' (t0 + s) (t1 + s) last x c = d_evaluate_d_control N t0 t1 last x c.
Proof. unfold d_evaluate_d_control. f_equal. apply later_on_edges. reflexivity. Qed.
End Network.

(** ** The simulation *)
Lemma controls_later s cs t : current_controls (later s cs) (t + s) = current_controls cs t.
Proof. unfold current_controls. rewrite interp_later. reflexivity. Qed.

Section Simulation.
Variables (E LU : Type) (s : R) (net net' : E -> network) (prepare prepare' : E -> R -> R -> vec -> list R -> outcome E)
  (factor factor' : E -> R -> R -> vec -> list R -> vec -> option LU) (linsolve : LU -> vec -> vec) (n : nat).
Hypothesis HN : forall e, network_later s (net e) (net' e).
Hypothesis HP : forall e t0 t1 last c, prepare' e (t0 + s) (t1 + s) last c = prepare e t0 t1 last c.
Hypothesis HF : forall e t0 t1 last c x, factor' e (t0 + s) (t1 + s) last c x = factor e t0 t1 last c x.
Let P := network_problem E LU n net prepare factor linsolve.
Let P' := network_problem E LU n net' prepare' factor' linsolve.
Variables (fuel sfuel : nat) (cfg : tsettings) (cs : ivec).

Let run (ev : vec -> vec) (fac : vec -> option LU) : bool -> vec -> nresult (vec * solution) :=
  solve {| ns_vec := vec; ns_lu := LU; ns_eval := ev; ns_norm := fun r => Fin (euclidean_norm n r);
           ns_move := fun x l s k => x k + l * s k; ns_neg := fun s k => - s k; ns_factor := fac; ns_linsolve := linsolve |} fuel (newton cfg).
Lemma solver_later e t0 t1 last c :
  (run (pr_eval P' e (t0 + s) (t1 + s) last c) (pr_factor P' e (t0 + s) (t1 + s) last c) : bool -> vec -> nresult (vec * solution))
  = run (pr_eval P e t0 t1 last c) (pr_factor P e t0 t1 last c).
Proof.
  assert (E1 : (pr_eval P' e (t0 + s) (t1 + s) last c : vec -> vec) = pr_eval P e t0 t1 last c).
  { apply functional_extensionality. intro x. unfold P, P'. cbn [network_problem pr_eval]. rewrite (evaluate_later s _ _ (HN e)). reflexivity. }
  assert (E2 : (pr_factor P' e (t0 + s) (t1 + s) last c : vec -> option LU) = pr_factor P e t0 t1 last c).
  { apply functional_extensionality. intro x. apply HF. }
  rewrite E1, E2. reflexivity.
Qed.
Lemma time_step_later t0 t1 last new c e :
  time_step P' fuel sfuel cfg (t0 + s) (t1 + s) last new c e = time_step P fuel sfuel cfg t0 t1 last new c e.
Proof.
  unfold time_step.
  change (make_one_step (fun e => prepare' e (t0 + s) (t1 + s) last c)
    (fun e full x => run (pr_eval P' e (t0 + s) (t1 + s) last c) (pr_factor P' e (t0 + s) (t1 + s) last c) full x) sfuel cfg new e
    = make_one_step (fun e => prepare e t0 t1 last c)
    (fun e full x => run (pr_eval P e t0 t1 last c) (pr_factor P e t0 t1 last c) full x) sfuel cfg new e).
  f_equal; apply functional_extensionality; intro e1.
  - apply HP.
  - rewrite (solver_later e1 t0 t1 last c). reflexivity.
Qed.
Lemma loop_later ts : forall t last new e,
  simulate_loop P' fuel sfuel cfg (later s cs) (map (fun t => t + s) ts) (t + s) last new e = simulate_loop P fuel sfuel cfg cs ts t last new e.
Proof.
  induction ts as [|t1 ts IH]; intros t last new e; [reflexivity|]. cbn [map simulate_loop]. rewrite controls_later.
  destruct (current_controls cs t1) as [c| |]; [|reflexivity|reflexivity].
  rewrite time_step_later. destruct (time_step P fuel sfuel cfg t t1 last new c e) as (([[[y sol]| |]|] & e') & log); try reflexivity.
  destruct (success sol); [|reflexivity]. rewrite IH. reflexivity.
Qed.
Lemma simulate_later points initial e :
  simulate P' fuel sfuel cfg (later s cs) (map (fun t => t + s) points) initial e = simulate P fuel sfuel cfg cs points initial e.
Proof.
  destruct points as [|t0 [|t1 rest]]; [reflexivity|reflexivity|]. cbn [map simulate]. rewrite controls_later.
  destruct (current_controls cs t1) as [c| |]; [|reflexivity|reflexivity].
  change (t1 + s :: map (fun t => t + s) rest) with (map (fun t => t + s) (t1 :: rest)). rewrite loop_later. reflexivity.
Qed.
End Simulation.

(** ** The time grid *)
Lemma accumulate_later s d n : forall a, accumulate_points (a + s) d n = map (fun t => t + s) (accumulate_points a d n).
Proof. induction n as [|n IH]; intro a; [reflexivity|]. cbn. rewrite <- IH. f_equal. f_equal. ring. Qed.
Lemma grid_later s a b d : state_grid (a + s) (b + s) d = omap (map (fun t => t + s)) (state_grid a b d).
Proof.
  unfold state_grid, timedata_number. destruct (Reqb d 0); [reflexivity|]. cbn [obind].
  assert (Es : b + s - (a + s) = b - a) by ring. unfold timedata_delta. rewrite !Es.
  assert (G : forall x, make_from_start_xdelta_end (a + s) x (b + s) = omap (fun '(f, n, d) => (f + s, n, d)) (make_from_start_xdelta_end a x b)).
  { intro x. unfold make_from_start_xdelta_end, make_from_start_delta_end. destruct x as [r| | |]; cbv zeta.
    - rewrite !Rleb_later, !Es. destruct (Rleb b a); [reflexivity|]. destruct (Rleb r 0); reflexivity.
    - rewrite Rleb_later. destruct (Rleb b a); reflexivity.
    - reflexivity.
    - rewrite Rleb_later. destruct (Rleb b a); reflexivity. }
  rewrite G. destruct (make_from_start_xdelta_end a _ b) as [((f & n) & x)| |]; cbn [omap obind]; try reflexivity.
  destruct x; cbn [omap]; try (destruct (Nat.eqb n 1); reflexivity). rewrite accumulate_later. reflexivity.
Qed.

(** ** What the optimization derives from time points *)
Lemma nth_later s l i : (i < length l)%nat -> nth i (map (fun t => t + s) l) 0 = nth i l 0 + s.
Proof. intro Hi. rewrite (nth_indep _ 0 (0 + s)) by (rewrite map_length; exact Hi). apply (map_nth (fun t => t + s)). Qed.
Lemma weights_later s l : quadrature_weights (map (fun t => t + s) l) = quadrature_weights l.
Proof.
  unfold quadrature_weights. rewrite map_length. apply map_ext_in. intros i Hi. apply in_seq in Hi. unfold quadrature_weight. rewrite map_length.
  destruct (Nat.eqb (length l) 1) eqn:E1; [reflexivity|]. apply Nat.eqb_neq in E1.
  destruct (Nat.eqb i 0) eqn:E2; [rewrite !nth_later by lia; lra|]. apply Nat.eqb_neq in E2.
  destruct (Nat.eqb i (length l - 1)) eqn:E3; [rewrite !nth_later by lia; lra|]. apply Nat.eqb_neq in E3.
  rewrite !nth_later by lia. lra.
Qed.
Lemma index_later s l t : compute_index_lambda (map (fun t => t + s) l) (t + s) = compute_index_lambda l t.
Proof.
  unfold compute_index_lambda. destruct l as [|p0 ps]; [reflexivity|].
  rewrite last_later by discriminate. rewrite lower_bound_later, !get_later, map_length. cbn [map]. rewrite !Rltb_later.
  replace (last (p0 :: ps) 0 + s + EPSILON) with (last (p0 :: ps) 0 + EPSILON + s) by ring. rewrite !Rltb_later.
  destruct (Rltb t p0); [reflexivity|]. destruct (Rltb (last (p0 :: ps) 0 + EPSILON) t); [reflexivity|].
  destruct (Rltb (last (p0 :: ps) 0) t && Rltb t (last (p0 :: ps) 0 + EPSILON))%bool; [reflexivity|].
  destruct (get (p0 :: ps) (lower_bound (p0 :: ps) t)) as [tn| |]; [|reflexivity|reflexivity]. cbn [omap obind].
  destruct (Nat.eqb _ 0); [reflexivity|].
  destruct (get (p0 :: ps) (lower_bound (p0 :: ps) t - 1)) as [tp| |]; [|reflexivity|reflexivity].
  cbn [omap obind]. replace (t + s - (tp + s)) with (t - tp) by ring. replace (tn + s - (tp + s)) with (tn - tp) by ring. reflexivity.
Qed.
Lemma index_vector_later s l f : compute_index_lambda_vector (map (fun t => t + s) l) (map (fun t => t + s) f) = compute_index_lambda_vector l f.
Proof.
  unfold compute_index_lambda_vector. induction f as [|t f IH]; [reflexivity|]. cbn [map omapM]. rewrite index_later, IH. reflexivity.
Qed.
