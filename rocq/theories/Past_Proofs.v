(** The values of boundary conditions and controls at other times than the ends of the steps have no influence. *)
From Coq Require Import Reals ZArith Lra Lia List Arith Bool Sorted FunctionalExtensionality.
From Verif Require Import Base Interp_Model Calc Euler_Model Box_Model Net_Model Newton_Model Evolve_Model Sim_Model.
From Verif Require Import Interp_Spec Interp_Proofs Past_Spec.
Import ListNotations.
Local Open Scope R_scope.

(** ** The network *)
Section Network.
Variables (s : R) (N N' : network).
Hypothesis H : same_at s N N'.

Lemma node_at j : match nth_error (nodes N) j, nth_error (nodes N') j with
  | Some t, Some t' => node_at_time s t t' | None, None => True | _, _ => False end.
Proof.
  destruct H as (F & _). clear H. revert j. induction F as [|t t' l l' Ht F IH]; intros [|j]; cbn; auto. apply IH.
Qed.
Lemma number_nodes : length (nodes N') = length (nodes N).
Proof. destruct H as (F & _). induction F as [|t t' l l' _ F IH]; [reflexivity|]. cbn. rewrite IH. reflexivity. Qed.
Lemma alike_edges : edges N' = edges N.
Proof. apply H. Qed.
Lemma alike_sizes : state_sizes N' = state_sizes N.
Proof.
  unfold state_sizes. rewrite alike_edges. f_equal. destruct H as (F & _). induction F as [|t t' l l' Ht F IH]; [reflexivity|].
  cbn. rewrite IH. destruct Ht; reflexivity.
Qed.
Lemma alike_node_block j : node_block N' j = node_block N j.
Proof. unfold node_block, state_blocks. rewrite alike_sizes. reflexivity. Qed.
Lemma alike_edge_block i : edge_block N' i = edge_block N i.
Proof. unfold edge_block, state_blocks. rewrite alike_sizes, number_nodes. reflexivity. Qed.
Lemma alike_control_block i : control_block N' i = control_block N i.
Proof. unfold control_block, control_blocks, control_sizes. rewrite alike_edges. reflexivity. Qed.
Lemma alike_number_of_states : number_of_states N' = number_of_states N.
Proof. unfold number_of_states. rewrite alike_sizes. reflexivity. Qed.
Lemma alike_power_start j : power_start N' j = power_start N j.
Proof.
  unfold power_start. pose proof (node_at j) as A. rewrite alike_node_block.
  destruct (nth_error (nodes N) j), (nth_error (nodes N') j); try easy. destruct A; reflexivity.
Qed.
Lemma alike_lines j : power_lines N' j = power_lines N j.
Proof.
  unfold power_lines. rewrite alike_edges. f_equal; apply flat_map_ext; intro e; unfold line_of; destruct (e_type e); try reflexivity;
    rewrite alike_power_start; reflexivity.
Qed.
Lemma alike_power_of j : power_of N' j = power_of N j.
Proof.
  unfold power_of. pose proof (node_at j) as A. rewrite alike_node_block, alike_lines.
  destruct (nth_error (nodes N) j), (nth_error (nodes N') j); try easy. destruct A; reflexivity.
Qed.
Lemma alike_gas_of i e : gas_of N' i e = gas_of N i e.
Proof.
  unfold gas_of. rewrite alike_edge_block. destruct (edge_block N i). destruct (e_type e); try reflexivity;
    rewrite ?alike_control_block, ?alike_power_of; reflexivity.
Qed.
Lemma alike_numbered : numbered N' = numbered N.
Proof. unfold numbered. rewrite alike_edges. reflexivity. Qed.
Lemma alike_gas_list l d : gas_list N' l d = gas_list N l d.
Proof. unfold gas_list. apply flat_map_ext. intro ie. rewrite alike_gas_of. reflexivity. Qed.
Lemma alike_attached j : attached_gas N' j = attached_gas N j.
Proof. unfold attached_gas. rewrite alike_numbered, !alike_gas_list. reflexivity. Qed.
Lemma alike_on_edges {A} sel (f f' : gasedge -> outcome (list A)) : (forall g, f' g = f g) -> on_edges N' sel f' = on_edges N sel f.
Proof.
  intro E. unfold on_edges. rewrite alike_numbered. apply flat_map_ext. intro ie. rewrite alike_gas_of.
  destruct (sel (snd ie)); [|reflexivity]. destruct (gas_of N (fst ie) (snd ie)); [rewrite E|]; reflexivity.
Qed.
Lemma alike_on_nodes {A} (f f' : nat -> nodetype -> outcome (list A)) : (forall j t t', node_at_time s t t' -> f' j t' = f j t) -> on_nodes N' f' = on_nodes N f.
Proof.
  intro E. unfold on_nodes. rewrite number_nodes. destruct H as (F & _). clear H. generalize 0%nat.
  induction F as [|t t' l l' Ht F IH]; intro k; [reflexivity|]. cbn. rewrite (E k t t' Ht), IH. reflexivity.
Qed.

Lemma evaluate_writes_alike t0 last x c : evaluate_writes N' t0 s last x c = evaluate_writes N t0 s last x c.
Proof.
  unfold evaluate_writes. f_equal. f_equal; [|f_equal; apply alike_on_edges; reflexivity].
  apply alike_on_nodes. intros j t t' Ht. unfold node_evaluate. rewrite alike_attached.
  destruct Ht as [|sink b b' E|b b' E|k ext G B b b' E]; [reflexivity| | |]; rewrite E, ?alike_power_of; reflexivity.
Qed.
Lemma evaluate_alike t0 last x c v : evaluate N' t0 s last x c v = evaluate N t0 s last x c v.
Proof. unfold evaluate. rewrite evaluate_writes_alike, alike_number_of_states. reflexivity. Qed.
Lemma d_new_alike t0 last x c : d_evaluate_d_new_state N' t0 s last x c = d_evaluate_d_new_state N t0 s last x c.
Proof.
  unfold d_evaluate_d_new_state. f_equal. f_equal; [|f_equal; apply alike_on_edges; reflexivity].
  apply alike_on_nodes. intros j t t' Ht. unfold node_d_new_state. rewrite alike_attached.
  destruct Ht; try reflexivity. rewrite alike_power_of. reflexivity.
Qed.
Lemma d_last_alike t0 last x c : d_evaluate_d_last_state N' t0 s last x c = d_evaluate_d_last_state N t0 s last x c.
Proof.
  unfold d_evaluate_d_last_state. f_equal. f_equal; [|f_equal; apply alike_on_edges; reflexivity].
  apply alike_on_nodes. reflexivity.
Qed.
Lemma d_control_alike t0 last x c : d_evaluate_d_control N' t0 s last x c = d_evaluate_d_control N t0 s last x c.
Proof. unfold d_evaluate_d_control. f_equal. apply alike_on_edges. reflexivity. Qed.
End Network.

(** ** The simulation *)
Section Simulation.
Variables (E LU : Type) (net net' : E -> network) (prepare prepare' : E -> R -> R -> vec -> list R -> outcome E)
  (factor factor' : E -> R -> R -> vec -> list R -> vec -> option LU) (linsolve : LU -> vec -> vec) (n : nat).
Let P := network_problem E LU n net prepare factor linsolve.
Let P' := network_problem E LU n net' prepare' factor' linsolve.
Variables (fuel sfuel : nat) (cfg : tsettings) (cs cs' : ivec).
Definition agree (t : R) : Prop :=
  (forall e, same_at t (net e) (net' e)) /\ (forall e t0 last c, prepare' e t0 t last c = prepare e t0 t last c) /\
  (forall e t0 last c x, factor' e t0 t last c x = factor e t0 t last c x) /\ current_controls cs' t = current_controls cs t.

Let run (ev : vec -> vec) (fac : vec -> option LU) : bool -> vec -> nresult (vec * solution) :=
  solve {| ns_vec := vec; ns_lu := LU; ns_eval := ev; ns_norm := fun r => Fin (euclidean_norm n r);
           ns_move := fun x l s k => x k + l * s k; ns_neg := fun s k => - s k; ns_factor := fac; ns_linsolve := linsolve |} fuel (newton cfg).
Lemma time_step_agree t0 t1 last new c e : agree t1 ->
  time_step P' fuel sfuel cfg t0 t1 last new c e = time_step P fuel sfuel cfg t0 t1 last new c e.
Proof.
  intros (HN & HP & HF & _). unfold time_step.
  change (make_one_step (fun e => prepare' e t0 t1 last c)
    (fun e full x => run (pr_eval P' e t0 t1 last c) (pr_factor P' e t0 t1 last c) full x) sfuel cfg new e
    = make_one_step (fun e => prepare e t0 t1 last c)
    (fun e full x => run (pr_eval P e t0 t1 last c) (pr_factor P e t0 t1 last c) full x) sfuel cfg new e).
  f_equal; apply functional_extensionality; intro e1.
  - apply HP.
  - assert (E1 : (pr_eval P' e1 t0 t1 last c : vec -> vec) = pr_eval P e1 t0 t1 last c).
    { apply functional_extensionality. intro x. unfold P, P'. cbn [network_problem pr_eval]. rewrite (evaluate_alike t1 _ _ (HN e1)). reflexivity. }
    assert (E2 : (pr_factor P' e1 t0 t1 last c : vec -> option LU) = pr_factor P e1 t0 t1 last c).
    { apply functional_extensionality. intro x. apply HF. }
    rewrite E1, E2. reflexivity.
Qed.
Lemma loop_agree ts : (forall t, In t ts -> agree t) -> forall t last new e,
  simulate_loop P' fuel sfuel cfg cs' ts t last new e = simulate_loop P fuel sfuel cfg cs ts t last new e.
Proof.
  induction ts as [|t1 ts IH]; intros H t last new e; [reflexivity|]. cbn [simulate_loop]. pose proof (H t1 (or_introl eq_refl)) as (_ & _ & _ & ->).
  destruct (current_controls cs t1) as [c| |]; [|reflexivity|reflexivity].
  rewrite time_step_agree by (apply H; left; reflexivity). destruct (time_step P fuel sfuel cfg t t1 last new c e) as (([[[y sol]| |]|] & e') & log); try reflexivity.
  destruct (success sol); [|reflexivity]. rewrite IH by (intros; apply H; right; assumption). reflexivity.
Qed.
Lemma simulate_agree points initial e : (forall t, In t (tl points) -> agree t) ->
  simulate P' fuel sfuel cfg cs' points initial e = simulate P fuel sfuel cfg cs points initial e.
Proof.
  intro H. destruct points as [|t0 [|t1 rest]]; [reflexivity|reflexivity|]. cbn [simulate]. pose proof (H t1 (or_introl eq_refl)) as (_ & _ & _ & ->).
  destruct (current_controls cs t1) as [c| |]; [|reflexivity|reflexivity]. rewrite loop_agree by exact H. reflexivity.
Qed.
End Simulation.

(** ** Stopping earlier *)
Section Prefix.
Variables (P : problem) (fuel sfuel : nat) (cfg : tsettings) (cs : ivec).
Lemma loop_prefix k : forall ts t last new e rows e', simulate_loop P fuel sfuel cfg cs ts t last new e = (Some (Ok rows), e') ->
  exists e'', simulate_loop P fuel sfuel cfg cs (firstn k ts) t last new e = (Some (Ok (firstn k rows)), e'').
Proof.
  induction k as [|k IH]; intros ts t last new e rows e' H; [exists e; reflexivity|].
  destruct ts as [|t1 ts]; [cbn in H; injection H as <- <-; exists e; reflexivity|]. cbn [firstn simulate_loop] in *.
  destruct (current_controls cs t1) as [c| |]; try discriminate.
  destruct (time_step P fuel sfuel cfg t t1 last new c e) as (([[[y sol]| |]|] & e1) & log); try discriminate.
  destruct (success sol); [|discriminate].
  destruct (simulate_loop P fuel sfuel cfg cs ts t1 y y e1) as ([[rows1| |]|] & e2) eqn:L; try discriminate. injection H as <- <-.
  destruct (IH ts t1 y y e1 rows1 e2 L) as (e3 & ->). exists e3. reflexivity.
Qed.
Lemma simulate_prefix k points initial e rows e' : (2 <= k)%nat -> simulate P fuel sfuel cfg cs points initial e = (Some (Ok rows), e') ->
  exists e'', simulate P fuel sfuel cfg cs (firstn k points) initial e = (Some (Ok (firstn k rows)), e'').
Proof.
  intros Hk H. destruct points as [|t0 [|t1 rest]]; try discriminate. destruct k as [|[|k]]; try lia. cbn [firstn simulate] in *.
  destruct (current_controls cs t1) as [c| |]; try discriminate.
  destruct (simulate_loop P fuel sfuel cfg cs (t1 :: rest) t0 initial initial e) as ([[rows1| |]|] & e2) eqn:L; try discriminate. injection H as <- <-.
  destruct (loop_prefix (S k) (t1 :: rest) t0 initial initial e rows1 e2 L) as (e3 & L'). cbn [firstn] in L'. rewrite L'. exists e3. reflexivity.
Qed.
Lemma loop_length ts : forall t y y' e rows e', simulate_loop P fuel sfuel cfg cs ts t y y' e = (Some (Ok rows), e') -> length rows = length ts.
Proof.
  induction ts as [|t1 ts IH]; intros t y y' e rows e' H; [cbn in H; injection H as <- <-; reflexivity|]. cbn [simulate_loop] in H.
  destruct (current_controls cs t1) as [c| |]; try discriminate.
  destruct (time_step P fuel sfuel cfg t t1 y y' c e) as (([[[y1 sol]| |]|] & e1) & log); try discriminate.
  destruct (success sol); [|discriminate].
  destruct (simulate_loop P fuel sfuel cfg cs ts t1 y1 y1 e1) as ([[rows1| |]|] & e2) eqn:L; try discriminate. injection H as <- <-. cbn. f_equal. eapply IH; exact L.
Qed.
Lemma skipn_next {A} (d : A) l : forall k, (k < length l)%nat -> skipn k l = nth k l d :: skipn (S k) l.
Proof. induction l as [|a l IH]; intros [|k] H; cbn in H; try lia; [reflexivity|]. cbn [skipn nth]. apply IH. lia. Qed.
Lemma loop_restart k : forall ts t y e rows e', simulate_loop P fuel sfuel cfg cs ts t y y e = (Some (Ok rows), e') ->
  exists e1, simulate_loop P fuel sfuel cfg cs (firstn k ts) t y y e = (Some (Ok (firstn k rows)), e1) /\
    ((k < length ts)%nat -> simulate_loop P fuel sfuel cfg cs (skipn k ts) (nth k (t :: ts) 0) (nth k (y :: rows) y) (nth k (y :: rows) y) e1 = (Some (Ok (skipn k rows)), e')).
Proof.
  induction k as [|k IH]; intros ts t y e rows e' H; [exists e; split; [reflexivity|intros _; exact H]|].
  destruct ts as [|t1 ts]; [cbn in H; injection H as <- <-; exists e; split; [reflexivity|cbn; lia]|]. cbn [firstn simulate_loop] in *.
  destruct (current_controls cs t1) as [c| |]; try discriminate.
  destruct (time_step P fuel sfuel cfg t t1 y y c e) as (([[[y1 sol]| |]|] & e1) & log); try discriminate.
  destruct (success sol); [|discriminate].
  destruct (simulate_loop P fuel sfuel cfg cs ts t1 y1 y1 e1) as ([[rows1| |]|] & e2) eqn:L; try discriminate. injection H as <- <-.
  destruct (IH ts t1 y1 e1 rows1 e2 L) as (e3 & A & B). exists e3. rewrite A. split; [reflexivity|]. cbn [length skipn]. intro Hk.
  assert (Hk' : (k < length ts)%nat) by lia. specialize (B Hk').
  change (nth (S k) (t :: t1 :: ts) 0) with (nth k (t1 :: ts) 0). change (nth (S k) (y :: y1 :: rows1) y) with (nth k (y1 :: rows1) y).
  rewrite (nth_indep (y1 :: rows1) y y1); [exact B|].
  cbn. rewrite (loop_length _ _ _ _ _ _ _ L). lia.
Qed.
Lemma loop_controls t1 ts t y e rows e' : simulate_loop P fuel sfuel cfg cs (t1 :: ts) t y y e = (Some (Ok rows), e') -> exists c, current_controls cs t1 = Ok c.
Proof. cbn [simulate_loop]. destruct (current_controls cs t1) as [c| |]; try discriminate. eauto. Qed.
Lemma simulate_restart k points initial e rows e' : (2 <= k < length points)%nat -> simulate P fuel sfuel cfg cs points initial e = (Some (Ok rows), e') ->
  exists e1, simulate P fuel sfuel cfg cs (firstn k points) initial e = (Some (Ok (firstn k rows)), e1) /\
    simulate P fuel sfuel cfg cs (skipn (k - 1) points) (nth (k - 1) rows initial) e1 = (Some (Ok (skipn (k - 1) rows)), e').
Proof.
  intros Hk H. destruct points as [|t0 [|t1 rest]]; try discriminate. destruct k as [|[|k]]; try lia. cbn [firstn simulate length] in *.
  destruct (current_controls cs t1) as [c| |]; try discriminate.
  destruct (simulate_loop P fuel sfuel cfg cs (t1 :: rest) t0 initial initial e) as ([[rows1| |]|] & e2) eqn:L; try discriminate. injection H as <- <-.
  destruct (loop_restart (S k) (t1 :: rest) t0 initial e rows1 e2 L) as (e3 & A & B). cbn [firstn] in A. rewrite A. exists e3. split; [reflexivity|].
  cbn [length] in B. specialize (B ltac:(lia)). replace (S (S k) - 1)%nat with (S k) by lia.
  pose proof (loop_length _ _ _ _ _ _ _ L) as Len. cbn [length] in Len.
  change (skipn (S k) (t0 :: t1 :: rest)) with (skipn k (t1 :: rest)). change (skipn (S k) (initial :: rows1)) with (skipn k rows1).
  rewrite (skipn_next 0 (t1 :: rest) k) by (cbn; lia).
  destruct (skipn (S k) (t1 :: rest)) as [|t2 rest2] eqn:Es; [exfalso; pose proof (skipn_length (S k) (t1 :: rest)) as Q; rewrite Es in Q; cbn in Q; lia|].
  change (nth (S k) (t0 :: t1 :: rest) 0) with (nth k (t1 :: rest) 0) in B. cbn [simulate].
  destruct (loop_controls _ _ _ _ _ _ _ B) as (c' & ->). rewrite B. f_equal. f_equal. f_equal.
  rewrite (skipn_next initial rows1 k) by lia. reflexivity.
Qed.
Lemma last_next {A} (l : list A) : forall a d, last (a :: l) d = last l a.
Proof. induction l as [|b l IH]; intros a d; [reflexivity|]. change (last (a :: b :: l) d) with (last (b :: l) d). rewrite IH. symmetry. apply IH. Qed.
Lemma loop_join ts2 rows2 e' ts1 : forall t y e rows1 e1,
  simulate_loop P fuel sfuel cfg cs ts1 t y y e = (Some (Ok rows1), e1) ->
  simulate_loop P fuel sfuel cfg cs ts2 (last ts1 t) (last rows1 y) (last rows1 y) e1 = (Some (Ok rows2), e') ->
  simulate_loop P fuel sfuel cfg cs (ts1 ++ ts2) t y y e = (Some (Ok (rows1 ++ rows2)), e').
Proof.
  induction ts1 as [|t1 ts1 IH]; intros t y e rows1 e1 H H2; [cbn in H; injection H as <- <-; exact H2|]. cbn [app simulate_loop] in *.
  destruct (current_controls cs t1) as [c| |]; try discriminate.
  destruct (time_step P fuel sfuel cfg t t1 y y c e) as (([[[y1 sol]| |]|] & e0) & log); try discriminate.
  destruct (success sol); [|discriminate].
  destruct (simulate_loop P fuel sfuel cfg cs ts1 t1 y1 y1 e0) as ([[rows| |]|] & e2) eqn:L; try discriminate. injection H as <- <-.
  rewrite !last_next in H2. rewrite (IH t1 y1 e0 rows e2 L H2). reflexivity.
Qed.
Lemma last_nth' {A} (l : list A) : forall d, last l d = nth (length l - 1) l d.
Proof.
  induction l as [|a l IH]; intro d; [reflexivity|]. rewrite last_next, IH. destruct l as [|b l]; [reflexivity|].
  replace (length (b :: l) - 1)%nat with (length l) by (cbn; lia). replace (length (a :: b :: l) - 1)%nat with (S (length l)) by (cbn; lia).
  change (nth (S (length l)) (a :: b :: l) d) with (nth (length l) (b :: l) d). apply nth_indep. cbn. lia.
Qed.
Lemma simulate_join k points initial e rows1 e1 rows2 e' : (2 <= k < length points)%nat ->
  simulate P fuel sfuel cfg cs (firstn k points) initial e = (Some (Ok rows1), e1) ->
  simulate P fuel sfuel cfg cs (skipn (k - 1) points) (nth (k - 1) rows1 initial) e1 = (Some (Ok rows2), e') ->
  simulate P fuel sfuel cfg cs points initial e = (Some (Ok (rows1 ++ tl rows2)), e').
Proof.
  intros Hk H H2. destruct points as [|t0 [|t1 rest]]; cbn [length] in Hk; try lia. destruct k as [|[|k]]; try lia. cbn [firstn simulate] in *.
  destruct (current_controls cs t1) as [c| |]; try discriminate.
  destruct (simulate_loop P fuel sfuel cfg cs (t1 :: firstn k rest) t0 initial initial e) as ([[r1| |]|] & e3) eqn:L; try discriminate. injection H as <- <-.
  pose proof (loop_length _ _ _ _ _ _ _ L) as Len. cbn [length] in Len. rewrite firstn_length_le in Len by lia.
  replace (S (S k) - 1)%nat with (S k) in H2 by lia. change (skipn (S k) (t0 :: t1 :: rest)) with (skipn k (t1 :: rest)) in H2.
  change (nth (S k) (initial :: r1) initial) with (nth k r1 initial) in H2.
  rewrite (skipn_next 0 (t1 :: rest) k) in H2 by (cbn; lia).
  destruct (skipn (S k) (t1 :: rest)) as [|t2 rest2] eqn:Es; [discriminate|]. cbn [simulate] in H2.
  destruct (current_controls cs t2) as [c2| |]; try discriminate.
  destruct (simulate_loop P fuel sfuel cfg cs (t2 :: rest2) (nth k (t1 :: rest) 0) (nth k r1 initial) (nth k r1 initial) e3) as ([[r2| |]|] & e4) eqn:L2; try discriminate.
  injection H2 as <- <-. cbn [tl].
  assert (Ea : t1 :: rest = (t1 :: firstn k rest) ++ t2 :: rest2) by (rewrite <- Es; symmetry; exact (firstn_skipn (S k) (t1 :: rest))).
  rewrite Ea. rewrite (loop_join (t2 :: rest2) r2 e4 (t1 :: firstn k rest) t0 initial e r1 e3 L); [reflexivity|].
  assert (E1 : last (t1 :: firstn k rest) t0 = nth k (t1 :: rest) 0).
  { rewrite last_nth'. cbn [length]. rewrite firstn_length_le by lia. replace (S k - 1)%nat with k by lia. rewrite Ea, app_nth1 by (cbn; rewrite firstn_length_le; lia). apply nth_indep. cbn. rewrite firstn_length_le; lia. }
  assert (E2 : last r1 initial = nth k r1 initial) by (rewrite last_nth', Len; f_equal; lia).
  rewrite E1, E2. exact L2.
Qed.
End Prefix.

(** ** Tables of controls *)
Lemma segment_rows (w1 w2 : list R) m i : length w1 = length w2 ->
  (forall k, (k < m)%nat -> nth (i * m + k) w1 0 = nth (i * m + k) w2 0) ->
  segment w1 (i * m) m = segment w2 (i * m) m.
Proof.
  intros L H. unfold segment. rewrite L. destruct (Nat.leb_spec (i * m + m) (length w2)) as [Q|]; [|reflexivity]. f_equal.
  apply (nth_ext _ _ 0 0); [rewrite !firstn_length, !skipn_length; lia|].
  intros k Hk. rewrite firstn_length, skipn_length in Hk.
  assert (F : forall (l : list R) a n j, (j < n)%nat -> nth j (firstn n (skipn a l)) 0 = nth (a + j) l 0).
  { intros l a n j Hj. transitivity (nth j (skipn a l) 0).
    - clear -Hj. revert n j Hj. induction (skipn a l) as [|y l0 IH]; intros [|n] [|j] Hj; cbn; try reflexivity; try lia. apply IH. lia.
    - clear. revert l. induction a as [|a IH]; intros l; [reflexivity|]. destruct l; [destruct j; reflexivity|]. cbn. apply IH. }
  rewrite !F by lia. apply H. lia.
Qed.
Lemma interp_past pts m w1 w2 t : increasing pts -> length w1 = length w2 ->
  (forall i k, (i < length pts)%nat -> counts pts t i -> (k < m)%nat -> nth (i * m + k) w1 0 = nth (i * m + k) w2 0) ->
  interp_at (mk_ivec pts m w1) t = interp_at (mk_ivec pts m w2) t.
Proof.
  intros S L H. unfold interp_at. cbn [ipoints iinner ivalues]. destruct pts as [|p0 ps]; [reflexivity|]. set (pts := p0 :: ps) in *.
  assert (R : forall i, (i < length pts)%nat -> counts pts t i -> segment w1 (i * m) m = segment w2 (i * m) m) by (intros; apply segment_rows; auto).
  destruct (Rleb (last pts 0) t) eqn:A.
  - destruct (Rltb (last pts 0 + EPSILON) t); [reflexivity|]. apply R; [cbn; lia|]. unfold Rleb in A. destruct (Rle_dec (last pts 0) t) as [Q|]; [|discriminate].
    destruct ps as [|p1 ps']; [left; reflexivity|]. right.
    destruct (nth_error pts (length pts - 1 - 1)) as [s|] eqn:E; [|apply nth_error_None in E; cbn in E; lia]. exists s. split; [reflexivity|].
    apply Rlt_le_trans with (last pts 0); [|exact Q]. clear -S E. subst pts. revert p0 p1 S E. induction ps' as [|p2 ps' IH]; intros p0 p1 S E.
    + cbn in E. injection E as <-. cbn. inversion S as [|? ? _ F]. inversion F; assumption.
    + change (last (p0 :: p1 :: p2 :: ps') 0) with (last (p1 :: p2 :: ps') 0). apply (IH p1 p2); [inversion S; assumption|].
      cbn in E |- *. rewrite ?Nat.sub_0_r in *. exact E.
  - destruct (Rleb t p0); [destruct (Rltb t _); [reflexivity|]; apply (R 0%nat); [cbn; lia|left; reflexivity]|].
    destruct (lower_bound pts t =? 0)%nat eqn:Z; [reflexivity|]. apply Nat.eqb_neq in Z.
    set (it := lower_bound pts t) in *. destruct (get pts it) as [tn| |] eqn:G; cbn [obind]; [|reflexivity|reflexivity].
    destruct (get pts (it - 1)) as [tp| |] eqn:G'; cbn [obind]; [|reflexivity|reflexivity].
    apply get_Ok in G. apply get_Ok in G'.
    assert (I : (it < length pts)%nat) by (apply nth_error_Some; congruence).
    assert (B : forall i a, (i < it)%nat -> nth_error pts i = Some a -> a < t) by (intros i a Hi; apply (lower_bound_before pts t i a); exact Hi).
    rewrite (R it I) by (right; exists tp; split; [exact G'|apply (B (it - 1)%nat); [lia|exact G']]).
    replace (it * m - m)%nat with ((it - 1) * m)%nat by nia. rewrite (R (it - 1)%nat); [reflexivity|lia|].
    destruct (Nat.eq_dec (it - 1) 0) as [Q|Q]; [left; exact Q|right].
    destruct (nth_error pts (it - 1 - 1)) as [s|] eqn:Es; [|apply nth_error_None in Es; lia].
    exists s. split; [reflexivity|]. apply (B (it - 1 - 1)%nat); [lia|exact Es].
Qed.
Lemma controls_past pts m w1 w2 t t' : increasing pts -> length w1 = length w2 -> t' <= t ->
  (forall i k, (i < length pts)%nat -> counts pts t i -> (k < m)%nat -> nth (i * m + k) w1 0 = nth (i * m + k) w2 0) ->
  current_controls (mk_ivec pts m w1) t' = current_controls (mk_ivec pts m w2) t'.
Proof.
  intros S L T H. unfold current_controls. cbn [iinner]. destruct (0 <? m)%nat; [|reflexivity]. apply interp_past; [exact S|exact L|].
  intros i k Hi [->|(s & E & Q)] Hk; apply H; try assumption; [left; reflexivity|right; exists s; split; [exact E|lra]].
Qed.
Lemma same_at_refl t N : same_at t N N.
Proof. split; [|reflexivity]. induction (nodes N) as [|x l IH]; constructor; [destruct x; constructor; reflexivity|exact IH]. Qed.
