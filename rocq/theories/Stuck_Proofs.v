(** Directions that all rows of the Jacobian map to zero, in every state. *)
From Coq Require Import Reals Lra Lia List Arith Bool Permutation.
From Coquelicot Require Import Coquelicot Complex.
From Verif Require Import Base Interp_Model Calc Euler_Model Euler_Spec Box_Model Net_Model Net_Spec Net_Proofs Net_Proofs2 Net_Proofs3 Net_Proofs4 Net_Proofs5 Net_Proofs6
  Net_Proofs7 Net_Proofs8 Net_Proofs9 Net_Props Mass_Proofs Grid_Spec Grid_Proofs Grid_Proofs2 Level_Spec Level_Proofs Level_Proofs2.
Import ListNotations.
Local Open Scope R_scope.

(** ** Lists of entries that map a direction to zero *)
Definition kills (w : vec) (o : outcome (list entry)) : Prop :=
  match o with Ok ts => forall r, tdot ts r w = 0 | _ => True end.
Lemma kills_oapp w a b : kills w a -> kills w b -> kills w (oapp a b).
Proof. intros A B. destruct a; cbn in *; auto. destruct b; cbn in *; auto. intro r. rewrite tdot_app, A, B. ring. Qed.
Lemma kills_concat {A} w (f : A -> outcome (list entry)) l : (forall a, In a l -> kills w (f a)) -> kills w (oconcat (map f l)).
Proof.
  induction l as [|a l IH]; intro H; [cbn; reflexivity|].
  change (kills w (oapp (f a) (oconcat (map f l)))).
  apply kills_oapp; [apply H; left; reflexivity|]. apply IH. intros; apply H; right; assumption.
Qed.
Lemma kills_cols w ts : (forall t, In t ts -> w (snd (fst t)) = 0) -> kills w (Ok ts).
Proof.
  intros H r. induction ts as [|t ts IH]; [reflexivity|]. rewrite tdot_cons, IH by (intros; apply H; right; assumption).
  rewrite (H t (or_introl eq_refl)). destruct (Nat.eqb (fst (fst t)) r); ring.
Qed.
(** Entries outside of the matrix do not matter if the direction is zero there. *)
Lemma tdot_matrix' n ts r w : (forall k, (n <= k)%nat -> w k = 0) ->
  vsum n (fun c => matrix_of ts r c * w c) = tdot ts r w.
Proof.
  intro Z. induction ts as [|[[r' c'] v] ts IH]; cbn [tdot fold_right fst snd].
  - rewrite (vsum_ext _ _ (fun _ => 0)); [apply vsum_zero|]. intros; cbn. ring.
  - fold (tdot ts r w). rewrite <- IH.
    destruct (Nat.lt_ge_cases c' n) as [Hc|Hc].
    + rewrite (vsum_ext _ _ (fun c => (if Nat.eqb c c' then 1 else 0) * ((if Nat.eqb r' r then v else 0) * w c)
                               + matrix_of ts r c * w c)).
      * rewrite vsum_plus, vsum_delta by auto. f_equal. destruct (Nat.eqb r' r); ring.
      * intros c _. cbn [matrix_of fold_right fst snd]. fold (matrix_of ts r c).
        destruct (Nat.eqb_spec c c') as [->|Ne].
        -- rewrite Nat.eqb_refl, Bool.andb_true_r. ring.
        -- destruct (Nat.eqb_spec c' c); [congruence|]. rewrite Bool.andb_false_r. ring.
    + rewrite (Z c' Hc). transitivity (vsum n (fun c => matrix_of ts r c * w c)); [|destruct (Nat.eqb r' r); ring].
      apply vsum_ext. intros c Hn. cbn [matrix_of fold_right fst snd]. fold (matrix_of ts r c).
      destruct (Nat.eqb_spec c' c); [lia|]. rewrite Bool.andb_false_r. ring.
Qed.

(** ** Nodes *)
Lemma pder_dot (f : direction * gasedge -> R) h w x rest : forall oeq leq r,
  (forall de a b row, In de rest -> tdot (end_entries de (v2 a b) row x) r w = if Nat.eqb row r then a * h + b * f de else 0) ->
  tdot (pder rest x oeq leq) r w =
    (match rest with [] => 0 | _ => if Nat.eqb oeq r then h else 0 end)
    + (if Nat.eqb leq r then rsum (fun de => dsign (fst de) * f de) rest else 0).
Proof.
  induction rest as [|de rest IH]; intros oeq leq r H; [cbn; destruct (Nat.eqb leq r); ring|].
  cbn [pder]. rewrite !tdot_app. rewrite !(H de) by (left; reflexivity). rewrite IH by (intros; apply H; right; assumption).
  cbn [rsum]. destruct rest as [|de' rest].
  - cbn [tdot fold_right rsum]. destruct (Nat.eqb oeq r), (Nat.eqb leq r); ring.
  - rewrite (H de) by (left; reflexivity). destruct (Nat.eqb oeq r), (Nat.eqb leq r), (Nat.eqb (end_row de) r); ring.
Qed.
Lemma pflow_dot (f : direction * gasedge -> R) h w x att r :
  (forall de a b row, In de att -> tdot (end_entries de (v2 a b) row x) r w = if Nat.eqb row r then a * h + b * f de else 0) ->
  rsum (fun de => dsign (fst de) * f de) att = 0 -> tdot (pflow_d att x) r w = 0.
Proof.
  intros H Z. destruct att as [|de rest]; [reflexivity|]. unfold pflow_d. cbv zeta. rewrite tdot_app, (H de) by (left; reflexivity).
  cbn [rsum] in Z. destruct rest as [|de' rest].
  - cbn [tdot fold_right rsum] in *. destruct (Nat.eqb _ r); lra.
  - rewrite tdot_app, (H de) by (left; reflexivity). rewrite (pder_dot f h) by (intros; apply H; right; assumption).
    destruct (Nat.eqb (end_row (last (de :: de' :: rest) de)) r), (Nat.eqb (end_row de) r); lra.
Qed.

Section Killed.
Variable N : network.
Variables h z : nat -> R.
Variable w : vec.
Hypothesis W : well_formed N.
Hypothesis U : unseen N h z.
Hypothesis Wg : forall i e d, nth_error (edges N) i = Some e -> gas_end e d ->
  w (end_position N i d) = h (end_node e d) /\ w (end_position N i d + 1)%nat = z i.
Hypothesis Wp : forall i e d k dx np, nth_error (edges N) i = Some e -> e_type e = EPipe d k dx np ->
  forall m, (fst (edge_block N i) <= m < fst (edge_block N i) + 2 * np)%nat -> w m = 0.
Hypothesis Wv : forall j, is_power_node N j -> w (fst (node_block N j)) = 0.
Hypothesis Wf : forall j ext G B b, nth_error (nodes N) j = Some (Powernode Vphi ext G B b) -> w (fst (node_block N j) + 1)%nat = 0.
Hypothesis PQk : forall j s x, is_power_node N j ->
  P (power_of N j) (fun k => x k + s * w k) = P (power_of N j) x /\ Q (power_of N j) (fun k => x k + s * w k) = Q (power_of N j) x.

Lemma line_curve x : curve_at (fun s k => x k + s * w k) 0 x w.
Proof. split; [intro k; ring|]. intro k. auto_derive; [exact Logic.I|ring]. Qed.
Lemma constant_derivative (f : R -> R) d : (forall s, f s = f 0) -> is_derive f 0 d -> d = 0.
Proof.
  intros H D. assert (Z : is_derive f 0 0).
  { apply (is_derive_ext (fun _ => f 0)); [intro; symmetry; apply H|]. exact (is_derive_const (K := R_AbsRing) (V := R_NormedModule) (f 0) 0). }
  pose proof (is_derive_unique _ _ _ D) as E. pose proof (is_derive_unique _ _ _ Z) as E'. rewrite E in E'. exact E'.
Qed.
Lemma P_killed j row x : is_power_node N j -> kills w (evaluate_P_derivative (power_of N j) row x).
Proof.
  intro H. destruct (power_known N j W H) as (_ & l & Hl & _). rewrite (dP_ok _ l _ _ Hl). intro r.
  destruct (Nat.eq_dec r row) as [->|D]; [|exact (tdot_other row _ r w (P_entries_rows _ _ _ _) D)].
  apply (constant_derivative (fun s => Pval (power_of N j) l (fun k => x k + s * w k))).
  - intro s. destruct (PQk j s x H) as (A & _). destruct (PQk j 0 x H) as (A' & _). rewrite !(P_ok _ l) in A, A' by exact Hl. congruence.
  - apply (P_derive _ l row (fun s k => x k + s * w k) 0 x w (line_curve x)).
Qed.
Lemma Q_killed j row x : is_power_node N j -> kills w (evaluate_Q_derivative (power_of N j) row x).
Proof.
  intro H. destruct (power_known N j W H) as (_ & l & Hl & _). rewrite (dQ_ok _ l _ _ Hl). intro r.
  destruct (Nat.eq_dec r row) as [->|D]; [|exact (tdot_other row _ r w (Q_entries_rows _ _ _ _) D)].
  apply (constant_derivative (fun s => Qval (power_of N j) l (fun k => x k + s * w k))).
  - intro s. destruct (PQk j s x H) as (_ & A). destruct (PQk j 0 x H) as (_ & A'). rewrite !(Q_ok _ l) in A, A' by exact Hl. congruence.
  - apply (Q_derive _ l row (fun s k => x k + s * w k) 0 x w (line_curve x)).
Qed.
Lemma end_dot j de a b row x r : is_gas_node N j -> In de (attached_gas N j) ->
  tdot (end_entries de (v2 a b) row x) r w = if Nat.eqb row r then a * h j + b * z (ge_addr (snd de)) else 0.
Proof.
  intros Hg Hin. destruct (attached_facts N j W Hg) as (F & _). rewrite List.Forall_forall in F. pose proof (F _ Hin) as E.
  destruct de as [d g]. apply attached_iff in Hin. destruct Hin as (i & e & H1 & H2 & H3).
  pose proof (gas_end_of N W i e g d H1 H2 E) as G. destruct (Wg i e d H1 G) as (A & B).
  destruct (gas_of_kind N i e g H2) as (Ka & Kb & Kk & NL). cbn [snd]. rewrite Ka.
  assert (Ei : end_index d g = end_position N i d) by (unfold end_index, end_position; rewrite <- Kb; reflexivity).
  assert (Hh : h (end_node e d) = h j) by (destruct d; cbn in *; rewrite H3; reflexivity). rewrite Hh in A.
  unfold end_entries. cbn [fst snd]. rewrite Ei. cbn [tdot fold_right fst snd]. rewrite A, B.
  assert (Pp : (exists dd k dx np, e_type e = EPipe dd k dx np) -> h j = 0 /\ z i = 0).
  { intros (dd & k & dx & np & Ty). destruct U as (_ & U2 & _). specialize (U2 i e H1). rewrite Ty in U2. destruct U2 as (X1 & X2 & X3).
    split; [rewrite <- Hh; destruct d; assumption|exact X3]. }
  rewrite Kk. destruct (e_type e) as [dd k dx np| | | | |G' B'] eqn:Ty; try (destruct (Nat.eqb row r); cbn; ring).
  - destruct (Pp ltac:(eauto)) as (-> & ->). destruct (Nat.eqb row r); ring.
  - exfalso. exact (NL _ _ eq_refl).
Qed.
Lemma flow_total j : rsum (fun de => dsign (fst de) * z (ge_addr (snd de))) (attached_gas N j) = divergence N z j.
Proof.
  unfold attached_gas, divergence, gas_list. rewrite rsum_app, !rsum_flat, !rsum_filter, rsum_plus.
  apply rsum_ext. intros [i e] _. cbn [fst snd].
  destruct (gas_of N i e) as [g|] eqn:E.
  - assert (C : carries_gas e = true) by (apply (gas_carries N i e); eauto). rewrite C.
    destruct (gas_of_kind N i e g E) as (K & _). cbn [rsum fst snd dsign]. rewrite K.
    destruct (Nat.eqb (e_from e) j), (Nat.eqb (e_to e) j); ring.
  - destruct (carries_gas e) eqn:C; [apply (gas_carries N i e) in C; destruct C; congruence|].
    cbn [rsum]. destruct (Nat.eqb (e_from e) j), (Nat.eqb (e_to e) j); ring.
Qed.
Lemma node_killed j t x : nth_error (nodes N) j = Some t -> kills w (node_d_new_state N j t x).
Proof.
  intro H. destruct U as (U1 & _ & U3).
  assert (Fl : balances N j -> kills w (flow_derivative (attached_gas N j) x)).
  { intro Hb. assert (Hg : is_gas_node N j) by (unfold is_gas_node, balances in *; destruct (nth_error (nodes N) j) as [[]|]; tauto).
    rewrite flow_d_ok; [|apply (attached_facts N j W Hg)|apply nodup_ends, attached_nodup; exact W].
    intro r. apply (pflow_dot (fun de => z (ge_addr (snd de))) (h j)).
    - intros de a b row Hd. apply end_dot; assumption.
    - rewrite flow_total. apply U3. exact Hb. }
  unfold node_d_new_state. destruct t as [|sink b|b|k ext G' B b].
  - apply Fl. unfold balances. rewrite H. exact Logic.I.
  - apply Fl. unfold balances. rewrite H. exact Logic.I.
  - assert (Hg : is_gas_node N j) by (unfold is_gas_node; rewrite H; exact Logic.I).
    unfold pressure_derivative. apply kills_concat. intros [d g] Hd.
    destruct (attached_facts N j W Hg) as (F & _). rewrite List.Forall_forall in F. pose proof (F _ Hd) as E.
    pose proof (end_entries_ok (d, g) (v2 1 0) (boundary_equation_index d g) x E) as Eo. cbn [fst snd] in Eo. rewrite Eo.
    intro r. rewrite (end_dot j) by assumption. rewrite (U1 j b H). destruct (Nat.eqb _ r); ring.
  - assert (Hp : is_power_node N j) by (unfold is_power_node; rewrite H; exact Logic.I).
    assert (SV : pn_start (power_of N j) = fst (node_block N j)) by (unfold power_of; rewrite H; reflexivity).
    unfold power_d_new_state. destruct k.
    + apply kills_oapp; [apply P_killed|apply Q_killed]; exact Hp.
    + apply kills_oapp; [apply P_killed; exact Hp|]. apply kills_cols. intros t [<-|[]]. cbn. rewrite SV. apply Wv. exact Hp.
    + apply kills_cols. intros t [<-|[<-|[]]]; cbn; rewrite SV; [apply Wv; exact Hp|eapply Wf; exact H].
Qed.
Lemma edge_killed i e g t0 t1 last c x : nth_error (edges N) i = Some e -> gas_of N i e = Some g ->
  kills w (edge_d_new_state g t0 t1 last x c).
Proof.
  intros He Hg. destruct (gas_of_size N i e g W He Hg) as (Sz & _ & Af). destruct (gas_of_kind N i e g Hg) as (_ & E & K & NL).
  assert (Es : ge_start g = fst (edge_block N i)) by (rewrite <- E; reflexivity).
  pose proof W as W'. unfold well_formed in W'. rewrite List.Forall_forall in W'. destruct (W' e (nth_error_In _ _ He)) as (_ & Ke).
  unfold edge_d_new_state. unfold gas_size in Sz.
  assert (Ix : forall d, short e -> boundary_state_index d g = Ok (end_position N i d) ->
     w (end_position N i d) = h (e_from e) /\ w (end_position N i d + 1)%nat = z i).
  { intros d S _. assert (G : gas_end e d) by (unfold gas_end, short in *; destruct (e_type e), d; tauto).
    destruct (Wg i e d He G) as (A & B). rewrite A, B. split; [|reflexivity].
    destruct U as (_ & U2 & _). pose proof (U2 i e He) as U3. unfold short in S. destruct (e_type e); try (destruct S; fail);
      destruct d; cbn [end_node]; rewrite ?U3; reflexivity. }
  assert (Si : forall d, short_size g -> boundary_state_index d g = Ok (end_position N i d)).
  { intros d S. replace (end_position N i d) with (end_index d g) by (unfold end_index, end_position; rewrite <- E; reflexivity).
    apply (state_index_ok (d, g)). unfold has_end, short_size in *. cbn [fst snd]. destruct d; lia. }
  destruct (e_type e) as [d k dx np| |wt| |g2p p2g|G B] eqn:Ty; try rewrite K; try rewrite K in Sz; cbn [edge_states] in Af.
  - unfold pipe_loop. rewrite (pipe_indices_ok g np) by (split; [tauto|lia]). cbn [obind].
    apply kills_concat. intros m Hm. unfold pipe_rows in Hm. apply in_map_iff in Hm. destruct Hm as (q & <- & Hq). apply in_seq in Hq.
    unfold cell_d_new_state. cbv zeta.
    destruct (devaluate_point_d_new_left _ _ _ _ _ _ _ _) as [l| |]; cbn [obind kills]; auto.
    destruct (devaluate_point_d_new_right _ _ _ _ _ _ _ _) as [rr| |]; cbn [obind]; try exact Logic.I.
    apply kills_cols. unfold cell_entries. cbn [In].
    intros t Ht. apply (Wp i e d k dx np He Ty).
    repeat (destruct Ht as [<-|Ht]; [cbn [fst snd]; lia|]). destruct Ht.
  - rewrite !Si by exact Sz. cbn [obind]. pose proof (fun d => Ix d ltac:(unfold short; rewrite Ty; exact Logic.I) (Si d Sz)) as I2.
    destruct (I2 dstart) as (A1 & A2). destruct (I2 dend) as (B1 & B2).
    intro r. cbn [tdot fold_right fst snd]. rewrite A1, A2, B1, B2.
    destruct (Nat.eqb (equation_start_index g) r), (Nat.eqb (equation_start_index g + 1) r); ring.
  - rewrite !Si by exact Sz. cbn [obind]. pose proof (fun d => Ix d ltac:(unfold short; rewrite Ty; exact Logic.I) (Si d Sz)) as I2.
    destruct (I2 dstart) as (A1 & A2). destruct (I2 dend) as (B1 & B2).
    intro r. cbn [tdot fold_right fst snd]. rewrite A1, A2, B1, B2.
    destruct (Nat.eqb (equation_start_index g) r), (Nat.eqb (equation_start_index g + 1) r); ring.
  - rewrite !Si by exact Sz. cbn [obind]. pose proof (fun d => Ix d ltac:(unfold short; rewrite Ty; exact Logic.I) (Si d Sz)) as I2.
    destruct (I2 dstart) as (A1 & A2). destruct (I2 dend) as (B1 & B2).
    intro r. cbn [tdot fold_right fst snd]. rewrite A1, A2, B1, B2.
    destruct (Nat.eqb (equation_start_index g) r), (Nat.eqb (equation_start_index g + 1) r); ring.
  - cbv zeta. destruct (dgenerated_power_dq g2p p2g (x (ge_start g + 1)%nat)) as [dg| |]; cbn [obind kills]; auto.
    assert (G : gas_end e dstart) by (unfold gas_end; rewrite Ty; exact Logic.I).
    destruct (Wg i e dstart He G) as (_ & B). unfold end_position in B. rewrite <- Es in B.
    destruct U as (_ & U2 & _). pose proof (U2 i e He) as U3. rewrite Ty in U3. rewrite U3 in B.
    apply kills_oapp; [|apply kills_oapp].
    + apply kills_cols. intros t [<-|[]]. exact B.
    + apply P_killed. tauto.
    + intro r. cbn [tdot fold_right fst snd]. destruct (Nat.eqb _ r); ring.
  - exfalso. exact (NL G B eq_refl).
Qed.
Lemma all_killed t0 t1 last x c : kills w (d_evaluate_d_new_state N t0 t1 last x c).
Proof.
  unfold d_evaluate_d_new_state. cbv zeta. rewrite !oconcat_app, !on_edges_gases. unfold on_nodes.
  assert (Ed : forall sel, kills w (oconcat (map (fun g => edge_d_new_state g t0 t1 last x c) (gases N sel)))).
  { intro sel. apply kills_concat. intros g Hg. destruct (gases_in N sel g Hg) as (i & e & H1 & H2 & _).
    exact (edge_killed i e g t0 t1 last c x H1 H2). }
  apply kills_oapp; [|apply kills_oapp; apply Ed]. apply kills_concat. intros [j t] Hj. cbn [fst snd]. apply in_combine_seq in Hj.
  exact (node_killed j t x Hj).
Qed.
Lemma killed_singular t0 t1 last x c ts : (forall k, (number_of_states N <= k)%nat -> w k = 0) ->
  (exists k, (k < number_of_states N)%nat /\ w k <> 0) ->
  d_evaluate_d_new_state N t0 t1 last x c = Ok ts -> singular (number_of_states N) (matrix_of ts).
Proof.
  intros Z Ne E. exists w. split; [exact Ne|]. intros r _. rewrite tdot_matrix' by exact Z.
  pose proof (all_killed t0 t1 last x c) as K. rewrite E in K. apply K.
Qed.
End Killed.

(** ** The two kinds of directions *)
Lemma unseen_always N h z t0 t1 last x c ts : well_formed N -> unseen N h z -> seen_somewhere N h z ->
  d_evaluate_d_new_state N t0 t1 last x c = Ok ts -> singular (number_of_states N) (matrix_of ts).
Proof.
  intros W U (i & e & d & He & G & S).
  pose proof (fun s y => direction_changed N h z s y W) as DC.
  assert (D0 : forall i e d, nth_error (edges N) i = Some e -> gas_end e d ->
    change_direction N h z (end_position N i d) = h (end_node e d) /\ change_direction N h z (end_position N i d + 1)%nat = z i).
  { intros i' e' d' H' G'. destruct (proj1 (DC 1 (fun _ => 0)) i' e' d' H' G') as (A & B). lra. }
  assert (K0 : forall k, (forall s, (fun k => 0 + s * change_direction N h z k) k = (fun _ => 0) k) -> change_direction N h z k = 0).
  { intros k H. specialize (H 1). cbn in H. lra. }
  apply (killed_singular N h z (change_direction N h z) W U D0).
  - intros i' e' d' k dx np H' Ty m Hm. apply K0. intro s. exact (pipe_kept N h z s _ _ W U (DC s _) i' e' d' k dx np H' Ty m Hm).
  - intros j Hj. apply K0. intro s. refine (before_edges N h z s _ _ W (DC s (fun _ => 0)) _ _). intros i' e' H'. pose proof (node_before_edge N j i' e' Hj H'). lia.
  - intros j ext G' B b Hj. apply K0. intro s. refine (before_edges N h z s _ _ W (DC s (fun _ => 0)) _ _). intros i' e' H'.
    assert (Hp : is_power_node N j) by (unfold is_power_node; rewrite Hj; exact Logic.I). pose proof (node_before_edge N j i' e' Hp H'). lia.
  - intros j s y Hj. exact (power_kept N h z s _ _ W (DC s y) j Hj).
  - intros k Hk. unfold change_direction. destruct (find (in_block N k) (numbered N)) as [[i' e']|] eqn:F; [|reflexivity].
    apply find_some in F. destruct F as (I & B). apply in_numbered in I. unfold in_block in B. cbn [fst] in B.
    apply andb_prop in B. destruct B as (_ & B2). apply Nat.ltb_lt in B2. destruct (block_after N i' e' I) as (A & A'). lia.
  - pose proof (end_inside N i e d W He G). destruct (block_after N i e He) as (A & A'). destruct (D0 i e d He G) as (D1 & D2).
    destruct S as [S|S]; [exists (end_position N i d)|exists (end_position N i d + 1)%nat]; (split; [lia|]); congruence.
Qed.
Lemma island_always N inside t0 t1 last x c ts : well_formed N -> island N inside -> phase_free N inside ->
  d_evaluate_d_new_state N t0 t1 last x c = Ok ts -> singular (number_of_states N) (matrix_of ts).
Proof.
  intros W Isl Free.
  assert (Ed : forall k i e, nth_error (edges N) i = Some e -> (fst (edge_block N i) <= k)%nat -> phase_direction N inside k = 0).
  { intros k i e He L. apply direction_zero. intros j _ Hj ->. pose proof (node_before_edge N j i e Hj He). lia. }
  apply (killed_singular N (fun _ => 0) (fun _ => 0) (phase_direction N inside) W).
  - split; [reflexivity|]. split; [intros i e _; destruct (e_type e); auto|]. intros j _. unfold divergence.
    transitivity (rsum (fun _ : nat * edge => 0) (numbered N)).
    + apply rsum_ext. intros [i e] _. cbn [fst snd]. destruct (carries_gas e), (Nat.eqb (e_from e) j), (Nat.eqb (e_to e) j); ring.
    + induction (numbered N) as [|q l IH]; cbn; [reflexivity|]. rewrite IH. ring.
  - intros i e d He G. pose proof (end_inside N i e d W He G). split; apply (Ed _ i e He); lia.
  - intros i e d k dx np He Ty m Hm. apply (Ed m i e He). lia.
  - intros j Hj. apply direction_zero. intros j' _ Hj' E.
    destruct (Nat.eq_dec j j') as [->|D]; [lia|]. pose proof (nodes_apart N j j' Hj Hj' D). lia.
  - intros j ext G B b Hj. apply direction_zero. intros j' I' Hj' E.
    assert (Hp : is_power_node N j) by (unfold is_power_node; rewrite Hj; exact Logic.I).
    destruct (Nat.eq_dec j j') as [->|D]; [exact (Free _ _ _ _ _ I' Hj)|]. pose proof (nodes_apart N j j' Hp Hj' D). lia.
  - intros j s y Hj. exact (PQ_turned N inside s y _ W Isl (direction_turned N inside s y) j Hj).
  - intros k Hk. apply direction_zero. intros j _ Hj ->. destruct (power_start_ok N j Hj) as (_ & L). lia.
  - destruct Isl as (_ & j & Hj & Pj). exists (fst (node_block N j) + 1)%nat. rewrite direction_one by assumption.
    split; [|lra]. destruct (power_start_ok N j Pj) as (_ & L). lia.
Qed.
