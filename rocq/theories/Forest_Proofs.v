(** Gas networks of short components: the residual is affine, solutions exist and are unique exactly if every change is
    seen. *)
From Coq Require Import Reals Lra Lia List Arith Bool Permutation.
From Coquelicot Require Import Coquelicot.
From Verif Require Import Base Interp_Model Calc Euler_Model Euler_Spec Box_Model Net_Model Net_Spec Net_Proofs Net_Proofs2 Net_Proofs3 Net_Proofs4 Net_Proofs5 Net_Proofs6
  Net_Proofs7 Net_Proofs8 Net_Proofs9 Net_Props Mass_Proofs Grid_Spec Grid_Proofs Grid_Proofs2 Level_Spec Level_Proofs Level_Proofs2 Linear_Proofs Forest_Spec.
Import ListNotations.
Local Open Scope R_scope.

(** ** Short networks *)
Lemma short_pipes N : short_net N -> pipes_ok N.
Proof.
  intros (_ & S). apply List.Forall_forall. intros e He. specialize (S e He). unfold short in S.
  destruct (e_type e); try exact Logic.I. destruct S.
Qed.
Lemma short_regular N x : short_net N -> regular_state N x.
Proof.
  intros (_ & S) i e He. specialize (S e (nth_error_In _ _ He)). unfold short in S.
  destruct (e_type e); try exact Logic.I; destruct S.
Qed.
Lemma short_ends N i e : short_net N -> nth_error (edges N) i = Some e ->
  (forall d, gas_end e d) /\ carries_gas e = true /\ edge_states (e_type e) = 4%nat /\
  end_position N i dstart = fst (edge_block N i) /\ end_position N i dend = (fst (edge_block N i) + 2)%nat.
Proof.
  intros (_ & S) He. specialize (S e (nth_error_In _ _ He)). destruct (short_carries e S) as (C & G). destruct (block_after N i e He) as (A & _).
  assert (E4 : edge_states (e_type e) = 4%nat) by (unfold short in S; destruct (e_type e); try (destruct S; fail); reflexivity).
  split; [exact G|]. split; [exact C|]. split; [exact E4|]. split; [reflexivity|]. unfold end_position. lia.
Qed.
(** Every number of the state belongs to an end of an edge. *)
Lemma short_position N k : short_net N -> (k < number_of_states N)%nat ->
  exists i e d, nth_error (edges N) i = Some e /\ (k = end_position N i d \/ k = (end_position N i d + 1)%nat).
Proof.
  intros S Hk. destruct (C35_network N) as (Hn & _ & T & _).
  assert (I : In k (seq 0 (number_of_states N))) by (apply in_seq; lia). rewrite <- T in I.
  apply in_flat_map in I. destruct I as (b & Ib & Ik). apply in_seq in Ik. apply in_app_iff in Ib. destruct Ib as [Ib|Ib];
    apply in_map_iff in Ib; destruct Ib as (i & <- & Hi); apply in_seq in Hi.
  - exfalso. destruct S as (G & _). specialize (G i ltac:(lia)). unfold is_gas_node in G.
    destruct (nth_error (nodes N) i) as [t|] eqn:E; [|destruct G]. pose proof (Hn i t E) as Hb. destruct t as [| | |k' e' a' b' c']; cbn [node_states] in Hb; try lia; exact G.
  - destruct (nth_error (edges N) i) as [e|] eqn:E; [|apply nth_error_None in E; lia].
    destruct (short_ends N i e S E) as (_ & _ & E4 & P0 & P1). destruct (block_after N i e E) as (A & _).
    exists i, e. assert (k = fst (edge_block N i) \/ k = fst (edge_block N i) + 1 \/ k = fst (edge_block N i) + 2 \/ k = fst (edge_block N i) + 3)%nat as [K|[K|[K|K]]] by lia.
    + exists dstart. split; [exact E|]. left. lia.
    + exists dstart. split; [exact E|]. right. lia.
    + exists dend. split; [exact E|]. left. lia.
    + exists dend. split; [exact E|]. right. lia.
Qed.

(** ** The Jacobian does not depend on the state *)
Definition not_pipe (g : gasedge) : Prop := match ge_kind g with Pipe _ _ _ => False | _ => True end.
Lemma gas_not_pipe N i e g : short_net N -> nth_error (edges N) i = Some e -> gas_of N i e = Some g -> not_pipe g.
Proof.
  intros (_ & S) He Hg. specialize (S e (nth_error_In _ _ He)). destruct (gas_of_kind N i e g Hg) as (_ & _ & K & _).
  unfold not_pipe. rewrite K. unfold short in S. destruct (e_type e); try (destruct S; fail); exact Logic.I.
Qed.
Lemma end_free d g fd row x y : not_pipe g -> dboundary_p_qvol_dstate d g fd row x = dboundary_p_qvol_dstate d g fd row y.
Proof. unfold not_pipe, dboundary_p_qvol_dstate. destruct (ge_kind g); [intros []|reflexivity..]. Qed.
Lemma loop_free att x y : List.Forall (fun de => not_pipe (snd de)) att -> forall oeq leq, derivative_loop att x oeq leq = derivative_loop att y oeq leq.
Proof.
  induction 1 as [|[d g] att Hg F IH]; intros oeq leq; [reflexivity|]. cbn [snd] in Hg. cbn [derivative_loop].
  destruct att as [|de att]; [rewrite !(fun fd row => end_free d g fd row x y Hg); reflexivity|].
  cbv zeta. rewrite !(fun fd row => end_free d g fd row x y Hg), IH. reflexivity.
Qed.
Lemma node_free N j t x y : short_net N -> nth_error (nodes N) j = Some t -> node_d_new_state N j t x = node_d_new_state N j t y.
Proof.
  intros S Hj.
  assert (F : List.Forall (fun de => not_pipe (snd de)) (attached_gas N j)).
  { apply List.Forall_forall. intros [d g] Hd. apply attached_iff in Hd. destruct Hd as (i & e & H1 & H2 & _). exact (gas_not_pipe N i e g S H1 H2). }
  assert (Fl : flow_derivative (attached_gas N j) x = flow_derivative (attached_gas N j) y).
  { unfold flow_derivative. destruct (attached_gas N j) as [|[d g] att]; [reflexivity|]. inversion F as [|? ? F1 F2]; subst. cbn [snd] in F1.
    destruct (last ((d, g) :: att) (d, g)) as [dl el]. cbv zeta. rewrite !(fun fd row => end_free d g fd row x y F1), (loop_free att x y F2). reflexivity. }
  unfold node_d_new_state. cbv zeta. destruct t; try exact Fl.
  - unfold pressure_derivative. f_equal. apply map_ext_in. intros [d g] Hd. rewrite List.Forall_forall in F. apply end_free. exact (F _ Hd).
  - exfalso. destruct S as (Gn & _). specialize (Gn j ltac:(apply nth_error_Some; congruence)). unfold is_gas_node in Gn. rewrite Hj in Gn. exact Gn.
Qed.
Lemma edge_free g t0 t1 last x c t0' t1' last' x' c' : not_pipe g -> (forall a b p, ge_kind g <> Gaspowerconnection a b p) ->
  edge_d_new_state g t0 t1 last x c = edge_d_new_state g t0' t1' last' x' c'.
Proof. unfold not_pipe, edge_d_new_state. destruct (ge_kind g); intros H K; try reflexivity; [destruct H|exfalso; exact (K _ _ _ eq_refl)]. Qed.
Lemma gas_not_plant N i e g : short_net N -> nth_error (edges N) i = Some e -> gas_of N i e = Some g -> forall a b p, ge_kind g <> Gaspowerconnection a b p.
Proof.
  intros (_ & S) He Hg a b p. specialize (S e (nth_error_In _ _ He)). destruct (gas_of_kind N i e g Hg) as (_ & _ & K & _).
  rewrite K. unfold short in S. destruct (e_type e); try (destruct S; fail); discriminate.
Qed.
Lemma jacobian_free N t0 t1 last x c t0' t1' last' x' c' : short_net N ->
  d_evaluate_d_new_state N t0 t1 last x c = d_evaluate_d_new_state N t0' t1' last' x' c'.
Proof.
  intro S. unfold d_evaluate_d_new_state. cbv zeta. rewrite !on_edges_gases. unfold on_nodes.
  rewrite (map_ext_in (fun jt => node_d_new_state N (fst jt) (snd jt) x) (fun jt => node_d_new_state N (fst jt) (snd jt) x')).
  - assert (E : forall sel, map (fun g => edge_d_new_state g t0 t1 last x c) (gases N sel) = map (fun g => edge_d_new_state g t0' t1' last' x' c') (gases N sel)).
    { intro sel. apply map_ext_in. intros g Hg. destruct (gases_in N sel g Hg) as (i & e & H1 & H2 & _).
      apply edge_free; [exact (gas_not_pipe N i e g S H1 H2)|exact (gas_not_plant N i e g S H1 H2)]. }
    rewrite !E. reflexivity.
  - intros [j t] Hj. apply in_combine_seq in Hj. exact (node_free N j t x x' S Hj).
Qed.

(** ** Only the numbers of the state are read *)
Lemma ends_read N j de x y : well_formed N -> is_gas_node N j -> In de (attached_gas N j) -> (forall k, (k < number_of_states N)%nat -> y k = x k) ->
  end_pressure de y = end_pressure de x /\ end_flow de y = end_flow de x.
Proof.
  intros W Hg Hin A. destruct (attached_facts N j W Hg) as (F & _). rewrite List.Forall_forall in F. pose proof (F _ Hin) as E.
  destruct de as [d g]. apply attached_iff in Hin. destruct Hin as (i & e & H1 & H2 & H3).
  pose proof (gas_end_of N W i e g d H1 H2 E) as G. pose proof (end_inside N i e d W H1 G). destruct (block_after N i e H1) as (B & B').
  rewrite !(end_pressure_at N i e g d _ H2), !(end_flow_at N i e g d _ H2). unfold pressure_at, flow_at. rewrite !A by lia. split; reflexivity.
Qed.
Lemma node_read N j t t1 x y : well_formed N -> short_net N -> nth_error (nodes N) j = Some t -> (forall k, (k < number_of_states N)%nat -> y k = x k) ->
  same_writes (node_evaluate N j t t1 y) (node_evaluate N j t t1 x).
Proof.
  intros W S H A. assert (Hg : is_gas_node N j) by (apply (proj1 S); apply nth_error_Some; congruence).
  assert (F : List.Forall has_end (attached_gas N j)) by apply (attached_facts N j W Hg).
  assert (Fl : forall q, same_writes (flow_balance (attached_gas N j) y q) (flow_balance (attached_gas N j) x q)).
  { intro q. apply (flow_changed _ x y 0); [exact F| |].
    - intros de Hd. rewrite (proj1 (ends_read N j de x y W Hg Hd A)). ring.
    - rewrite (rsum_ext _ (fun _ => 0)); [rewrite rsum_const; ring|]. intros de Hd. rewrite (proj2 (ends_read N j de x y W Hg Hd A)). ring. }
  unfold node_evaluate. destruct t as [|sink b|b|k ext G' B b].
  - apply Fl.
  - destruct (attached_gas N j); [apply same_refl|]. destruct (b t1); cbn [obind]; [apply Fl|exact Logic.I|exact Logic.I].
  - destruct (b t1) as [v| |]; cbn [obind]; [|destruct (attached_gas N j); apply same_refl..].
    rewrite (pressure_changed (attached_gas N j) x y); [apply same_refl|exact F|].
    intros de Hd. exact (proj1 (ends_read N j de x y W Hg Hd A)).
  - exfalso. unfold is_gas_node in Hg. rewrite H in Hg. exact Hg.
Qed.
Lemma edge_read N i e g t0 t1 last c x y : well_formed N -> short_net N -> nth_error (edges N) i = Some e -> gas_of N i e = Some g ->
  (forall k, (k < number_of_states N)%nat -> y k = x k) -> edge_evaluate g t0 t1 last y c = edge_evaluate g t0 t1 last x c.
Proof.
  intros W S He Hg A. destruct (gas_of_size N i e g W He Hg) as (Sz & _ & Af). destruct (gas_of_kind N i e g Hg) as (_ & E & K & NL).
  destruct (short_ends N i e S He) as (G & _ & E4 & P0 & P1). destruct (block_after N i e He) as (B & B').
  pose proof (proj2 S e (nth_error_In _ _ He)) as Sh.
  assert (V : forall d k, (k < 2)%nat -> seg y (end_position N i d) k = seg x (end_position N i d) k).
  { intros d k Hk. unfold seg. apply A. destruct d; lia. }
  unfold edge_evaluate. unfold gas_size in Sz. unfold short in Sh.
  destruct (e_type e) eqn:Ty; try (destruct Sh; fail); rewrite K; rewrite K in Sz;
    rewrite !(short_state_of N i e g _ _ He Hg Sz); cbn [obind]; rewrite !V by lia; reflexivity.
Qed.
Lemma evaluate_read N t0 t1 last x y c v : well_formed N -> short_net N -> boundary_defined N t1 ->
  (forall k, (k < number_of_states N)%nat -> y k = x k) ->
  exists r r', evaluate N t0 t1 last x c v = Ok r /\ evaluate N t0 t1 last y c v = Ok r' /\ forall k, r' k = r k.
Proof.
  intros W S HB Agree. pose proof (short_pipes N S) as HP.
  destruct (writes_zero N t0 t1 last x c W HP HB) as (ws & (E & A & B) & _).
  destruct (writes_zero N t0 t1 last y c W HP HB) as (ws' & (E' & A' & B') & _).
  assert (Sm : same_writes (evaluate_writes N t0 t1 last y c) (evaluate_writes N t0 t1 last x c)).
  { unfold evaluate_writes. cbv zeta. rewrite !oconcat_app, !on_edges_gases. unfold on_nodes.
    assert (Ed : forall sel, same_writes (oconcat (map (fun g => edge_evaluate g t0 t1 last y c) (gases N sel)))
       (oconcat (map (fun g => edge_evaluate g t0 t1 last x c) (gases N sel)))).
    { intro sel. apply same_concat. intros g Hg. destruct (gases_in N sel g Hg) as (i & e & H1 & H2 & _).
      rewrite (edge_read N i e g t0 t1 last c x y W S H1 H2 Agree). apply same_refl. }
    apply same_oapp; [|apply same_oapp; apply Ed]. apply same_concat. intros [j t] Hj. cbn [fst snd]. apply in_combine_seq in Hj.
    exact (node_read N j t t1 x y W S Hj Agree). }
  rewrite E, E' in Sm. cbn in Sm.
  pose proof (rows_perm N W) as PM.
  assert (ND : NoDup (all_rows N)) by (eapply Permutation_NoDup; [apply Permutation_sym; exact PM|apply seq_NoDup]).
  exists (run_writes ws v), (run_writes ws' v).
  split; [change (finish (number_of_states N) v (evaluate_writes N t0 t1 last x c) = Ok (run_writes ws v)); rewrite E; apply finish_ok; [exact B|rewrite A; exact PM]|].
  split; [change (finish (number_of_states N) v (evaluate_writes N t0 t1 last y c) = Ok (run_writes ws' v)); rewrite E'; apply finish_ok; [exact B'|rewrite A'; exact PM]|].
  intro k. destruct (in_dec Nat.eq_dec k (all_rows N)) as [I|I].
  - rewrite (run_assigned ws v k), (run_assigned ws' v k); rewrite ?A, ?A'; auto.
  - rewrite (run_other ws v k), (run_other ws' v k); rewrite ?A, ?A'; auto.
Qed.

(** ** The residual is affine *)
Definition cutoff (n : nat) (x : vec) : vec := fun k => if (k <? n)%nat then x k else 0.
Lemma cutoff_in n x k : (k < n)%nat -> cutoff n x k = x k.
Proof. intro H. unfold cutoff. apply Nat.ltb_lt in H. rewrite H. reflexivity. Qed.
Lemma cutoff_bound n x : exists M, 0 < M /\ forall k, Rabs (cutoff n x k) <= M.
Proof.
  assert (H : exists M, 0 < M /\ forall k, (k < n)%nat -> Rabs (x k) <= M).
  { induction n as [|m (M & PM & IH)]; [exists 1; split; [lra|intros; lia]|].
    exists (M + Rabs (x m)). pose proof (Rabs_pos (x m)). split; [lra|]. intros j Hj. destruct (Nat.eq_dec j m) as [->|Dn]; [lra|]. specialize (IH j ltac:(lia)). lra. }
  destruct H as (M & PM & B). exists M. split; [exact PM|]. intro k. unfold cutoff. destruct (k <? n)%nat eqn:E; [apply B; apply Nat.ltb_lt; exact E|]. rewrite Rabs_R0. lra.
Qed.
Lemma slope_const (f : R -> R) A : (forall s, is_derive f s A) -> f 1 = f 0 + A.
Proof.
  intro D. assert (Z : forall s, is_derive (fun s => f s - A * s) s 0).
  { intro s. replace 0 with (A - A * 1) by ring. apply (is_derive_minus (fun s => f s) (fun s => A * s)); [apply D|].
    auto_derive; [exact Logic.I|ring]. }
  assert (E : f 1 - A * 1 = f 0 - A * 0).
  { symmetry. apply (eq_is_derive (fun s => f s - A * s)); [|lra]. intros t _. exact (Z t). }
  lra.
Qed.
Lemma affine N t1 : well_formed N -> short_net N -> boundary_defined N t1 ->
  exists ts, (forall t0 t1 last x c, d_evaluate_d_new_state N t0 t1 last x c = Ok ts) /\
    forall t0 last c v x y, exists f r : vec, evaluate N t0 t1 last x c v = Ok f /\ evaluate N t0 t1 last y c v = Ok r /\
        forall k, (k < number_of_states N)%nat -> r k = f k + vsum (number_of_states N) (fun j => matrix_of ts k j * (y j - x j)).
Proof.
  intros W S HB. pose proof (short_pipes N S) as HP. set (n := number_of_states N).
  destruct (C53_new_state N 0 t1 (fun _ => 0) (fun _ => 0) (fun _ => 0) (fun _ => 0) W HP HB (short_regular N _ S)) as (ts & E & _).
  exists ts. assert (Et : forall t0 t1 last x c, d_evaluate_d_new_state N t0 t1 last x c = Ok ts).
  { intros. rewrite <- E. apply jacobian_free. exact S. }
  split; [exact Et|]. intros t0 last c v x y.
  assert (T : forall x, exists r, evaluate N t0 t1 last x c v = Ok r) by (intro x0; destruct (C54_solution N t0 t1 last x0 c v W HP HB) as (r & Er & _); eauto).
  set (G := fun x => match evaluate N t0 t1 last x c v with Ok r => r | _ => fun _ => 0 end).
  assert (EG : forall x, evaluate N t0 t1 last x c v = Ok (G x)) by (intro x0; unfold G; destruct (T x0) as (r & ->); reflexivity).
  exists (G x), (G y). split; [apply EG|]. split; [apply EG|]. intros k Hk.
  set (w := cutoff n (fun j => y j - x j)). set (A := vsum n (fun j => matrix_of ts k j * w j)).
  assert (D : forall s, is_derive (fun s => G (fun j => x j + s * w j) k) s A).
  { intro s. destruct (C53_new_state N t0 t1 last (fun j => x j + s * w j) c v W HP HB (short_regular N _ S)) as (ts' & E' & g & J & dl & Hd & Eg).
    rewrite Et in E'. injection E' as <-.
    assert (Dg : is_derive (fun s => g (fun j => x j + s * w j) k) s A).
    { apply (J k Hk (fun s j => x j + s * w j) s). split; [reflexivity|]. intro j. auto_derive; [exact Logic.I|ring]. }
    apply (is_derive_ext_loc (fun s => g (fun j => x j + s * w j) k)); [|exact Dg].
    destruct (cutoff_bound n (fun j => y j - x j)) as (M & PM & B). fold w in B.
    assert (Hd' : 0 < dl / M) by (apply Rdiv_lt_0_compat; assumption).
    exists (mkposreal (dl / M) Hd'). intros s' Hs. unfold ball in Hs; cbn in Hs. unfold AbsRing_ball, abs, minus, plus, opp in Hs; cbn in Hs.
    assert (E1 : evaluate N t0 t1 last (fun j => x j + s' * w j) c v = Ok (g (fun j => x j + s' * w j))).
    { apply Eg. intro j. replace (x j + s' * w j - (x j + s * w j)) with ((s' + - s) * w j) by ring.
      rewrite Rabs_mult. pose proof (B j). pose proof (Rabs_pos (s' + - s)). pose proof (Rabs_pos (w j)).
      assert (Rabs (s' + - s) * M < dl) by (replace dl with (dl / M * M) by (field; lra); apply Rmult_lt_compat_r; assumption). nra. }
    rewrite EG in E1. injection E1 as E1. rewrite E1. reflexivity. }
  pose proof (slope_const _ A D) as Sl. cbv beta in Sl.
  assert (R0 : forall u u', (forall j, (j < n)%nat -> u' j = u j) -> G u' k = G u k).
  { intros u u' H. destruct (evaluate_read N t0 t1 last u u' c v W S HB H) as (r & r' & E1 & E2 & Q). rewrite EG in E1, E2. injection E1 as ->. injection E2 as ->. apply Q. }
  rewrite (R0 y (fun j => x j + 1 * w j)) in Sl by (intros j Hj; unfold w; rewrite cutoff_in by exact Hj; ring).
  rewrite (R0 x (fun j => x j + 0 * w j)) in Sl by (intros j Hj; ring). rewrite Sl. f_equal. unfold A.
  apply vsum_ext. intros j Hj. unfold w. rewrite cutoff_in by exact Hj. reflexivity.
Qed.
