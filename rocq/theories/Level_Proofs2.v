(** Networks with such a change: the residual does not change, the Jacobian has no inverse. *)
From Coq Require Import Reals Lra Lia List Arith Bool Permutation.
From Coquelicot Require Import Coquelicot Complex.
From Verif Require Import Base Interp_Model Calc Euler_Model Euler_Spec Box_Model Net_Model Net_Spec Net_Proofs Net_Proofs2 Net_Proofs3 Net_Proofs4 Net_Proofs5 Net_Proofs6
  Net_Proofs7 Net_Proofs8 Net_Proofs9 Net_Props Mass_Proofs Grid_Spec Grid_Proofs Grid_Proofs2 Level_Spec Level_Proofs.
Import ListNotations.
Local Open Scope R_scope.

Lemma writes_changed N h z a x y t0 t1 last c : well_formed N -> unseen N h z -> changed N h z a x y ->
  same_writes (evaluate_writes N t0 t1 last y c) (evaluate_writes N t0 t1 last x c).
Proof.
  intros W U X. unfold evaluate_writes. cbv zeta. rewrite !oconcat_app, !on_edges_gases. unfold on_nodes.
  assert (Ed : forall sel, same_writes (oconcat (map (fun g => edge_evaluate g t0 t1 last y c) (gases N sel)))
     (oconcat (map (fun g => edge_evaluate g t0 t1 last x c) (gases N sel)))).
  { intro sel. apply same_concat. intros g Hg. destruct (gases_in N sel g Hg) as (i & e & H1 & H2 & _).
    exact (edge_changed N h z a x y W U X i e g t0 t1 last c H1 H2). }
  apply same_oapp; [|apply same_oapp; apply Ed]. apply same_concat. intros [j t] Hj. cbn [fst snd]. apply in_combine_seq in Hj.
  exact (node_changed N h z a x y W U X j t t1 Hj).
Qed.
Lemma evaluate_changed N h z a x y t0 t1 last c v : well_formed N -> pipes_ok N -> boundary_defined N t1 ->
  unseen N h z -> changed N h z a x y ->
  exists r r', evaluate N t0 t1 last x c v = Ok r /\ evaluate N t0 t1 last y c v = Ok r' /\ forall k, r' k = r k.
Proof.
  intros W HP HB U X.
  destruct (writes_zero N t0 t1 last x c W HP HB) as (ws & (E & A & B) & _).
  destruct (writes_zero N t0 t1 last y c W HP HB) as (ws' & (E' & A' & B') & _).
  pose proof (writes_changed N h z a x y t0 t1 last c W U X) as S. rewrite E, E' in S. cbn in S.
  pose proof (rows_perm N W) as PM.
  assert (ND : NoDup (all_rows N)) by (eapply Permutation_NoDup; [apply Permutation_sym; exact PM|apply seq_NoDup]).
  exists (run_writes ws v), (run_writes ws' v).
  split; [change (finish (number_of_states N) v (evaluate_writes N t0 t1 last x c) = Ok (run_writes ws v)); rewrite E; apply finish_ok; [exact B|rewrite A; exact PM]|].
  split; [change (finish (number_of_states N) v (evaluate_writes N t0 t1 last y c) = Ok (run_writes ws' v)); rewrite E'; apply finish_ok; [exact B'|rewrite A'; exact PM]|].
  intro k. destruct (in_dec Nat.eq_dec k (all_rows N)) as [I|I].
  - rewrite (run_assigned ws v k), (run_assigned ws' v k); rewrite ?A, ?A'; auto.
  - rewrite (run_other ws v k), (run_other ws' v k); rewrite ?A, ?A'; auto.
Qed.

(** ** The direction of the change *)
Definition in_block (N : network) (k : nat) (ie : nat * edge) : bool :=
  (fst (edge_block N (fst ie)) <=? k)%nat && (k <? snd (edge_block N (fst ie)))%nat.
Definition change_direction (N : network) (h z : nat -> R) : vec := fun k =>
  match find (in_block N k) (numbered N) with
  | Some (i, e) =>
      if Nat.eqb k (end_position N i dstart) then h (e_from e)
      else if Nat.eqb k (end_position N i dstart + 1) then z i
      else if Nat.eqb k (end_position N i dend) then h (e_to e)
      else if Nat.eqb k (end_position N i dend + 1) then z i
      else 0
  | None => 0
  end.
Lemma find_edge N i e k : nth_error (edges N) i = Some e -> (fst (edge_block N i) <= k < fst (edge_block N i) + edge_states (e_type e))%nat ->
  find (in_block N k) (numbered N) = Some (i, e).
Proof.
  intros H L. destruct (block_after N i e H) as (A & _).
  destruct (find (in_block N k) (numbered N)) as [[i' e']|] eqn:F.
  - apply find_some in F. destruct F as (I & B). apply in_numbered in I. unfold in_block in B. cbn [fst] in B.
    apply andb_prop in B. destruct B as (B1 & B2). apply Nat.leb_le in B1. apply Nat.ltb_lt in B2.
    destruct (block_after N i' e' I) as (A' & _).
    destruct (blocks_equal N i' i e' e k I H ltac:(lia) ltac:(lia)) as (-> & ->). reflexivity.
  - exfalso. pose proof (find_none _ _ F (i, e) ltac:(apply in_numbered; exact H)) as B. unfold in_block in B. cbn [fst] in B.
    apply andb_false_iff in B. destruct B as [B|B]; [apply Nat.leb_gt in B|apply Nat.ltb_ge in B]; lia.
Qed.
Lemma direction_changed N h z a x : well_formed N -> changed N h z a x (fun k => x k + a * change_direction N h z k).
Proof.
  intro W. split.
  - intros i e d H G. pose proof (end_inside N i e d W H G) as (L1 & L2). destruct (block_after N i e H) as (A & _).
    unfold change_direction.
    rewrite (find_edge N i e (end_position N i d) H) by lia. rewrite (find_edge N i e (end_position N i d + 1) H) by lia.
    assert (E0 : (end_position N i dstart =? end_position N i dstart + 1)%nat = false) by (apply Nat.eqb_neq; lia).
    assert (E1 : (end_position N i dend =? end_position N i dend + 1)%nat = false) by (apply Nat.eqb_neq; lia).
    destruct d; cbn [end_node].
    + rewrite Nat.eqb_refl. assert (E2 : (end_position N i dstart + 1 =? end_position N i dstart)%nat = false) by (apply Nat.eqb_neq; lia).
      rewrite E2, Nat.eqb_refl. split; reflexivity.
    + assert (S : (end_position N i dstart + 2 <= end_position N i dend)%nat).
      { unfold end_position, gas_end in *. rewrite A in *. pose proof W as W'. unfold well_formed in W'. rewrite List.Forall_forall in W'.
        destruct (W' e (nth_error_In _ _ H)) as (_ & K). destruct (e_type e); cbn [edge_states] in *; try (destruct G; fail); lia. }
      repeat match goal with |- context [Nat.eqb ?u ?w] => destruct (Nat.eqb_spec u w); try lia end.
      split; reflexivity.
  - intros k H. unfold change_direction. destruct (find (in_block N k) (numbered N)) as [[i e]|] eqn:F; [|ring].
    apply find_some in F. destruct F as (I & B). apply in_numbered in I. unfold in_block in B. cbn [fst] in B.
    apply andb_prop in B. destruct B as (B1 & B2). apply Nat.leb_le in B1. apply Nat.ltb_lt in B2. destruct (block_after N i e I) as (A & _).
    assert (Gs : gas_end e dstart) by (unfold gas_end; destruct (e_type e) eqn:Ty; try exact Logic.I; cbn [edge_states] in A; lia).
    destruct (H i e dstart I Gs) as (D1 & D2). destruct (Nat.eqb_spec k (end_position N i dstart)); [contradiction|].
    destruct (Nat.eqb_spec k (end_position N i dstart + 1)); [contradiction|].
    assert (Ge : gas_end e dend \/ (k = end_position N i dstart \/ k = end_position N i dstart + 1)%nat).
    { unfold gas_end. destruct (e_type e) eqn:Ty; auto; cbn [edge_states] in A; unfold end_position; right; lia. }
    destruct Ge as [Ge|[Ge|Ge]]; [|contradiction..]. destruct (H i e dend I Ge) as (D3 & D4).
    destruct (Nat.eqb_spec k (end_position N i dend)); [contradiction|].
    destruct (Nat.eqb_spec k (end_position N i dend + 1)); [contradiction|]. ring.
Qed.
Lemma direction_bounded N h z : exists M, 0 < M /\ forall k, Rabs (change_direction N h z k) <= M.
Proof.
  assert (B : forall l : list (nat * edge), exists M, 0 < M /\ forall i e, In (i, e) l -> Rabs (h (e_from e)) <= M /\ Rabs (h (e_to e)) <= M /\ Rabs (z i) <= M).
  { induction l as [|[i e] l (M & P & IH)]; [exists 1; split; [lra|intros ? ? []]|].
    exists (M + Rabs (h (e_from e)) + Rabs (h (e_to e)) + Rabs (z i)).
    pose proof (Rabs_pos (h (e_from e))). pose proof (Rabs_pos (h (e_to e))). pose proof (Rabs_pos (z i)). split; [lra|].
    intros i' e' [E|I]; [injection E as <- <-; lra|]. destruct (IH i' e' I) as (A & A' & A''). lra. }
  destruct (B (numbered N)) as (M & P & H). exists M. split; [exact P|]. intro k. unfold change_direction.
  destruct (find (in_block N k) (numbered N)) as [[i e]|] eqn:F.
  - apply find_some in F. destruct F as (I & _). destruct (H i e I) as (A & A' & A'').
    repeat match goal with |- context [Nat.eqb ?u ?w] => destruct (Nat.eqb u w) end; try assumption. rewrite Rabs_R0. lra.
  - rewrite Rabs_R0. lra.
Qed.
Lemma unseen_singular N h z t0 t1 last x c : well_formed N -> pipes_ok N -> boundary_defined N t1 -> regular_state N x ->
  unseen N h z -> seen_somewhere N h z ->
  exists ts, d_evaluate_d_new_state N t0 t1 last x c = Ok ts /\ singular (number_of_states N) (matrix_of ts).
Proof.
  intros W HP HB HR U (i & e & d & He & G & S). destruct (C53_new_state N t0 t1 last x c (fun _ => 0) W HP HB HR) as (ts & E & g & J & dl & Hd & Eg).
  exists ts. split; [exact E|]. exists (change_direction N h z). split.
  - destruct (direction_changed N h z 1 (fun _ => 0) W) as (D & _). destruct (D i e d He G) as (D1 & D2).
    pose proof (end_inside N i e d W He G). destruct (block_after N i e He) as (A & A').
    destruct S as [S|S]; [exists (end_position N i d)|exists (end_position N i d + 1)%nat]; (split; [lia|]); lra.
  - intros r Hr.
    assert (D : is_derive (fun s => g (fun k => x k + s * change_direction N h z k) r) 0
       (vsum (number_of_states N) (fun k => matrix_of ts r k * change_direction N h z k))).
    { apply (J r Hr (fun s k => x k + s * change_direction N h z k) 0). split; [intro k; ring|].
      intro k. auto_derive; [exact Logic.I|ring]. }
    destruct (direction_bounded N h z) as (M & PM & B).
    assert (Hd' : 0 < dl / M) by (apply Rdiv_lt_0_compat; assumption).
    assert (Z : is_derive (fun s => g (fun k => x k + s * change_direction N h z k) r) 0 0).
    { apply (is_derive_ext_loc (fun _ => g x r)).
      - exists (mkposreal (dl / M) Hd'). intros s Hs. unfold ball in Hs; cbn in Hs. unfold AbsRing_ball, abs, minus, plus, opp in Hs; cbn in Hs.
        rewrite Ropp_0, Rplus_0_r in Hs.
        assert (E1 : evaluate N t0 t1 last (fun k => x k + s * change_direction N h z k) c (fun _ => 0) = Ok (g (fun k => x k + s * change_direction N h z k))).
        { apply Eg. intro k. replace (x k + s * change_direction N h z k - x k) with (s * change_direction N h z k) by ring.
          rewrite Rabs_mult. pose proof (B k). pose proof (Rabs_pos s). pose proof (Rabs_pos (change_direction N h z k)).
          assert (Rabs s * M < dl) by (replace dl with (dl / M * M) by (field; lra); apply Rmult_lt_compat_r; assumption). nra. }
        assert (E0 : evaluate N t0 t1 last x c (fun _ => 0) = Ok (g x)).
        { apply Eg. intro k. rewrite Rminus_eq_0, Rabs_R0. exact Hd. }
        destruct (evaluate_changed N h z s x _ t0 t1 last c (fun _ => 0) W HP HB U (direction_changed N h z s x W)) as (r1 & r2 & F1 & F2 & F).
        rewrite E0 in F1. rewrite E1 in F2. injection F1 as <-. injection F2 as F2. rewrite F2. symmetry. apply F.
      - exact (is_derive_const (K := R_AbsRing) (V := R_NormedModule) (g x r) 0). }
    pose proof (is_derive_unique _ _ _ D) as U1. pose proof (is_derive_unique _ _ _ Z) as U2. rewrite U1 in U2. exact U2.
Qed.

(** ** Special cases *)
Lemma level_unseen N inside :
  (forall j b, nth_error (nodes N) j = Some (Pressurenode b) -> inside j = false) ->
  (forall e, In e (edges N) -> match e_type e with
     | EPipe _ _ _ _ => inside (e_from e) = false /\ inside (e_to e) = false
     | EShortpipe | ECompressor _ | EControlvalve => inside (e_from e) = inside (e_to e)
     | _ => True
     end) ->
  unseen N (fun j => if inside j then 1 else 0) (fun _ => 0).
Proof.
  intros H1 H2. split; [|split].
  - intros j b H. rewrite (H1 j b H). reflexivity.
  - intros i e H. specialize (H2 e (nth_error_In _ _ H)). destruct (e_type e); try reflexivity; try exact Logic.I; try (rewrite H2; reflexivity).
    destruct H2 as (-> & ->). auto.
  - intros j _. unfold divergence. transitivity (rsum (fun _ : nat * edge => 0) (numbered N)).
    + apply rsum_ext. intros [i e] _. cbn [fst snd]. destruct (carries_gas e), (Nat.eqb (e_from e) j), (Nat.eqb (e_to e) j); ring.
    + induction (numbered N) as [|q l IH]; cbn; [reflexivity|]. rewrite IH. ring.
Qed.
Lemma rsum_only {A} (f : nat * A -> R) (l : list A) : forall s i v, nth_error l i = Some v ->
  (forall k w, k <> (s + i)%nat -> f (k, w) = 0) -> rsum f (combine (seq s (length l)) l) = f ((s + i)%nat, v).
Proof.
  induction l as [|b l IH]; intros s i v H Z; [destruct i; discriminate|]. cbn [length seq combine rsum].
  destruct i as [|i].
  - cbn in H. injection H as ->. rewrite Nat.add_0_r in *.
    assert (E : forall s', (s < s')%nat -> rsum f (combine (seq s' (length l)) l) = 0).
    { clear IH. revert Z. generalize s. induction l as [|c l IH]; intros s0 Z s' L; [reflexivity|]. cbn [length seq combine rsum].
      rewrite Z by lia. rewrite (IH s0) by (auto; lia). ring. }
    rewrite E by lia. ring.
  - cbn in H. rewrite Z by lia. rewrite (IH (S s) i v H); [replace (S s + i)%nat with (s + S i)%nat by lia; ring|].
    intros k w K. apply Z. lia.
Qed.
(** One unit through edge [i]. *)
Definition unit_flow (i : nat) : nat -> R := fun k => if Nat.eqb k i then 1 else 0.
Lemma divergence_unit N i e j : nth_error (edges N) i = Some e -> carries_gas e = true ->
  divergence N (unit_flow i) j = (if Nat.eqb (e_from e) j then 1 else 0) - (if Nat.eqb (e_to e) j then 1 else 0).
Proof.
  intros H C. unfold divergence, numbered. rewrite (rsum_only _ (edges N) 0 i e H).
  - cbn [fst snd plus]. rewrite C. unfold unit_flow. rewrite Nat.eqb_refl. reflexivity.
  - intros k w K. cbn [fst snd]. unfold unit_flow. destruct (Nat.eqb_spec k i); [lia|].
    destruct (carries_gas w), (Nat.eqb (e_from w) j), (Nat.eqb (e_to w) j); ring.
Qed.
Lemma divergence_minus N z z' j : divergence N (fun k => z k - z' k) j = divergence N z j - divergence N z' j.
Proof.
  unfold divergence. rewrite <- rsum_minus. apply rsum_ext. intros [i e] _. cbn [fst snd].
  destruct (carries_gas e), (Nat.eqb (e_from e) j), (Nat.eqb (e_to e) j); ring.
Qed.
Lemma divergence_plus N z z' j : divergence N (fun k => z k + z' k) j = divergence N z j + divergence N z' j.
Proof.
  unfold divergence. rewrite rsum_plus. apply rsum_ext. intros [i e] _. cbn [fst snd].
  destruct (carries_gas e), (Nat.eqb (e_from e) j), (Nat.eqb (e_to e) j); ring.
Qed.
Lemma short_carries e : short e -> carries_gas e = true /\ forall d, gas_end e d.
Proof. unfold short, carries_gas, gas_end. destruct (e_type e); intro H; try (destruct H; fail); split; auto; intro d; destruct d; exact Logic.I. Qed.
(** A change of flows alone, along short edges. *)
Lemma flows_unseen N z : (forall i e, nth_error (edges N) i = Some e -> ~ short e -> z i = 0) ->
  (forall j, balances N j -> divergence N z j = 0) -> unseen N (fun _ => 0) z.
Proof.
  intros H D. split; [reflexivity|]. split; [|exact D]. intros i e He. specialize (H i e He). unfold short in H.
  destruct (e_type e); auto.
Qed.
