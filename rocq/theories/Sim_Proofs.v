(** A small residual: the equations of the network hold up to the tolerance. *)
From Coq Require Import Reals Lra Lia List Arith Permutation.
From Coquelicot Require Import Complex.
From Verif Require Import Base Interp_Model Calc Euler_Model Euler_Spec Euler_Proofs Euler_Proofs2
  Box_Model Box_Spec Box_Proofs Net_Model Net_Spec Net_Proofs Net_Proofs2 Net_Proofs3 Net_Proofs4 Net_Proofs5
  Net_Proofs6 Net_Proofs7 Net_Proofs8 Net_Proofs9 Sim_Spec.
Import ListNotations.
Local Open Scope R_scope.

Section Small.
Variable eps : R.
Hypothesis Heps : 0 <= eps.

Definition small (ws : list write) : Prop := forall r, In r (assigned ws) -> Rabs (wsum ws r) <= eps.
Definition small_imp (rows : list nat) (o : outcome (list write)) (P : Prop) : Prop :=
  exists ws, done rows o ws /\ (NoDup rows -> small ws -> P).

Lemma NoDup_disjoint (a b : list nat) : NoDup (a ++ b) -> forall r, In r a -> ~ In r b.
Proof.
  intros ND r Ha Hb. induction a as [|x l IH]; [destruct Ha|]. cbn in ND. inversion ND as [|? ? H1 H2]; subst.
  destruct Ha as [->|K]; [apply H1, in_app_iff; auto|auto].
Qed.
Lemma small_app a b : adds_ok [] a -> adds_ok [] b -> NoDup (assigned a ++ assigned b) ->
  small (a ++ b) -> small a /\ small b.
Proof.
  intros A B ND H. pose proof (NoDup_disjoint _ _ ND) as D. unfold small in *. rewrite assigned_app in H. split; intros r Hr.
  - specialize (H r ltac:(apply in_app_iff; auto)). rewrite wsum_app, (wsum_outside b) in H by auto.
    rewrite Rplus_0_r in H. exact H.
  - specialize (H r ltac:(apply in_app_iff; auto)). rewrite wsum_app, (wsum_outside a), Rplus_0_l in H; [exact H|auto|].
    intro K. exact (D r K Hr).
Qed.

Lemma small_list {A} (l : list A) rows f (P : A -> Prop) :
  (forall a, In a l -> small_imp (rows a) (f a) (P a)) ->
  small_imp (flat_map rows l) (oconcat (map f l)) (forall a, In a l -> P a).
Proof.
  induction l as [|a l IH]; intro H.
  - exists []. split; [repeat split; cbn; auto|]. intros _ _ a [].
  - destruct (H a (or_introl eq_refl)) as [w1 [D1 V1]].
    destruct IH as [w2 [D2 V2]]; [intros; apply H; right; auto|].
    exists (w1 ++ w2). split.
    + change (oconcat (map f (a :: l))) with (oapp (f a) (oconcat (map f l))). apply done_app; auto.
    + cbn [flat_map]. intros ND S. destruct (NoDup_app_both _ _ ND) as [N1 N2].
      destruct D1 as [_ [R1 A1]]. destruct D2 as [_ [R2 A2]].
      apply small_app in S; auto; [|rewrite R1, R2; exact ND]. destruct S as [S1 S2].
      intros b [<-|Hb]; auto.
Qed.
Lemma small_both r1 r2 o1 o2 P1 P2 : small_imp r1 o1 P1 -> small_imp r2 o2 P2 ->
  small_imp (r1 ++ r2) (oapp o1 o2) (P1 /\ P2).
Proof.
  intros [w1 [D1 V1]] [w2 [D2 V2]]. exists (w1 ++ w2). split; [apply done_app; auto|].
  intros ND S. destruct (NoDup_app_both _ _ ND) as [N1 N2]. destruct D1 as [_ [A1 B1]]. destruct D2 as [_ [A2 B2]].
  apply small_app in S; auto; [|rewrite A1, A2; exact ND]. destruct S. auto.
Qed.
Lemma small_weaken rows o (P Q : Prop) : (P -> Q) -> small_imp rows o P -> small_imp rows o Q.
Proof. intros PQ [ws [D V]]. exists ws. auto. Qed.

Lemma two_small i j a b : i <> j -> small [Assign i a; Assign j b] -> Rabs a <= eps /\ Rabs b <= eps.
Proof.
  intros Ne H. unfold small in H. cbn [assigned flat_map app wsum fold_right write_index wval] in H.
  pose proof (H i (or_introl eq_refl)) as Hi. pose proof (H j (or_intror (or_introl eq_refl))) as Hj.
  rewrite Nat.eqb_refl in Hi, Hj. destruct (Nat.eqb_spec j i); [congruence|].
  destruct (Nat.eqb_spec i j); [congruence|]. rewrite !Rplus_0_r in Hi. rewrite Rplus_0_r, Rplus_0_l in Hj. auto.
Qed.
Lemma one_small i a : small [Assign i a] -> Rabs a <= eps.
Proof.
  intro H. specialize (H i (or_introl eq_refl)). cbn [wsum fold_right write_index wval] in H.
  rewrite Nat.eqb_refl, Rplus_0_r in H. exact H.
Qed.

(** ** Flow nodes *)
Fixpoint chain (op : R) (rest : attached) (x : vec) : Prop :=
  match rest with
  | [] => True
  | de :: r => within eps (end_pressure de x) op /\ chain (end_pressure de x) r x
  end.
Lemma pbal_small rest x : forall oeq op leq,
  NoDup (removelast (oeq :: map end_row rest)) -> ~ In leq (removelast (oeq :: map end_row rest)) ->
  (forall r, In r (removelast (oeq :: map end_row rest)) -> Rabs (wsum (pbal rest x oeq op leq) r) <= eps) ->
  chain op rest x.
Proof.
  induction rest as [|de rest IH]; intros oeq op leq ND NI H; [exact I|].
  change (removelast (oeq :: map end_row (de :: rest))) with (oeq :: removelast (end_row de :: map end_row rest)) in *.
  inversion ND as [|? ? N1 N2]; subst.
  assert (Ne : oeq <> leq) by (intros ->; apply NI; left; auto).
  assert (NI' : ~ In leq (removelast (end_row de :: map end_row rest))) by (intro K; apply NI; right; auto).
  assert (W : forall r, wsum (pbal (de :: rest) x oeq op leq) r =
    (if Nat.eqb oeq r then end_pressure de x - op else 0) +
    ((if Nat.eqb leq r then dsign (fst de) * end_flow de x else 0)
     + wsum (pbal rest x (end_row de) (end_pressure de x) leq) r)) by reflexivity.
  cbn [chain]. split.
  - pose proof (H oeq (or_introl eq_refl)) as H0. rewrite W, Nat.eqb_refl in H0.
    destruct (Nat.eqb_spec leq oeq); [congruence|]. rewrite wsum_no_index in H0.
    2:{ intros w Hw E. destruct (pbal_index _ _ _ _ _ _ Hw) as [K|K]; [congruence|]. rewrite E in K. auto. }
    rewrite !Rplus_0_r in H0. exact H0.
  - apply (IH (end_row de) (end_pressure de x) leq N2 NI'). intros r Hr. specialize (H r (or_intror Hr)). rewrite W in H.
    destruct (Nat.eqb_spec oeq r); [subst; contradiction|].
    destruct (Nat.eqb_spec leq r); [subst; contradiction|]. rewrite !Rplus_0_l in H. exact H.
Qed.
Lemma chain_near op rest x : chain op rest x ->
  forall de, In de rest -> within (INR (length rest) * eps) (end_pressure de x) op.
Proof.
  revert op. induction rest as [|a rest IH]; intros op H de; [intros []|]. destruct H as [H1 H2].
  cbn [length]. rewrite S_INR. unfold within in *. pose proof (pos_INR (length rest)) as P.
  assert (0 <= INR (length rest) * eps) by (apply Rmult_le_pos; auto).
  intros [->|Hin]; [lra|].
  specialize (IH _ H2 de Hin).
  replace (end_pressure de x - op) with ((end_pressure de x - end_pressure a x) + (end_pressure a x - op)) by ring.
  eapply Rle_trans; [apply Rabs_triang|]. lra.
Qed.
Lemma within_sym e a b : within e a b -> within e b a.
Proof. unfold within. rewrite Rabs_minus_sym. auto. Qed.
Lemma within_mono e e' a b : e <= e' -> within e a b -> within e' a b.
Proof. unfold within. lra. Qed.
Lemma within_refl e a : 0 <= e -> within e a a.
Proof. unfold within. intro. rewrite Rminus_diag_eq, Rabs_R0; auto. Qed.
Lemma chain_pairs de0 rest x : chain (end_pressure de0 x) rest x ->
  forall a b, In a (de0 :: rest) -> In b (de0 :: rest) ->
    within (INR (length rest) * eps) (end_pressure a x) (end_pressure b x).
Proof.
  revert de0. induction rest as [|c rest IH]; intros de0 H a b Ha Hb.
  - destruct Ha as [<-|[]]. destruct Hb as [<-|[]]. apply within_refl. cbn. lra.
  - pose proof (chain_near _ _ _ H) as N. pose proof (pos_INR (length rest)) as P.
    assert (0 <= INR (length rest) * eps) by (apply Rmult_le_pos; auto).
    destruct Ha as [<-|Ha], Hb as [<-|Hb].
    + apply within_refl. cbn [length]. rewrite S_INR. lra.
    + apply within_sym, N, Hb.
    + apply N, Ha.
    + cbn [chain] in H. eapply within_mono; [|apply (IH c (proj2 H) a b Ha Hb)].
      cbn [length]. rewrite S_INR. lra.
Qed.

Lemma flow_small att x q : NoDup (flow_rows att) -> small (pflow att x q) -> att <> [] ->
  (forall a b, In a att -> In b att -> within (INR (length att - 1) * eps) (end_pressure a x) (end_pressure b x)) /\
  within eps (rsum (fun de => dsign (fst de) * end_flow de x) att) q.
Proof.
  intros ND H NE. unfold small in H. rewrite (proj1 (pflow_rows att x q)) in H.
  destruct att as [|de0 rest]; [congruence|].
  unfold flow_rows in *. inversion ND as [|? ? N1 N2]; subst. cbn [map] in *.
  set (leq := end_row (last (de0 :: rest) de0)) in *.
  destruct (pbal_zero rest x (end_row de0) (end_pressure de0 x) leq N2 N1) as [_ Z2].
  assert (W : forall r, wsum (pflow (de0 :: rest) x q) r =
     (if Nat.eqb leq r then -1 * q else 0) + ((if Nat.eqb leq r then dsign (fst de0) * end_flow de0 x else 0)
      + wsum (pbal rest x (end_row de0) (end_pressure de0 x) leq) r)) by reflexivity.
  split.
  - cbn [length]. rewrite Nat.sub_succ, Nat.sub_0_r. apply chain_pairs.
    apply (pbal_small rest x (end_row de0) _ leq N2 N1).
    intros r Hr. specialize (H r (or_intror Hr)). rewrite W in H.
    destruct (Nat.eqb_spec leq r); [subst r; contradiction|]. rewrite !Rplus_0_l in H. exact H.
  - specialize (H leq (or_introl eq_refl)). rewrite W, Nat.eqb_refl, Z2 in H. cbn [rsum]. unfold within.
    replace (dsign (fst de0) * end_flow de0 x + rsum (fun de => dsign (fst de) * end_flow de x) rest - q)
      with (-1 * q + (dsign (fst de0) * end_flow de0 x + rsum (fun de => dsign (fst de) * end_flow de x) rest)) by ring.
    exact H.
Qed.

(** ** Pressure nodes *)
Lemma pressure_small att x q : List.Forall has_end att ->
  small_imp (map end_row att) (pressure_evaluate att x q) (forall de, In de att -> within eps (end_pressure de x) q).
Proof.
  induction att as [|de att IH]; intro H.
  - exists []. split; [repeat split; cbn; auto|]. intros _ _ de [].
  - inversion H as [|? ? H1 H2]; subst. destruct (IH H2) as [ws [D V]]. destruct de as [d e].
    pose proof (end_vec_ok (d, e) x H1) as Ev. cbn [fst snd] in Ev.
    destruct D as [E [A1 A2]].
    exists ([Assign (end_row (d, e)) (end_pressure (d, e) x - q)] ++ ws). split; [split; [|split]|].
    + unfold pressure_evaluate in *. cbn [map oconcat fold_right]. unfold oconcat in E. rewrite E, Ev.
      cbn [obind]. rewrite end_vec_0. reflexivity.
    + cbn. f_equal. exact A1.
    + cbn [app adds_ok]. eapply adds_ok_incl; [|exact A2]. intros i [].
    + cbn [map]. intros ND S. inversion ND as [|? ? N1 N2]; subst.
      apply small_app in S; [|cbn; auto|auto|cbn [assigned flat_map app]; fold (assigned ws); rewrite A1; exact ND].
      destruct S as [S1 S2]. intros de [<-|Hd]; [|apply V; auto]. apply one_small in S1. exact S1.
Qed.

(** ** Nodes *)
Lemma gas_list_count N (f : edge -> nat) j d : forall es is, length is = length es ->
  length (gas_list N (filter (fun ie => Nat.eqb (f (snd ie)) j) (combine is es)) d)
  = length (filter (fun e => carries_gas e && Nat.eqb (f e) j)%bool es).
Proof.
  induction es as [|e es IH]; intros [|i is] H; try discriminate; [reflexivity|].
  cbn [length] in H. injection H as H. specialize (IH is H). cbn [combine filter snd].
  pose proof (gas_carries N i e) as G.
  destruct (Nat.eqb (f e) j); [|rewrite Bool.andb_false_r; exact IH]. rewrite Bool.andb_true_r.
  unfold gas_list in *. cbn [flat_map fst snd]. rewrite app_length.
  destruct (carries_gas e) eqn:C.
  - destruct (proj1 G eq_refl) as [g Eg]. rewrite Eg. cbn [length]. lia.
  - destruct (gas_of N i e) as [g|] eqn:Eg; [destruct G as [_ G]; specialize (G ltac:(eauto)); congruence|]. exact IH.
Qed.
Lemma attached_count N j : length (attached_gas N j) = gas_ends N j.
Proof.
  unfold attached_gas, gas_ends, numbered. rewrite app_length, !gas_list_count by apply seq_length. reflexivity.
Qed.

Lemma attached_of N j i e d x : nth_error (edges N) i = Some e -> carries_gas e = true -> touches e d j ->
  exists g, In (d, g) (attached_gas N j) /\ end_pressure (d, g) x = pressure_at N i e d x.
Proof.
  intros H1 H2 H3. apply (gas_carries N i e) in H2. destruct H2 as [g Hg]. exists g.
  split; [apply attached_iff; exists i, e; auto|]. apply end_pressure_at. exact Hg.
Qed.
Lemma flow_node_small N j x q : well_formed N -> is_gas_node N j ->
  small_imp (flow_rows (attached_gas N j)) (flow_balance (attached_gas N j) x q)
    (has_gas_edge N j ->
     close_pressures N j x (INR (gas_ends N j - 1) * eps) /\ within eps (net_outflow N j x) q).
Proof.
  intros W Hg. destruct (attached_facts N j W Hg) as [F1 _].
  exists (pflow (attached_gas N j) x q). split.
  - split; [apply flow_ok; auto|apply pflow_rows].
  - intros ND S NE. apply attached_nonempty in NE.
    destruct (flow_small _ x q ND S NE) as [A B]. rewrite attached_count in A. rewrite outflow_eq in B. split; [|exact B].
    intros i e d i' e' d' H1 H2 H3 H1' H2' H3'.
    destruct (attached_of N j i e d x H1 H2 H3) as [g [I1 E1]].
    destruct (attached_of N j i' e' d' x H1' H2' H3') as [g' [I2 E2]].
    rewrite <- E1, <- E2. auto.
Qed.

Lemma node_small N j t t1 x : well_formed N -> nth_error (nodes N) j = Some t -> has_boundary t t1 ->
  small_imp (node_rows N j t) (node_evaluate N j t t1 x) (node_equation_within N eps j t t1 x).
Proof.
  intros W H HB.
  destruct t as [|sink b|b|k ext gg bb b]; cbn [node_rows node_evaluate has_boundary node_equation_within] in *.
  - apply flow_node_small; auto. unfold is_gas_node. rewrite H. exact I.
  - destruct HB as [v E]. rewrite E. cbn [obind].
    assert (Hg : is_gas_node N j) by (unfold is_gas_node; rewrite H; exact I).
    destruct (flow_node_small N j x (if sink then - v 0%nat else v 0%nat) W Hg) as [ws [D V]].
    exists ws. split.
    + destruct (attached_gas N j); exact D.
    + intros ND S HE. exists v. destruct (V ND S HE). auto.
  - destruct HB as [v E]. rewrite E. cbn [obind].
    assert (Hg : is_gas_node N j) by (unfold is_gas_node; rewrite H; exact I).
    destruct (attached_facts N j W Hg) as [F1 _].
    destruct (pressure_small (attached_gas N j) x (v 0%nat) F1) as [ws [D V]].
    exists ws. split.
    + destruct (attached_gas N j); exact D.
    + intros ND S _. exists v. split; [auto|]. intros i e d H1 H2 H3.
      destruct (attached_of N j i e d x H1 H2 H3) as [g [I1 E1]]. rewrite <- E1. apply (V ND S). exact I1.
  - destruct HB as [v E]. rewrite E. cbn [obind].
    assert (Hp : is_power_node N j) by (unfold is_power_node; rewrite H; exact I).
    destruct (power_known N j W Hp) as [K1 [l [K2 K3]]].
    pose proof (power_value N j k ext gg bb b l x W H K2) as PV.
    assert (S : pn_start (power_of N j) = fst (node_block N j)) by (unfold power_of; rewrite H; reflexivity).
    destruct k; cbn [power_evaluate]; rewrite ?(P_ok _ l), ?(Q_ok _ l) by auto; cbn [obind]; rewrite S;
      (eexists; split; [split; [reflexivity|split; [reflexivity|cbn; auto]]|]); intros _ HS;
      apply two_small in HS; try lia; exists v; (split; [reflexivity|]); cbv zeta; rewrite ?PV; cbn [fst snd]; exact HS.
Qed.

(** ** Edges *)
Lemma cell_small d k dx t0 t1 last x i : geometry d k -> 0 < dx ->
  small_imp [i; (i + 1)%nat] (cell_evaluate (isothermal_euler d k) dx t0 t1 last x i)
    (cell_balanced_within eps d k dx t0 t1 (seg last (i - 1)) (seg last (i + 1)) (seg x (i - 1)) (seg x (i + 1))).
Proof.
  intros G Hx. unfold cell_evaluate.
  set (ll := seg last (i - 1)). set (lr := seg last (i + 1)). set (nl := seg x (i - 1)). set (nr := seg x (i + 1)).
  destruct (source d k nl) as [sl| |] eqn:El; [|rewrite source_ok in El by auto; discriminate ..].
  destruct (source d k nr) as [sr| |] eqn:Er; [|rewrite source_ok in Er by auto; discriminate ..].
  unfold evaluate_point. cbn [isothermal_euler bl_source bl_flux]. rewrite El, Er. cbn [obind omap].
  eexists. split; [split; [reflexivity|split; [reflexivity|cbn; auto]]|].
  intros _ HS. apply two_small in HS; [|lia]. exists sl, sr. split; [auto|]. split; [auto|].
  assert (Q : forall A B F S T, Rabs (1 / 2 * A - 1 / 2 * B - T / dx * F - 1 / 2 * T * S) <= eps ->
    Rabs (dx * (A / 2) - dx * (B / 2) - (T * F + T * dx * (S / 2))) <= dx * eps).
  { intros A B F S T HQ.
    replace (dx * (A / 2) - dx * (B / 2) - (T * F + T * dx * (S / 2)))
      with (dx * (1 / 2 * A - 1 / 2 * B - T / dx * F - 1 / 2 * T * S)) by (field; lra).
    rewrite Rabs_mult, (Rabs_pos_eq dx) by lra. apply Rmult_le_compat_l; lra. }
  intros c Hc. unfold within. destruct HS as [A1 A2].
  rewrite (Rplus_comm (sl c)). destruct c as [|[|c]]; [apply Q; exact A1|apply Q; exact A2|lia].
Qed.

Lemma edge_small N i e g t0 t1 last x c : well_formed N -> pipes_ok N ->
  nth_error (edges N) i = Some e -> gas_of N i e = Some g ->
  small_imp (edge_rows g) (edge_evaluate g t0 t1 last x c) (edge_equation_within N eps i e t0 t1 last x c).
Proof.
  intros W HP H E. destruct (gas_of_kind N i e g E) as [_ [E2 [E3 NL]]].
  destruct (gas_of_size N i e g W H E) as [SZ [_ S]].
  pose proof (gas_data N i e g W HP H E) as D.
  unfold pipes_ok in HP. rewrite List.Forall_forall in HP.
  pose proof (HP e (nth_error_In _ _ H)) as Hp.
  assert (K : edge_ok N e) by (eapply wf_edge; [exact W|apply in_numbered; exact H]). destruct K as [_ K].
  unfold edge_rows, edge_evaluate, edge_equation_within, gas_size, edge_data_ok in *. cbv zeta. rewrite <- E2. cbn [fst].
  assert (Short : forall r0 r1, short_size g ->
    small_imp (seq (ge_start g + 1) (ge_after g - ge_start g - 2)) (Ok (short_rows g r0 r1)) (Rabs r0 <= eps /\ Rabs r1 <= eps)).
  { intros r0 r1 Hs. rewrite short_rows_seq by auto. eexists. split; [split; [reflexivity|split; [reflexivity|cbn; auto]]|].
    intros _. apply two_small. lia. }
  assert (I0 : forall A, short_size g -> seg x (end_index dstart g) A = x (ge_start g + A)%nat) by reflexivity.
  assert (I1 : forall A, short_size g -> seg x (end_index dend g) A = x (ge_start g + 2 + A)%nat).
  { intros A Hs. unfold seg, end_index. unfold short_size in Hs. f_equal. lia. }
  assert (R1 : forall a b r, r = a - b -> Rabs r <= eps -> within eps a b) by (unfold within; intros; subst; auto).
  assert (R2 : forall a b r, r = b - a -> Rabs r <= eps -> within eps a b).
  { unfold within. intros. subst. rewrite Rabs_minus_sym. auto. }
  assert (Rs : forall a b r, r = a - b \/ r = b - a -> Rabs r <= eps -> within eps a b) by (intros a b r [?|?]; eauto).
  rewrite E3 in SZ, D |- *. destruct (e_type e) as [d k dx np| | | |g2p p2g|G B].
  - destruct Hp as [Hg Hdx]. destruct K as [K _]. cbn [edge_states] in S.
    assert (Sz : pipe_size g np) by (split; lia).
    rewrite <- (pipe_rows_seq g np Sz). unfold pipe_loop. rewrite (pipe_indices_ok g np Sz). cbn [obind].
    eapply small_weaken; [|apply (small_list (pipe_rows g np) (fun i => [i; (i + 1)%nat])
      (cell_evaluate (isothermal_euler d k) dx t0 t1 last x));
      intros a _; apply (cell_small d k dx t0 t1 last x a Hg Hdx)].
    intros A m Hm. specialize (A (ge_start g + 1 + 2 * m)%nat). cbv beta in A.
    replace (ge_start g + 1 + 2 * m - 1)%nat with (ge_start g + 2 * m)%nat in A by lia.
    replace (ge_start g + 1 + 2 * m + 1)%nat with (ge_start g + 2 * (m + 1))%nat in A by lia. apply A.
    unfold pipe_rows. apply in_map_iff. exists m. split; [lia|apply in_seq; lia].
  - rewrite !short_state by auto. cbn [obind]. rewrite !I0, !I1 by auto.
    eapply small_weaken; [|apply Short; auto]. rewrite !Nat.add_0_r, <- Nat.add_assoc.
    change (2 + 1)%nat with 3%nat. intros [A1 A2]. split; [eapply Rs; [|exact A1]|eapply Rs; [|exact A2]]; (left; ring) || (right; ring).
  - rewrite !short_state by auto. cbn [obind]. rewrite !I0, !I1 by auto.
    eapply small_weaken; [|apply Short; auto]. rewrite !Nat.add_0_r, <- Nat.add_assoc.
    change (2 + 1)%nat with 3%nat. intros [A1 A2]. split; [eapply Rs; [|exact A1]|eapply Rs; [|exact A2]]; (left; ring) || (right; ring).
  - rewrite !short_state by auto. cbn [obind]. rewrite !I0, !I1 by auto.
    eapply small_weaken; [|apply Short; auto]. rewrite !Nat.add_0_r, <- Nat.add_assoc.
    change (2 + 1)%nat with 3%nat. intros [A1 A2]. split; [eapply Rs; [|exact A1]|eapply Rs; [|exact A2]]; (left; ring) || (right; ring).
  - destruct D as [_ [l [HL _]]]. destruct K as [_ K]. rewrite (P_ok _ l) by auto. cbn [obind].
    rewrite gp_ok. cbn [obind]. eexists. split; [split; [reflexivity|split; [reflexivity|cbn; auto]]|].
    intros _ HS. apply one_small in HS. unfold is_power_node in K.
    destruct (nth_error (nodes N) (e_to e)) as [t|] eqn:En; [|destruct K]. destruct t as [| | |k ext G B b]; try (destruct K; fail).
    pose proof (power_value N (e_to e) k ext G B b l x W En HL) as PV. rewrite PV. cbn [fst].
    eexists. split; [reflexivity|]. eapply Rs; [|exact HS]. (left; ring) || (right; ring).
  - exfalso. eapply NL; eauto.
Qed.

Theorem writes_small N t0 t1 last x c : well_formed N -> pipes_ok N -> boundary_defined N t1 ->
  small_imp (all_rows N) (evaluate_writes N t0 t1 last x c) (network_equations_within N eps t0 t1 last x c).
Proof.
  intros W HP HB. unfold evaluate_writes, all_rows. cbv zeta. rewrite !oconcat_app, !on_edges_gases. unfold on_nodes.
  assert (Z : forall sel, small_imp (flat_map edge_rows (gases N sel))
     (oconcat (map (fun g => edge_evaluate g t0 t1 last x c) (gases N sel)))
     (forall g, In g (gases N sel) -> forall i e, nth_error (edges N) i = Some e -> gas_of N i e = Some g ->
        edge_equation_within N eps i e t0 t1 last x c)).
  { intro sel. apply (small_list (gases N sel) edge_rows (fun g => edge_evaluate g t0 t1 last x c)).
    intros g Hg. apply gases_in in Hg. destruct Hg as [i [e [H1 [H2 _]]]].
    eapply small_weaken; [|apply (edge_small N i e g t0 t1 last x c W HP H1 H2)].
    intros K i' e' H1' H2'. destruct (gas_of_kind _ _ _ _ H2) as [A1 _]. destruct (gas_of_kind _ _ _ _ H2') as [A2 _].
    assert (i = i') by congruence. subst i'. assert (e = e') by congruence. subst e'. rewrite A1. exact K. }
  pose proof (small_list (combine (seq 0 (length (nodes N))) (nodes N)) (fun jt => node_rows N (fst jt) (snd jt))
    (fun jt => node_evaluate N (fst jt) (snd jt) t1 x) (fun jt => node_equation_within N eps (fst jt) (snd jt) t1 x)) as ZN.
  eapply small_weaken; [|apply (small_both _ _ _ _ _ _ (ZN ltac:(intros [j t] Hin; apply in_combine_seq in Hin; apply node_small; auto; eapply boundary_has; eauto))
    (small_both _ _ _ _ _ _ (Z (fun e => negb (is_control e))) (Z is_control)))].
  intros [A [B1 B2]]. split.
  - intros j t H. apply (A (j, t)). apply in_combine_seq. exact H.
  - intros i e H. destruct (gas_of N i e) as [g|] eqn:E.
    + assert (Hg : forall sel, sel e = true -> In g (gases N sel)).
      { intros sel Hs. unfold gases. apply in_flat_map. exists (i, e). split; [apply in_numbered; exact H|].
        cbn [fst snd]. rewrite Hs, E. left. reflexivity. }
      destruct (is_control e) eqn:Ec.
      * apply (B2 g); auto.
      * apply (B1 g); auto. apply Hg. rewrite Ec. reflexivity.
    + unfold gas_of in E. destruct (edge_block N i). unfold edge_equation_within. destruct (e_type e); try discriminate. exact I.
Qed.

Theorem evaluate_small N t0 t1 last x c v : well_formed N -> pipes_ok N -> boundary_defined N t1 ->
  exists r, evaluate N t0 t1 last x c v = Ok r /\
    ((forall i, (i < number_of_states N)%nat -> Rabs (r i) <= eps) -> network_equations_within N eps t0 t1 last x c).
Proof.
  intros W HP HB. destruct (writes_small N t0 t1 last x c W HP HB) as [ws [[E [A B]] V]].
  pose proof (rows_perm N W) as PM.
  assert (ND : NoDup (all_rows N)) by (eapply Permutation_NoDup; [apply Permutation_sym; exact PM|apply seq_NoDup]).
  exists (run_writes ws v). split.
  { change (evaluate N t0 t1 last x c v) with (finish (number_of_states N) v (evaluate_writes N t0 t1 last x c)).
    rewrite E. apply finish_ok; [exact B|]. rewrite A. exact PM. }
  intro H. apply (V ND). intros i Hi.
  assert (NDw : NoDup (assigned ws)) by (rewrite A; exact ND).
  rewrite <- (run_assigned ws v i B NDw Hi). apply H.
  rewrite A in Hi. apply (Permutation_in _ PM) in Hi. apply in_seq in Hi. lia.
Qed.
End Small.
