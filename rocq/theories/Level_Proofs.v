(** Changes of pressures and flows that no equation sees. *)
From Coq Require Import Reals Lra Lia List Arith Bool Permutation.
From Coquelicot Require Import Coquelicot Complex.
From Verif Require Import Base Interp_Model Calc Euler_Model Euler_Spec Box_Model Net_Model Net_Spec Net_Proofs Net_Proofs2 Net_Proofs3 Net_Proofs4 Net_Proofs5 Net_Proofs6
  Net_Proofs7 Net_Proofs8 Net_Proofs9 Net_Props Mass_Proofs Grid_Spec Grid_Proofs Grid_Proofs2 Level_Spec.
Import ListNotations.
Local Open Scope R_scope.

(** ** Lists of writes with the same effect *)
Definition same_writes (o o' : outcome (list write)) : Prop :=
  match o, o' with
  | Ok w, Ok w' => forall r, wsum w r = wsum w' r
  | Exc, Exc | UB, UB => True
  | _, _ => False
  end.
Lemma same_refl o : same_writes o o.
Proof. destruct o; cbn; auto. Qed.
Lemma same_oapp a b a' b' : same_writes a a' -> same_writes b b' -> same_writes (oapp a b) (oapp a' b').
Proof.
  intros H1 H2. destruct a, a'; cbn in *; try tauto. destruct b, b'; cbn in *; try tauto.
  intro r. rewrite !wsum_app, H1, H2. reflexivity.
Qed.
Lemma same_concat {A} (f g : A -> outcome (list write)) l : (forall a, In a l -> same_writes (f a) (g a)) ->
  same_writes (oconcat (map f l)) (oconcat (map g l)).
Proof.
  induction l as [|a l IH]; intro H; [cbn; auto|].
  change (same_writes (oapp (f a) (oconcat (map f l))) (oapp (g a) (oconcat (map g l)))).
  apply same_oapp; [apply H; left; reflexivity|]. apply IH. intros; apply H; right; assumption.
Qed.

(** ** A node at which all pressures change alike *)
Lemma pbal_changed att x y D : (forall de, In de att -> end_pressure de y = end_pressure de x + D) ->
  forall oeq op leq r, wsum (pbal att y oeq (op + D) leq) r =
    wsum (pbal att x oeq op leq) r
    + (if Nat.eqb leq r then rsum (fun de => dsign (fst de) * (end_flow de y - end_flow de x)) att else 0).
Proof.
  induction att as [|de att IH]; intros H oeq op leq r.
  - cbn. destruct (Nat.eqb leq r); ring.
  - cbn [pbal]. rewrite !wsum_cons. cbn [write_index wval rsum]. rewrite (H de (or_introl eq_refl)).
    rewrite IH by (intros; apply H; right; assumption).
    destruct (Nat.eqb oeq r), (Nat.eqb leq r); ring.
Qed.
Lemma flow_changed att x y D q : List.Forall has_end att -> (forall de, In de att -> end_pressure de y = end_pressure de x + D) ->
  rsum (fun de => dsign (fst de) * (end_flow de y - end_flow de x)) att = 0 ->
  same_writes (flow_balance att y q) (flow_balance att x q).
Proof.
  intros F H Z. rewrite !flow_ok by exact F. cbn [same_writes]. intro r. destruct att as [|de rest]; [reflexivity|].
  cbn [pflow]. rewrite !wsum_cons. cbn [write_index wval]. rewrite (H de (or_introl eq_refl)).
  rewrite (pbal_changed rest x y D) by (intros; apply H; right; assumption). cbn [rsum] in Z.
  destruct (Nat.eqb (end_row (last (de :: rest) de)) r); lra.
Qed.
Lemma pressure_changed att x y q : List.Forall has_end att -> (forall de, In de att -> end_pressure de y = end_pressure de x) ->
  pressure_evaluate att y q = pressure_evaluate att x q.
Proof.
  intros F H. unfold pressure_evaluate. f_equal. apply map_ext_in. intros [d e] Hd. rewrite List.Forall_forall in F. pose proof (F _ Hd) as E.
  pose proof (end_vec_ok (d, e) x E) as E1. pose proof (end_vec_ok (d, e) y E) as E2. cbn [fst snd] in E1, E2.
  rewrite E1, E2. cbn [obind]. rewrite !end_vec_0, (H _ Hd). reflexivity.
Qed.

(** ** Cells of pipes *)
Lemma cell_kept d k dx t0 t1 last x y i :
  (forall c, (c < 2)%nat -> seg y (i - 1) c = seg x (i - 1) c /\ seg y (i + 1) c = seg x (i + 1) c) ->
  cell_evaluate (isothermal_euler d k) dx t0 t1 last y i = cell_evaluate (isothermal_euler d k) dx t0 t1 last x i.
Proof.
  intro H. unfold cell_evaluate, evaluate_point. cbn [isothermal_euler bl_source bl_flux].
  destruct (H 0%nat ltac:(lia)) as (A0 & B0). destruct (H 1%nat ltac:(lia)) as (A1 & B1).
  rewrite (source_same d k (seg x (i + 1)) (seg y (i + 1))) by assumption.
  rewrite (source_same d k (seg x (i - 1)) (seg y (i - 1))) by assumption.
  destruct (source d k (seg x (i + 1))); cbn [obind omap]; try reflexivity.
  destruct (source d k (seg x (i - 1))); cbn [obind omap]; try reflexivity.
  rewrite !(flux_same d (seg x (i - 1)) (seg y (i - 1))) by assumption.
  rewrite !(flux_same d (seg x (i + 1)) (seg y (i + 1))) by assumption.
  rewrite A0, A1, B0, B1. reflexivity.
Qed.

(** ** Positions *)
Lemma edges_apart N i i' e e' : nth_error (edges N) i = Some e -> nth_error (edges N) i' = Some e' -> (i < i')%nat ->
  (fst (edge_block N i) + edge_states (e_type e) <= fst (edge_block N i'))%nat.
Proof.
  intros H H' L. exact (block_order N (length (nodes N) + i) (length (nodes N) + i') _ _ ltac:(lia) (edge_size N i e H) (edge_size N i' e' H')).
Qed.
Lemma block_after N i e : nth_error (edges N) i = Some e ->
  snd (edge_block N i) = (fst (edge_block N i) + edge_states (e_type e))%nat /\ (snd (edge_block N i) <= number_of_states N)%nat.
Proof. intro H. destruct (edge_block_spec N i e H) as (s & E & L). rewrite E. cbn. lia. Qed.
Lemma end_inside N i e d : well_formed N -> nth_error (edges N) i = Some e -> gas_end e d ->
  (fst (edge_block N i) <= end_position N i d)%nat /\ (end_position N i d + 2 <= fst (edge_block N i) + edge_states (e_type e))%nat.
Proof.
  intros W H G. destruct (block_after N i e H) as (A & _). unfold end_position, gas_end in *.
  unfold well_formed in W. rewrite List.Forall_forall in W. destruct (W e (nth_error_In _ _ H)) as (_ & K).
  destruct d; rewrite ?A; destruct (e_type e); cbn [edge_states] in *; try (destruct G; fail); lia.
Qed.
Lemma blocks_equal N i i' e e' k : nth_error (edges N) i = Some e -> nth_error (edges N) i' = Some e' ->
  (fst (edge_block N i) <= k < fst (edge_block N i) + edge_states (e_type e))%nat ->
  (fst (edge_block N i') <= k < fst (edge_block N i') + edge_states (e_type e'))%nat -> i = i' /\ e = e'.
Proof.
  intros H H' L L'. destruct (Nat.lt_total i i') as [Q|[<-|Q]].
  - pose proof (edges_apart N i i' e e' H H' Q). lia.
  - split; congruence.
  - pose proof (edges_apart N i' i e' e H' H Q). lia.
Qed.

Section Change.
Variable N : network.
Variables h z : nat -> R.
Variable a : R.
Variables x y : vec.
Hypothesis W : well_formed N.
Hypothesis U : unseen N h z.
Hypothesis X : changed N h z a x y.

Lemma before_edges k : (forall i e, nth_error (edges N) i = Some e -> k < fst (edge_block N i))%nat -> y k = x k.
Proof.
  intro H. apply (proj2 X). intros i e d He G. pose proof (H i e He). pose proof (end_inside N i e d W He G). lia.
Qed.
Lemma power_kept j : is_power_node N j -> P (power_of N j) y = P (power_of N j) x /\ Q (power_of N j) y = Q (power_of N j) x.
Proof.
  intro H.
  assert (V : forall j, is_power_node N j -> voltage N j y = voltage N j x).
  { intros j' H'. unfold voltage. rewrite !(before_edges (fst (node_block N j'))), !(before_edges (fst (node_block N j') + 1)); [reflexivity|..];
      intros i e He; pose proof (node_before_edge N j' i e H' He); lia. }
  destruct (power_known N j W H) as (_ & l & Hl & _).
  assert (E : exists k e G B b, nth_error (nodes N) j = Some (Powernode k e G B b)).
  { unfold is_power_node in H. destruct (nth_error (nodes N) j) as [[]|]; try (destruct H; fail). eauto 6. }
  destruct E as (k & e & G & B & b & E).
  pose proof (power_value N j k e G B b l x W E Hl) as Ex. pose proof (power_value N j k e G B b l y W E Hl) as Ey.
  assert (PE : power N j G B y = power N j G B x).
  { unfold power, current. rewrite V by exact H. do 3 f_equal. unfold csum. pose proof W as W'. unfold well_formed in W'. rewrite List.Forall_forall in W'.
    assert (Q : forall l, (forall e, In e l -> In e (edges N)) ->
      fold_right (fun e acc => Cplus (match e_type e with
                    | ELine g b =>
                        Cplus (if Nat.eqb (e_from e) j then Cmult (g, b) (voltage N (e_to e) y) else RtoC 0)
                              (if Nat.eqb (e_to e) j then Cmult (g, b) (voltage N (e_from e) y) else RtoC 0)
                    | _ => RtoC 0
                    end) acc) (RtoC 0) l =
      fold_right (fun e acc => Cplus (match e_type e with
                    | ELine g b =>
                        Cplus (if Nat.eqb (e_from e) j then Cmult (g, b) (voltage N (e_to e) x) else RtoC 0)
                              (if Nat.eqb (e_to e) j then Cmult (g, b) (voltage N (e_from e) x) else RtoC 0)
                    | _ => RtoC 0
                    end) acc) (RtoC 0) l).
    { induction l0 as [|e0 l0 IH]; intro Hl0; [reflexivity|]. cbn [fold_right]. rewrite IH by (intros; apply Hl0; right; assumption).
      destruct (W' e0 (Hl0 e0 (or_introl eq_refl))) as (_ & K). destruct (e_type e0); try reflexivity. destruct K as (K1 & K2). rewrite !V by assumption. reflexivity. }
    apply Q. auto. }
  rewrite PE, Ex in Ey. injection Ey as E1 E2. rewrite !(P_ok _ l), !(Q_ok _ l) by exact Hl. rewrite E1, E2. split; reflexivity.
Qed.

Lemma pipe_kept i e d k dx np : nth_error (edges N) i = Some e -> e_type e = EPipe d k dx np ->
  forall m, (fst (edge_block N i) <= m < fst (edge_block N i) + 2 * np)%nat -> y m = x m.
Proof.
  intros He Ty m L. destruct U as (_ & U2 & _). pose proof (U2 i e He) as U3. rewrite Ty in U3. destruct U3 as (H1 & H2 & H3).
  assert (G : forall d', gas_end e d') by (intro; unfold gas_end; rewrite Ty; destruct d'; exact Logic.I).
  assert (D : forall d', y (end_position N i d') = x (end_position N i d') /\ y (end_position N i d' + 1)%nat = x (end_position N i d' + 1)%nat).
  { intro d'. destruct (proj1 X i e d' He (G d')) as (A & B). rewrite A, B, H3. destruct d'; cbn [end_node]; rewrite ?H1, ?H2; split; ring. }
  destruct (Nat.eq_dec m (end_position N i dstart)) as [->|D1]; [apply D|].
  destruct (Nat.eq_dec m (end_position N i dstart + 1)) as [->|D2]; [apply D|].
  destruct (Nat.eq_dec m (end_position N i dend)) as [->|D3]; [apply D|].
  destruct (Nat.eq_dec m (end_position N i dend + 1)) as [->|D4]; [apply D|].
  apply (proj2 X). intros i' e' d' He' G'. pose proof (end_inside N i' e' d' W He' G') as I1.
  destruct (Nat.eq_dec i' i) as [->|Ne].
  - destruct d'; lia.
  - split; intros ->; apply Ne.
    + apply (blocks_equal N i' i e' e (end_position N i' d') He' He); [lia|rewrite Ty; cbn [edge_states]; lia].
    + apply (blocks_equal N i' i e' e (end_position N i' d' + 1) He' He); [lia|rewrite Ty; cbn [edge_states]; lia].
Qed.
Lemma gas_end_of i e g d : nth_error (edges N) i = Some e -> gas_of N i e = Some g -> has_end (d, g) -> gas_end e d.
Proof.
  intros He Hg H. destruct (gas_of_size N i e g W He Hg) as (_ & _ & S). destruct (gas_of_kind N i e g Hg) as (_ & _ & _ & NL).
  unfold has_end, gas_end in *. cbn [fst snd] in H. destruct (e_type e); cbn [edge_states] in S; try exact Logic.I; try (destruct d; [exact Logic.I|lia]).
  exact (NL _ _ eq_refl).
Qed.
Lemma end_moved i e d : nth_error (edges N) i = Some e -> gas_end e d ->
  pressure_at N i e d y = pressure_at N i e d x + a * h (end_node e d) /\ flow_at N i d y = flow_at N i d x + a * z i.
Proof.
  intros He G. destruct (proj1 X i e d He G) as (A & B). unfold pressure_at, flow_at. split; [|exact B].
  destruct (e_type e) as [dd k dx np| | | | |] eqn:Ty; try exact A.
  destruct U as (_ & U2 & _). pose proof (U2 i e He) as U3. rewrite Ty in U3. destruct U3 as (H1 & H2 & _).
  assert (Z : h (end_node e d) = 0) by (destruct d; assumption). rewrite Z in *. rewrite A, Rmult_0_r, !Rplus_0_r. reflexivity.
Qed.
Lemma ends_moved j de : is_gas_node N j -> In de (attached_gas N j) ->
  end_pressure de y = end_pressure de x + a * h j /\
  exists i e, nth_error (edges N) i = Some e /\ gas_of N i e = Some (snd de) /\ end_flow de y - end_flow de x = a * z i.
Proof.
  intros Hg Hin. destruct (attached_facts N j W Hg) as (F & _). rewrite List.Forall_forall in F. pose proof (F _ Hin) as E.
  destruct de as [d g]. apply attached_iff in Hin. destruct Hin as (i & e & H1 & H2 & H3).
  destruct (end_moved i e d H1 (gas_end_of i e g d H1 H2 E)) as (A & B).
  rewrite !(end_pressure_at N i e g d _ H2). split.
  - rewrite A. destruct d; cbn in *; rewrite H3; reflexivity.
  - exists i, e. split; [exact H1|]. split; [exact H2|]. rewrite !(end_flow_at N i e g d _ H2), B. ring.
Qed.
Lemma flow_sum j : is_gas_node N j ->
  rsum (fun de => dsign (fst de) * (end_flow de y - end_flow de x)) (attached_gas N j) = a * divergence N z j.
Proof.
  intro Hg.
  transitivity (rsum (fun de => a * (dsign (fst de) * z (ge_addr (snd de)))) (attached_gas N j)).
  - apply rsum_ext. intros de Hd. destruct (ends_moved j de Hg Hd) as (_ & i & e & H1 & H2 & E). rewrite E.
    destruct (gas_of_kind N i e (snd de) H2) as (-> & _). ring.
  - rewrite rsum_scal. f_equal. unfold attached_gas, divergence, gas_list. rewrite rsum_app, !rsum_flat, !rsum_filter, rsum_plus.
    apply rsum_ext. intros [i e] _. cbn [fst snd].
    destruct (gas_of N i e) as [g|] eqn:E.
    + assert (C : carries_gas e = true) by (apply (gas_carries N i e); eauto). rewrite C.
      destruct (gas_of_kind N i e g E) as (K & _). cbn [rsum fst snd dsign]. rewrite K.
      destruct (Nat.eqb (e_from e) j), (Nat.eqb (e_to e) j); ring.
    + destruct (carries_gas e) eqn:C; [apply (gas_carries N i e) in C; destruct C; congruence|].
      cbn [rsum]. destruct (Nat.eqb (e_from e) j), (Nat.eqb (e_to e) j); ring.
Qed.
Lemma node_changed j t t1 : nth_error (nodes N) j = Some t -> same_writes (node_evaluate N j t t1 y) (node_evaluate N j t t1 x).
Proof.
  intro H. destruct U as (U1 & _ & U3).
  assert (Fl : balances N j -> forall q, same_writes (flow_balance (attached_gas N j) y q) (flow_balance (attached_gas N j) x q)).
  { intros Hb q. assert (Hg : is_gas_node N j) by (unfold is_gas_node, balances in *; destruct (nth_error (nodes N) j) as [[]|]; tauto).
    apply (flow_changed _ x y (a * h j)); [apply (attached_facts N j W Hg)| |].
    - intros de Hd. apply (ends_moved j de Hg Hd).
    - rewrite flow_sum by exact Hg. rewrite U3 by exact Hb. ring. }
  unfold node_evaluate. destruct t as [|sink b|b|k ext G' B b].
  - apply Fl. unfold balances. rewrite H. exact Logic.I.
  - assert (S : balances N j) by (unfold balances; rewrite H; exact Logic.I). pose proof (Fl S) as Fl'.
    destruct (attached_gas N j); [apply same_refl|]. destruct (b t1); cbn [obind]; [apply Fl'|exact Logic.I|exact Logic.I].
  - assert (Hg : is_gas_node N j) by (unfold is_gas_node; rewrite H; exact Logic.I).
    destruct (b t1) as [v| |]; cbn [obind]; [|destruct (attached_gas N j); apply same_refl..].
    rewrite (pressure_changed (attached_gas N j) x y); [apply same_refl|apply (attached_facts N j W Hg)|].
    intros de Hd. rewrite (proj1 (ends_moved j de Hg Hd)), (U1 j b H). ring.
  - assert (Hp : is_power_node N j) by (unfold is_power_node; rewrite H; exact Logic.I).
    destruct (b t1) as [v| |]; cbn [obind]; [|exact Logic.I..]. destruct (power_kept j Hp) as (EP & EQ). unfold power_evaluate.
    assert (SV : pn_start (power_of N j) = fst (node_block N j)) by (unfold power_of; rewrite H; reflexivity).
    assert (E0 : y (fst (node_block N j)) = x (fst (node_block N j))) by (apply before_edges; intros i e He; pose proof (node_before_edge N j i e Hp He); lia).
    assert (E1 : y (fst (node_block N j) + 1)%nat = x (fst (node_block N j) + 1)%nat) by (apply before_edges; intros i e He; pose proof (node_before_edge N j i e Hp He); lia).
    destruct k; rewrite ?EP, ?EQ, ?SV, ?E0, ?E1; apply same_refl.
Qed.
Lemma short_state_of i e g d v : nth_error (edges N) i = Some e -> gas_of N i e = Some g -> short_size g ->
  boundary_state d g v = Ok (seg v (end_position N i d)).
Proof.
  intros He Hg Sz. rewrite (short_state g d v Sz). unfold end_index, end_position. destruct (gas_of_kind N i e g Hg) as (_ & E & _).
  rewrite <- E. reflexivity.
Qed.
Lemma edge_changed i e g t0 t1 last c : nth_error (edges N) i = Some e -> gas_of N i e = Some g ->
  same_writes (edge_evaluate g t0 t1 last y c) (edge_evaluate g t0 t1 last x c).
Proof.
  intros He Hg. destruct (gas_of_size N i e g W He Hg) as (Sz & _ & Af). destruct (gas_of_kind N i e g Hg) as (_ & E & K & NL).
  assert (Es : ge_start g = fst (edge_block N i)) by (rewrite <- E; reflexivity).
  pose proof W as W'. unfold well_formed in W'. rewrite List.Forall_forall in W'. destruct (W' e (nth_error_In _ _ He)) as (_ & Ke).
  unfold edge_evaluate. unfold gas_size in Sz.
  assert (Short : short e -> forall d, (seg y (end_position N i d) 0%nat = seg x (end_position N i d) 0%nat + a * h (e_from e)) /\
     seg y (end_position N i d) 1%nat = seg x (end_position N i d) 1%nat + a * z i).
  { intros S d. assert (G : gas_end e d) by (unfold gas_end, short in *; destruct (e_type e), d; tauto).
    destruct (proj1 X i e d He G) as (A & B). unfold seg. rewrite Nat.add_0_r, A, B. split; [|reflexivity].
    destruct U as (_ & U2 & _). pose proof (U2 i e He) as U3. unfold short in S. destruct (e_type e); try (destruct S; fail);
      destruct d; cbn [end_node]; rewrite ?U3; reflexivity. }
  assert (Pr : forall r0 r1 r0' r1', r0 = r0' -> r1 = r1' -> same_writes (Ok (short_rows g r0 r1)) (Ok (short_rows g r0' r1'))).
  { intros r0 r1 r0' r1' -> ->. apply same_refl. }
  destruct (e_type e) as [d k dx np| |w| |g2p p2g|G B] eqn:Ty; try rewrite K; try rewrite K in Sz; cbn [edge_states] in Af.
  - unfold pipe_loop. rewrite (pipe_indices_ok g np) by (split; [tauto|lia]). cbn [obind].
    rewrite (map_ext_in _ (cell_evaluate (isothermal_euler d k) dx t0 t1 last x)); [apply same_refl|].
    intros m Hm. unfold pipe_rows in Hm. apply in_map_iff in Hm. destruct Hm as (q & <- & Hq). apply in_seq in Hq.
    apply cell_kept. intros c' Hc'. unfold seg. split; apply (pipe_kept i e d k dx np He Ty); lia.
  - rewrite !(short_state_of i e g _ _ He Hg Sz). cbn [obind].
    destruct (Short ltac:(unfold short; rewrite Ty; exact Logic.I) dstart) as (A1 & A2). destruct (Short ltac:(unfold short; rewrite Ty; exact Logic.I) dend) as (B1 & B2).
    rewrite A1, A2, B1, B2. apply Pr; ring.
  - rewrite !(short_state_of i e g _ _ He Hg Sz). cbn [obind].
    destruct (Short ltac:(unfold short; rewrite Ty; exact Logic.I) dstart) as (A1 & A2). destruct (Short ltac:(unfold short; rewrite Ty; exact Logic.I) dend) as (B1 & B2).
    rewrite A1, A2, B1, B2. apply Pr; ring.
  - rewrite !(short_state_of i e g _ _ He Hg Sz). cbn [obind].
    destruct (Short ltac:(unfold short; rewrite Ty; exact Logic.I) dstart) as (A1 & A2). destruct (Short ltac:(unfold short; rewrite Ty; exact Logic.I) dend) as (B1 & B2).
    rewrite A1, A2, B1, B2. apply Pr; ring.
  - destruct (power_kept (e_to e) ltac:(tauto)) as (EP & _). rewrite EP.
    assert (G : gas_end e dstart) by (unfold gas_end; rewrite Ty; exact Logic.I).
    destruct (proj1 X i e dstart He G) as (_ & B). unfold end_position in B. rewrite <- Es in B.
    destruct U as (_ & U2 & _). pose proof (U2 i e He) as U3. rewrite Ty in U3. rewrite B, U3, Rmult_0_r, Rplus_0_r. apply same_refl.
  - exfalso. exact (NL G B eq_refl).
Qed.
End Change.
