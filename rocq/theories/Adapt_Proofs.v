(** Controls that are adapted to other pressures. *)
From Coq Require Import Reals Lra Lia List Arith Bool.
From Coquelicot Require Import Complex.
From Verif Require Import Base Calc Euler_Model Euler_Spec Box_Model Net_Model Net_Spec Net_Proofs4 Net_Proofs5 Net_Proofs6 Net_Proofs7 Net_Proofs8 Net_Proofs9 Cost_Spec Cost_Proofs Mass_Proofs Grid_Proofs Grid_Proofs2 Level_Spec Level_Proofs Lift_Spec.
From Verif Require Import Adapt_Spec.
Import ListNotations.
Local Open Scope R_scope.

Section Adapt.
Variable N : network.
Variables h z : nat -> R.
Variables x y c c' : vec.
Hypothesis W : well_formed N.
Hypothesis U : adaptable N h z.
Hypothesis A : adapted N h c c'.
Hypothesis X : changed N h z 1 x y.

Lemma moved_before k : (forall i e, nth_error (edges N) i = Some e -> k < fst (edge_block N i))%nat -> y k = x k.
Proof. exact (before_edges N h z 1 x y W X k). Qed.
Lemma moved_node j : is_power_node N j -> y (fst (node_block N j)) = x (fst (node_block N j)) /\ y (fst (node_block N j) + 1)%nat = x (fst (node_block N j) + 1)%nat.
Proof. intro H. split; apply moved_before; intros i e He; pose proof (node_before_edge N j i e H He); lia. Qed.
Lemma moved_voltage j : is_power_node N j -> voltage N j y = voltage N j x.
Proof. intro H. unfold voltage. destruct (moved_node j H) as (-> & ->). reflexivity. Qed.
Lemma moved_edge e : In e (edges N) -> edge_ok N e.
Proof. pose proof W as W'. unfold well_formed in W'. rewrite List.Forall_forall in W'. apply W'. Qed.
Lemma moved_power j G B : is_power_node N j -> power N j G B y = power N j G B x.
Proof.
  intro H. unfold power, current. rewrite moved_voltage by exact H. do 3 f_equal. unfold csum.
  assert (Q : forall f g : edge -> C, (forall e, In e (edges N) -> f e = g e) -> forall l, (forall e, In e l -> In e (edges N)) ->
    fold_right (fun e acc => Cplus (f e) acc) (RtoC 0) l = fold_right (fun e acc => Cplus (g e) acc) (RtoC 0) l).
  { intros f g F. induction l as [|e l IH]; intro L; [reflexivity|]. cbn. rewrite IH by (intros; apply L; right; assumption). rewrite F by (apply L; left; reflexivity). reflexivity. }
  apply Q; [|auto]. intros e I. destruct (moved_edge e I) as (_ & K). destruct (e_type e); try reflexivity. destruct K as (K1 & K2). rewrite !moved_voltage by assumption. reflexivity.
Qed.
Lemma moved_pipe i e d k dx np : nth_error (edges N) i = Some e -> e_type e = EPipe d k dx np ->
  forall m, (fst (edge_block N i) <= m < fst (edge_block N i) + 2 * np)%nat -> y m = x m.
Proof.
  intros He Ty m L. destruct U as (_ & U2 & _). pose proof (U2 i e He) as U3. rewrite Ty in U3. destruct U3 as (H1 & H2 & H3).
  assert (G : forall d', gas_end e d') by (intro; unfold gas_end; rewrite Ty; destruct d'; exact Logic.I).
  assert (D : forall d', y (end_position N i d') = x (end_position N i d') /\ y (end_position N i d' + 1)%nat = x (end_position N i d' + 1)%nat).
  { intro d'. destruct (proj1 X i e d' He (G d')) as (P & Q). rewrite P, Q, H3. destruct d'; cbn [end_node]; rewrite ?H1, ?H2; split; ring. }
  destruct (Nat.eq_dec m (end_position N i dstart)) as [->|D1]; [apply D|].
  destruct (Nat.eq_dec m (end_position N i dstart + 1)) as [->|D2]; [apply D|].
  destruct (Nat.eq_dec m (end_position N i dend)) as [->|D3]; [apply D|].
  destruct (Nat.eq_dec m (end_position N i dend + 1)) as [->|D4]; [apply D|].
  apply (proj2 X). intros i' e' d' He' G'. pose proof (end_inside N i' e' d' W He' G') as I1.
  destruct (Nat.eq_dec i' i) as [->|Ne].
  - destruct d'; lia.
  - split; intros ->; apply Ne.
    + apply (blocks_equal N i' i e' e (end_position N i' d') He' He); [lia|rewrite Ty; cbn [edge_states]; lia].
    + apply (blocks_equal N i' i e' e (end_position N i' d' + 1) He' He); [lia|rewrite Ty; cbn [edge_states]; lia].
Qed.
Lemma moved_end i e d : nth_error (edges N) i = Some e -> gas_end e d ->
  pressure_at N i e d y = pressure_at N i e d x + h (end_node e d) /\ flow_at N i d y = flow_at N i d x + z i.
Proof.
  intros He G. destruct (proj1 X i e d He G) as (P & Q). rewrite Rmult_1_l in P, Q. unfold pressure_at, flow_at. split; [|exact Q].
  destruct (e_type e) as [dd k dx np| | | | |] eqn:Ty; try exact P.
  destruct U as (_ & U2 & _). pose proof (U2 i e He) as U3. rewrite Ty in U3. destruct U3 as (H1 & H2 & _).
  assert (Z : h (end_node e d) = 0) by (destruct d; assumption). rewrite Z in *. rewrite P, !Rplus_0_r. reflexivity.
Qed.
Lemma touching e d j : In e (edges N) -> carries_gas e = true -> touches e d j -> is_gas_node N j -> gas_end e d /\ end_node e d = j.
Proof.
  intros I C T G. split; [|destruct d; exact T]. destruct (moved_edge e I) as (_ & K). unfold gas_end, carries_gas, touches in *.
  destruct (e_type e) as [| | | | |]; try (destruct d; exact Logic.I); try discriminate. destruct d; [exact Logic.I|].
  destruct K as (_ & K). rewrite T in K. unfold is_power_node, is_gas_node in *. destruct (nth_error (nodes N) j) as [[]|]; auto.
Qed.
Lemma moved_equal j pr : is_gas_node N j -> equal_pressures N j x pr -> equal_pressures N j y (pr + h j).
Proof.
  intros G H i e d He C T. destruct (touching e d j (nth_error_In _ _ He) C T G) as (Ge & En).
  rewrite (proj1 (moved_end i e d He Ge)), En, (H i e d He C T). reflexivity.
Qed.
Lemma moved_outflow j : is_gas_node N j -> net_outflow N j y = net_outflow N j x + divergence N z j.
Proof.
  intro G. unfold net_outflow, divergence. rewrite rsum_plus. apply rsum_ext. intros [i e] I. apply in_numbered in I. cbn [fst snd].
  destruct (carries_gas e) eqn:C; [|ring].
  assert (T : forall d, Nat.eqb (end_node e d) j = true -> flow_at N i d y = flow_at N i d x + z i).
  { intros d E. apply Nat.eqb_eq in E. apply (moved_end i e d I). apply (touching e d j (nth_error_In _ _ I) C); [destruct d; exact E|exact G]. }
  pose proof (T dstart) as T1. pose proof (T dend) as T2. cbn [end_node] in *.
  destruct (Nat.eqb (e_from e) j), (Nat.eqb (e_to e) j); rewrite ?T1, ?T2 by reflexivity; ring.
Qed.
Lemma moved_short i e : nth_error (edges N) i = Some e -> short e ->
  let s := fst (edge_block N i) in
  y s = x s + h (e_from e) /\ y (s + 1)%nat = x (s + 1)%nat + z i /\ y (s + 2)%nat = x (s + 2)%nat + h (e_to e) /\ y (s + 3)%nat = x (s + 3)%nat + z i.
Proof.
  intros He S s. assert (G : forall d, gas_end e d) by (intro d; unfold gas_end, short in *; destruct (e_type e), d; tauto).
  destruct (proj1 X i e dstart He (G dstart)) as (P1 & Q1). destruct (proj1 X i e dend He (G dend)) as (P2 & Q2).
  destruct (block_after N i e He) as (E & _). assert (Es : edge_states (e_type e) = 4%nat) by (unfold short in S; destruct (e_type e); try destruct S; reflexivity).
  unfold end_position in *. rewrite E, Es in P2, Q2. fold s in P1, Q1, P2, Q2. replace (s + 4 - 2)%nat with (s + 2)%nat in P2, Q2 by lia.
  replace (s + 2 + 1)%nat with (s + 3)%nat in Q2 by lia. cbn [end_node] in *. lra.
Qed.
Lemma moved_solution t0 t1 last : network_equations N t0 t1 last x c -> network_equations N t0 t1 last y c'.
Proof.
  intros (Hn & He). destruct U as (U1 & U2 & U3). split.
  - intros j t Hj. specialize (Hn j t Hj). destruct t as [|sink b|b|k ext G B b]; cbn [node_equation] in *.
    + assert (Gj : is_gas_node N j) by (unfold is_gas_node; rewrite Hj; exact Logic.I).
      intro Hh. destruct (Hn Hh) as ((pr & P) & Q). rewrite moved_outflow, U3 by (try exact Gj; unfold balances; rewrite Hj; exact Logic.I).
      split; [exists (pr + h j); apply moved_equal; assumption|lra].
    + assert (Gj : is_gas_node N j) by (unfold is_gas_node; rewrite Hj; exact Logic.I).
      intro Hh. destruct (Hn Hh) as (v & Hv & (pr & P) & Q). exists v. rewrite moved_outflow, U3 by (try exact Gj; unfold balances; rewrite Hj; exact Logic.I).
      split; [exact Hv|]. split; [exists (pr + h j); apply moved_equal; assumption|lra].
    + assert (Gj : is_gas_node N j) by (unfold is_gas_node; rewrite Hj; exact Logic.I).
      intro Hh. destruct (Hn Hh) as (v & Hv & P). exists v. split; [exact Hv|]. pose proof (moved_equal j _ Gj P) as Q. rewrite (U1 j b Hj), Rplus_0_r in Q. exact Q.
    + assert (Pj : is_power_node N j) by (unfold is_power_node; rewrite Hj; exact Logic.I).
      rewrite moved_power by exact Pj. destruct (moved_node j Pj) as (-> & ->). exact Hn.
  - intros i e Hi. specialize (He i e Hi). specialize (U2 i e Hi). pose proof (A i e Hi) as L. pose proof (moved_short i e Hi) as S.
    unfold edge_equation in *. unfold lift, short in *. cbv zeta in *.
    destruct (e_type e) as [d k dx np| | | |g2p p2g|g b] eqn:T.
    + assert (E : forall m q, (m < np)%nat -> (q < 2)%nat -> seg y (fst (edge_block N i) + 2 * m) q = seg x (fst (edge_block N i) + 2 * m) q).
      { intros m q Hm Hq. unfold seg. apply (moved_pipe i e d k dx np Hi T). lia. }
      intros m Hm. destruct (He m Hm) as (sl & sr & E1 & E2 & E3). exists sl, sr.
      rewrite !(source_same d k (seg x (fst (edge_block N i) + 2 * m)) (seg y (fst (edge_block N i) + 2 * m))) by (apply E; lia).
      rewrite !(source_same d k (seg x (fst (edge_block N i) + 2 * (m + 1))) (seg y (fst (edge_block N i) + 2 * (m + 1)))) by (apply E; lia).
      split; [exact E1|]. split; [exact E2|]. intros q Hq. specialize (E3 q Hq).
      rewrite !(flux_same d (seg x (fst (edge_block N i) + 2 * m)) (seg y (fst (edge_block N i) + 2 * m))) by (try (apply E; lia); lia).
      rewrite !(flux_same d (seg x (fst (edge_block N i) + 2 * (m + 1))) (seg y (fst (edge_block N i) + 2 * (m + 1)))) by (try (apply E; lia); lia).
      rewrite !E by lia. exact E3.
    + specialize (S Logic.I). specialize (L Logic.I). destruct He; split; lra.
    + specialize (S Logic.I). specialize (L Logic.I). destruct He; split; lra.
    + specialize (S Logic.I). specialize (L Logic.I). destruct He; split; lra.
    + assert (Ge : gas_end e dstart) by (unfold gas_end; rewrite T; exact Logic.I).
      destruct (proj1 X i e dstart Hi Ge) as (_ & Q). unfold end_position in Q. rewrite U2 in Q. rewrite Q, Rmult_0_r, Rplus_0_r.
      destruct He as (w & Hw & He). exists w. split; [exact Hw|]. destruct (moved_edge e (nth_error_In _ _ Hi)) as (_ & K). rewrite T in K. destruct K as (_ & K).
      destruct (nth_error (nodes N) (e_to e)) as [[| | |]|]; try exact He. rewrite moved_power by exact K. exact He.
    + exact Logic.I.
Qed.
End Adapt.

(** ** The way back *)
Lemma adaptable_back N h z : adaptable N h z -> adaptable N (fun j => - h j) (fun i => - z i).
Proof.
  intros (A & B & C). split; [intros j b H; rewrite (A j b H); ring|]. split.
  - intros i e H. specialize (B i e H). destruct (e_type e); try exact Logic.I; lra.
  - intros j H. transitivity (- divergence N z j); [|rewrite (C j H); ring]. replace (- divergence N z j) with (-1 * divergence N z j) by ring.
    unfold divergence. rewrite <- rsum_scal. apply rsum_ext. intros [i e] _. cbn [fst snd]. destruct (carries_gas e), (Nat.eqb (e_from e) j), (Nat.eqb (e_to e) j); ring.
Qed.
Lemma adapted_back N h c c' : adapted N h c c' -> adapted N (fun j => - h j) c' c.
Proof. intros A i e H S. rewrite (A i e H S). ring. Qed.
Lemma changed_back N h z x y : changed N h z 1 x y -> changed N (fun j => - h j) (fun i => - z i) 1 y x.
Proof.
  intros (A & B). split; [|intros k H; symmetry; apply B; exact H]. intros i e d H G. destruct (A i e d H G) as (P & Q). rewrite P, Q. split; ring.
Qed.

(** ** There are such controls *)
Lemma sums_apart l : forall i i' k, nth_error l i = Some k -> (i < i')%nat -> (list_sum (firstn i l) + k <= list_sum (firstn i' l))%nat.
Proof.
  induction l as [|a l IH]; intros [|i] i' k H L; try discriminate; destruct i' as [|i']; try lia; cbn in H |- *.
  - injection H as <-. lia.
  - specialize (IH i i' k H ltac:(lia)). unfold list_sum in IH. lia.
Qed.
Lemma controls_apart N i i' e : nth_error (edges N) i = Some e -> (i < i')%nat -> (i' < length (edges N))%nat ->
  (fst (control_block N i) + edge_controls (e_type e) <= fst (control_block N i'))%nat.
Proof.
  intros H L L'. assert (Li : (i < length (edges N))%nat) by lia. unfold control_block, control_blocks.
  rewrite !assign_fst by (unfold control_sizes; rewrite map_length; lia). cbn [Nat.add]. apply sums_apart; [|exact L].
  unfold control_sizes. apply (map_nth_error (fun e => edge_controls (e_type e))). exact H.
Qed.
Definition controlled (N : network) (k : nat) (ie : nat * edge) : bool :=
  (Nat.eqb (edge_controls (e_type (snd ie))) 1 && Nat.eqb (fst (control_block N (fst ie))) k)%bool.
Definition adapted_controls (N : network) (h : nat -> R) (c : vec) : vec := fun k =>
  match find (controlled N k) (numbered N) with
  | Some (i, e) => match e_type e with
                   | EControlvalve => c k - (h (e_to e) - h (e_from e))
                   | _ => c k + (h (e_to e) - h (e_from e))
                   end
  | None => c k
  end.
Lemma find_control N i e : nth_error (edges N) i = Some e -> edge_controls (e_type e) = 1%nat ->
  find (controlled N (fst (control_block N i))) (numbered N) = Some (i, e).
Proof.
  intros H E. destruct (find (controlled N (fst (control_block N i))) (numbered N)) as [[i' e']|] eqn:F.
  - apply find_some in F. destruct F as (I & B). apply in_numbered in I. unfold controlled in B. cbn [fst snd] in B. apply andb_prop in B. destruct B as (B1 & B2).
    apply Nat.eqb_eq in B1, B2. assert (L : (i < length (edges N))%nat) by (apply nth_error_Some; congruence). assert (L' : (i' < length (edges N))%nat) by (apply nth_error_Some; congruence).
    destruct (Nat.lt_total i i') as [Q|[<-|Q]].
    + pose proof (controls_apart N i i' e H Q L'). lia.
    + congruence.
    + pose proof (controls_apart N i' i e' I Q L). lia.
  - exfalso. pose proof (find_none _ _ F (i, e) ltac:(apply in_numbered; exact H)) as B. unfold controlled in B. cbn [fst snd] in B. rewrite E, !Nat.eqb_refl in B. discriminate.
Qed.
Lemma adapted_exists N h z c : adaptable N h z -> adapted N h c (adapted_controls N h c).
Proof.
  intros (_ & U & _) i e H S. specialize (U i e H). unfold lift, short in *. destruct (e_type e) eqn:T; try destruct S.
  - rewrite U. ring.
  - unfold adapted_controls. rewrite (find_control N i e H) by (rewrite T; reflexivity). rewrite T. ring.
  - unfold adapted_controls. rewrite (find_control N i e H) by (rewrite T; reflexivity). rewrite T. ring.
Qed.
