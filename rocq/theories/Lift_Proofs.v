(** Other short components in the place of short components. *)
From Coq Require Import Reals ZArith Lra Lia List Arith Bool.
From Coquelicot Require Import Complex.
From Verif Require Import Base Calc Euler_Model Box_Model Net_Model Net_Spec Level_Spec.
From Verif Require Import Lift_Spec.
Import ListNotations.
Local Open Scope R_scope.

Lemma exchanged_states e e' : exchanged e e' -> edge_states (e_type e') = edge_states (e_type e).
Proof. intros (_ & _ & [->|(S & S')]); [reflexivity|]. unfold short in *. destruct (e_type e), (e_type e'); try contradiction; reflexivity. Qed.
Lemma exchanged_gas e e' : exchanged e e' -> carries_gas e' = carries_gas e.
Proof. unfold carries_gas. intros (_ & _ & [->|(S & S')]); [reflexivity|]. unfold short in *. destruct (e_type e), (e_type e'); try contradiction; reflexivity. Qed.
Lemma exchanged_map l l' : Forall2 exchanged l l' -> map (fun e => edge_states (e_type e)) l' = map (fun e => edge_states (e_type e)) l.
Proof. induction 1 as [|e e' ? ? A _ IH]; [reflexivity|]. cbn [map]. rewrite IH, (exchanged_states e e' A). reflexivity. Qed.
Lemma exchanged_nth l l' : Forall2 exchanged l l' -> forall i,
  match nth_error l i, nth_error l' i with Some e, Some e' => exchanged e e' | None, None => True | _, _ => False end.
Proof. induction 1 as [|e e' ? ? A _ IH]; intros [|i]; cbn; auto. apply IH. Qed.
Lemma exchanged_back l l' : Forall2 exchanged l l' -> Forall2 exchanged l' l.
Proof.
  induction 1 as [|e e' ? ? A _ IH]; constructor; [|exact IH]. destruct A as (A & B & C). split; [congruence|]. split; [congruence|]. destruct C as [C|(C & C')]; [left; congruence|right; auto].
Qed.
Lemma same_lifts_back N N' c c' : same_lifts N N' c c' -> same_lifts N' N c' c.
Proof.
  intros (A & B & C). split; [congruence|]. split; [apply exchanged_back; exact B|]. intros i e e' H H' S.
  pose proof (exchanged_nth _ _ B i) as X. rewrite H, H' in X. symmetry. apply (C i e' e H' H).
  destruct X as (_ & _ & [X|(X & _)]); [|exact X]. unfold short in *. rewrite <- X. exact S.
Qed.

Section Lift.
Variables (N N' : network) (c c' : vec).
Hypothesis H : same_lifts N N' c c'.
Let Hn := proj1 H.
Let He := proj1 (proj2 H).
Let Hc := proj2 (proj2 H).

Lemma lift_sizes : state_sizes N' = state_sizes N.
Proof. unfold state_sizes. rewrite Hn, (exchanged_map _ _ He). reflexivity. Qed.
Lemma lift_total : number_of_states N' = number_of_states N.
Proof. unfold number_of_states. rewrite lift_sizes. reflexivity. Qed.
Lemma lift_node_block j : node_block N' j = node_block N j.
Proof. unfold node_block, state_blocks. rewrite lift_sizes. reflexivity. Qed.
Lemma lift_edge_block i : edge_block N' i = edge_block N i.
Proof. unfold edge_block, state_blocks. rewrite lift_sizes, Hn. reflexivity. Qed.
Lemma lift_flow i d x : flow_at N' i d x = flow_at N i d x.
Proof. unfold flow_at, end_position. rewrite lift_edge_block. reflexivity. Qed.
Lemma lift_pressure i e e' d x : exchanged e e' -> pressure_at N' i e' d x = pressure_at N i e d x.
Proof.
  intros (_ & _ & X). unfold pressure_at, end_position. rewrite lift_edge_block. destruct X as [->|(S & S')]; [reflexivity|].
  unfold short in *. destruct (e_type e), (e_type e'); try contradiction; reflexivity.
Qed.
Lemma lift_touches e e' d j : exchanged e e' -> touches e' d j -> touches e d j.
Proof. intros (A & B & _). unfold touches. rewrite A, B. auto. Qed.
Lemma lift_equal j x pr : equal_pressures N j x pr -> equal_pressures N' j x pr.
Proof.
  intros E i e' d Hi C T. pose proof (exchanged_nth _ _ He i) as X. rewrite Hi in X. destruct (nth_error (edges N) i) as [e|] eqn:Hi0; [|destruct X].
  rewrite (lift_pressure i e e' d x X). apply (E i e d Hi0); [rewrite <- (exchanged_gas e e' X); exact C|exact (lift_touches e e' d j X T)].
Qed.
Lemma lift_has j : has_gas_edge N' j -> has_gas_edge N j.
Proof.
  intros (i & e' & d & Hi & C & T). pose proof (exchanged_nth _ _ He i) as X. rewrite Hi in X. destruct (nth_error (edges N) i) as [e|] eqn:Hi0; [|destruct X].
  exists i, e, d. split; [exact Hi0|]. split; [rewrite <- (exchanged_gas e e' X); exact C|exact (lift_touches e e' d j X T)].
Qed.
Lemma sums_same {A} (f f' : nat * A -> R) (l l' : list A) (r : A -> A -> Prop) : Forall2 r l l' -> (forall i a a', r a a' -> f' (i, a') = f (i, a)) ->
  forall s, rsum f' (combine (seq s (length l')) l') = rsum f (combine (seq s (length l)) l).
Proof. intros F Q. induction F as [|a a' ? ? R _ IH]; intro s; [reflexivity|]. cbn. rewrite IH, (Q s a a' R). reflexivity. Qed.
Lemma lift_outflow j x : net_outflow N' j x = net_outflow N j x.
Proof.
  unfold net_outflow, numbered. apply (sums_same _ _ _ _ exchanged He). intros i e e' X. cbn [fst snd]. rewrite !lift_flow, (exchanged_gas e e' X).
  destruct X as (-> & -> & _). reflexivity.
Qed.
Lemma lift_voltage j x : voltage N' j x = voltage N j x.
Proof. unfold voltage. rewrite lift_node_block. reflexivity. Qed.
Lemma csums_same (f f' : edge -> C) l l' : Forall2 exchanged l l' -> (forall e e', exchanged e e' -> f' e' = f e) -> csum f' l' = csum f l.
Proof. intros F Q. induction F as [|e e' ? ? X _ IH]; [reflexivity|]. cbn. unfold csum in IH. rewrite IH, (Q e e' X). reflexivity. Qed.
Lemma lift_power j G B x : power N' j G B x = power N j G B x.
Proof.
  unfold power, current. rewrite lift_voltage. f_equal. f_equal. f_equal. apply (csums_same _ _ _ _ He). intros e e' (-> & -> & X). rewrite !lift_voltage.
  destruct X as [->|(S & S')]; [reflexivity|]. unfold short in *. destruct (e_type e), (e_type e'); try contradiction; reflexivity.
Qed.
Lemma lift_edge i e e' t0 t1 last x : nth_error (edges N) i = Some e -> nth_error (edges N') i = Some e' ->
  edge_equation N i e t0 t1 last x c -> edge_equation N' i e' t0 t1 last x c'.
Proof.
  intros Hi Hi'. pose proof (exchanged_nth _ _ He i) as X. rewrite Hi, Hi' in X. pose proof (Hc i e e' Hi Hi') as Lc.
  destruct X as (_ & To & X). unfold edge_equation. rewrite lift_edge_block, To.
  assert (S : short e -> short e') by (destruct X as [X|(_ & X)]; [unfold short; rewrite X; auto|auto]).
  unfold lift, short in *.
  destruct (e_type e) as [dm r w n| | | |g2p p2g|g b] eqn:T.
  - destruct X as [->|(X & _)]; [|destruct X]. auto.
  - specialize (S Logic.I). specialize (Lc Logic.I). destruct (e_type e'); try contradiction; intros (A & B); (split; [lra|exact B]).
  - specialize (S Logic.I). specialize (Lc Logic.I). destruct (e_type e'); try contradiction; intros (A & B); (split; [lra|exact B]).
  - specialize (S Logic.I). specialize (Lc Logic.I). destruct (e_type e'); try contradiction; intros (A & B); (split; [lra|exact B]).
  - destruct X as [->|(X & _)]; [|destruct X]. rewrite Hn. destruct (nth_error (nodes N) (e_to e)) as [[| | |]|]; auto. setoid_rewrite lift_power. auto.
  - destruct X as [->|(X & _)]; [|destruct X]. auto.
Qed.
Lemma lift_well_formed : well_formed N -> well_formed N'.
Proof.
  unfold well_formed. rewrite !Forall_forall. intros W e' I. apply In_nth_error in I. destruct I as (i & Hi).
  pose proof (exchanged_nth _ _ He i) as X. rewrite Hi in X. destruct (nth_error (edges N) i) as [e|] eqn:Hi0; [|destruct X].
  specialize (W e (nth_error_In _ _ Hi0)). unfold edge_ok, is_gas_node, is_power_node in *. rewrite Hn. destruct X as (-> & -> & X). destruct W as (A & B). split; [exact A|].
  destruct X as [->|(S & S')]; [exact B|]. unfold short in *. destruct (e_type e), (e_type e'); try contradiction; exact B.
Qed.
Lemma lift_pipes : pipes_ok N -> pipes_ok N'.
Proof.
  unfold pipes_ok. rewrite !Forall_forall. intros W e' I. apply In_nth_error in I. destruct I as (i & Hi).
  pose proof (exchanged_nth _ _ He i) as X. rewrite Hi in X. destruct (nth_error (edges N) i) as [e|] eqn:Hi0; [|destruct X].
  specialize (W e (nth_error_In _ _ Hi0)). destruct X as (_ & _ & X). destruct X as [->|(S & S')]; [exact W|]. unfold short in *. destruct (e_type e'); try contradiction; exact Logic.I.
Qed.
Lemma lift_boundary t : boundary_defined N t -> boundary_defined N' t.
Proof. unfold boundary_defined. rewrite Hn. auto. Qed.
End Lift.

Lemma lift_solution N N' c c' t0 t1 last x : same_lifts N N' c c' -> network_equations N t0 t1 last x c -> network_equations N' t0 t1 last x c'.
Proof.
  intros H (A & B). pose proof (same_lifts_back _ _ _ _ H) as H'. split.
  - intros j t Hj. assert (Hj0 : nth_error (nodes N) j = Some t) by (rewrite <- (proj1 H); exact Hj). specialize (A j t Hj0). destruct t as [|sink b|b|k ext G Bb b]; cbn [node_equation] in *.
    + intro Hh. destruct (A (lift_has _ _ _ _ H j Hh)) as ((pr & P) & Q). rewrite (lift_outflow _ _ _ _ H). split; [exists pr; exact (lift_equal _ _ _ _ H j x pr P)|exact Q].
    + intro Hh. destruct (A (lift_has _ _ _ _ H j Hh)) as (v & Hv & (pr & P) & Q). exists v. rewrite (lift_outflow _ _ _ _ H). split; [exact Hv|]. split; [exists pr; exact (lift_equal _ _ _ _ H j x pr P)|exact Q].
    + intro Hh. destruct (A (lift_has _ _ _ _ H j Hh)) as (v & Hv & P). exists v. split; [exact Hv|]. exact (lift_equal _ _ _ _ H j x _ P).
    + rewrite (lift_power _ _ _ _ H), (lift_node_block _ _ _ _ H). exact A.
  - intros i e' Hi'. pose proof (exchanged_nth _ _ (proj1 (proj2 H)) i) as X. rewrite Hi' in X. destruct (nth_error (edges N) i) as [e|] eqn:Hi; [|destruct X].
    apply (lift_edge _ _ _ _ H i e e' t0 t1 last x Hi Hi'). apply B. exact Hi.
Qed.
