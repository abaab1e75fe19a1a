(** The equations along a walk add up. *)
From Coq Require Import Reals Lra Lia List Arith Bool.
From Coquelicot Require Import Rcomplements.
From Verif Require Import Base Calc Euler_Model Net_Model Net_Spec Net_Proofs5 Net_Proofs8 Sim_Spec Mass_Proofs Level_Spec Level_Proofs Level_Proofs2 Walk_Spec.
Import ListNotations.
Local Open Scope R_scope.

Section Walk.
Variable N : network.
Variables (eps t0 t1 : R) (last x c : vec).
Hypothesis W : well_formed N.
Hypothesis He : 0 <= eps.
Hypothesis H : network_equations_within N eps t0 t1 last x c.

Lemma joined j q q' : is_gas_node N j -> pressure_there N x j q -> pressure_there N x j q' -> Rabs (q' - q) <= joint N j * eps.
Proof.
  intros G (i & e & d & Hi & C & T & <-) (i' & e' & d' & Hi' & C' & T' & <-).
  unfold is_gas_node in G. destruct (nth_error (nodes N) j) as [t|] eqn:E; [|destruct G].
  pose proof (proj1 H j t E) as K. assert (A : has_gas_edge N j) by (exists i, e, d; auto). unfold joint. rewrite E.
  destruct t as [|sink b|b|k]; [..|destruct G]; cbn [node_equation_within] in K; specialize (K A).
  - destruct K as (K & _). exact (K i' e' d' i e d Hi' C' T' Hi C T).
  - destruct K as (v & _ & K & _). exact (K i' e' d' i e d Hi' C' T' Hi C T).
  - destruct K as (v & _ & K). pose proof (K i e d Hi C T) as K1. pose proof (K i' e' d' Hi' C' T') as K2. unfold within in K1, K2.
    apply Rabs_le_between in K1. apply Rabs_le_between in K2. apply Rabs_le_between. lra.
Qed.

Definition first_pressure (s : step) : R := pressure_at N (st_pos s) (st_edge s) (if st_forward s then dstart else dend) x.
Definition last_pressure (s : step) : R := pressure_at N (st_pos s) (st_edge s) (if st_forward s then dend else dstart) x.
Lemma short_gas e : short e -> carries_gas e = true.
Proof. unfold short, carries_gas. destruct (e_type e); auto. Qed.
Lemma first_there s : nth_error (edges N) (st_pos s) = Some (st_edge s) -> short (st_edge s) -> pressure_there N x (leaves s) (first_pressure s).
Proof.
  intros Hs Sh. exists (st_pos s), (st_edge s), (if st_forward s then dstart else dend). split; [exact Hs|]. split; [apply short_gas, Sh|].
  split; [|reflexivity]. unfold leaves. destruct (st_forward s); reflexivity.
Qed.
Lemma last_there s : nth_error (edges N) (st_pos s) = Some (st_edge s) -> short (st_edge s) -> pressure_there N x (arrives s) (last_pressure s).
Proof.
  intros Hs Sh. exists (st_pos s), (st_edge s), (if st_forward s then dend else dstart). split; [exact Hs|]. split; [apply short_gas, Sh|].
  split; [|reflexivity]. unfold arrives. destruct (st_forward s); reflexivity.
Qed.
Lemma arrives_gas s : nth_error (edges N) (st_pos s) = Some (st_edge s) -> short (st_edge s) -> is_gas_node N (arrives s) /\ is_gas_node N (leaves s).
Proof.
  intros Hs Sh. unfold well_formed in W. rewrite List.Forall_forall in W. pose proof (W _ (nth_error_In _ _ Hs)) as (_ & K). unfold short in Sh.
  unfold arrives, leaves. destruct (e_type (st_edge s)); try (destruct Sh; fail); destruct K, (st_forward s); auto.
Qed.
Lemma one_step s : nth_error (edges N) (st_pos s) = Some (st_edge s) -> short (st_edge s) ->
  Rabs (last_pressure s - first_pressure s - gain N c s) <= eps.
Proof.
  intros Hs Sh. pose proof (proj2 H _ _ Hs) as K. destruct (block_after N _ _ Hs) as (A & _).
  unfold last_pressure, first_pressure, gain, pressure_at, end_position, edge_equation_within, short in *.
  destruct s as [i e f]. cbn [st_pos st_edge st_forward] in *.
  destruct (e_type e); try (destruct Sh; fail); cbn [edge_states] in A; destruct K as (K & _); unfold within in K; apply Rabs_le_between in K; apply Rabs_le_between;
    destruct f; rewrite ?A; replace (fst (edge_block N i) + 4 - 2)%nat with (fst (edge_block N i) + 2)%nat by lia; lra.
Qed.

Lemma along l : forall j j' q q', is_gas_node N j -> walk N j l j' -> pressure_there N x j q -> pressure_there N x j' q' ->
  Rabs (q' - q - rise N c l) <= (joint N j + slack N l) * eps.
Proof.
  induction l as [|s l IH]; intros j j' q q' G K P P'.
  - cbn in K. subst j'. unfold rise, slack. cbn [rsum map fold_right]. rewrite Rminus_0_r, Rplus_0_r. apply joined; assumption.
  - cbn [walk] in K. destruct K as (Hs & Sh & <- & K).
    pose proof (joined _ _ _ G P (first_there s Hs Sh)) as J1. pose proof (one_step s Hs Sh) as J2.
    pose proof (IH _ _ _ _ (proj1 (arrives_gas s Hs Sh)) K (last_there s Hs Sh) P') as J3.
    unfold rise, slack in *. cbn [rsum map fold_right] in *.
    apply Rabs_le_between in J1. apply Rabs_le_between in J2. apply Rabs_le_between in J3. apply Rabs_le_between. lra.
Qed.
(** Starting at the first edge of the walk. *)
Lemma from_first s l j j' q' : walk N j (s :: l) j' -> pressure_there N x j' q' ->
  Rabs (q' - first_pressure s - rise N c (s :: l)) <= slack N (s :: l) * eps.
Proof.
  intros (Hs & Sh & <- & K) P'. pose proof (one_step s Hs Sh) as J2.
  pose proof (along l _ _ _ _ (proj1 (arrives_gas s Hs Sh)) K (last_there s Hs Sh) P') as J3.
  unfold rise, slack in *. cbn [rsum map fold_right] in *.
  apply Rabs_le_between in J2. apply Rabs_le_between in J3. apply Rabs_le_between. lra.
Qed.
Lemma walk_end l : forall s j j', walk N j (s :: l) j' -> exists q, pressure_there N x j' q.
Proof.
  induction l as [|s' l IH]; intros s j j' (Hs & Sh & _ & K).
  - cbn in K. subst j'. eexists. apply last_there; assumption.
  - exact (IH s' _ _ K).
Qed.
Lemma closed j l : walk N j l j -> Rabs (rise N c l) <= slack N l * eps.
Proof.
  destruct l as [|s l]; intro K; [unfold rise, slack; cbn; rewrite Rabs_R0; lra|].
  pose proof K as (Hs & Sh & Lv & _). pose proof (first_there s Hs Sh) as P. rewrite Lv in P.
  pose proof (from_first s l j j _ K P) as J. apply Rabs_le_between in J. apply Rabs_le_between. lra.
Qed.
Lemma given j l j' b b' v v' : l <> [] -> walk N j l j' ->
  nth_error (nodes N) j = Some (Pressurenode b) -> nth_error (nodes N) j' = Some (Pressurenode b') -> b t1 = Ok v -> b' t1 = Ok v' ->
  Rabs (v' 0%nat - v 0%nat - rise N c l) <= (slack N l + 2) * eps.
Proof.
  intros Hl K Hj Hj' Hb Hb'. destruct l as [|s l]; [destruct (Hl eq_refl)|].
  destruct (walk_end l s j j' K) as (q' & P'). pose proof K as (Hs & Sh & Lv & _). pose proof (first_there s Hs Sh) as P. rewrite Lv in P.
  pose proof (from_first s l j j' q' K P') as J.
  assert (Near : forall k bk vk q, nth_error (nodes N) k = Some (Pressurenode bk) -> bk t1 = Ok vk -> pressure_there N x k q -> Rabs (q - vk 0%nat) <= eps).
  { intros k bk vk q Hk Hbk (i & e & d & Hi & C & T & <-). pose proof (proj1 H k _ Hk) as Q. cbn [node_equation_within] in Q.
    destruct Q as (w & Ew & Q); [exists i, e, d; auto|]. rewrite Hbk in Ew. injection Ew as <-. exact (Q i e d Hi C T). }
  pose proof (Near _ _ _ _ Hj Hb P) as N1. pose proof (Near _ _ _ _ Hj' Hb' P') as N2.
  apply Rabs_le_between in J. apply Rabs_le_between in N1. apply Rabs_le_between in N2. apply Rabs_le_between. lra.
Qed.
End Walk.
