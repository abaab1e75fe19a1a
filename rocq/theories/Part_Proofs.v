(** The balance of gas in a part of the network. *)
From Coq Require Import Reals Lra Lia List Arith Bool.
From Verif Require Import Base Interp_Model Calc Euler_Model Box_Model
  Net_Model Net_Spec Net_Proofs Net_Proofs2 Net_Proofs3 Net_Proofs4 Net_Proofs5 Net_Proofs6 Net_Proofs7 Net_Proofs8 Sim_Spec Sim_Proofs Mass_Spec Mass_Proofs Part_Spec.
Import ListNotations.
Local Open Scope R_scope.

Section Part.
Variable N : network.
Variable part : nat -> bool.
Notation pn jt := (part (fst jt) && gasn (snd jt)).

(** What the nodes of the part send into an edge. *)
Definition part_net (x : vec) (i : nat) (e : edge) : R :=
  match e_type e with
  | ELine _ _ => 0
  | EGaspower _ _ => if part (e_from e) then flow_at N i dstart x else 0
  | _ => (if part (e_from e) then flow_at N i dstart x else 0) - (if part (e_to e) then flow_at N i dend x else 0)
  end.
Lemma part_pick k a t : nth_error (nodes N) k = Some t ->
  rsum (fun jt => if pn jt then if Nat.eqb k (fst jt) then a else 0 else 0) (numbered_nodes N)
  = if part k && gasn t then a else 0.
Proof.
  intro H. pose proof (pick (fun j t => if part j && gasn t then a else 0) (nodes N) k t 0 H) as E. rewrite Nat.add_0_l in E. rewrite <- E. apply rsum_ext.
  intros [j t'] _. cbn [fst snd]. destruct (part j), (gasn t'), (Nat.eqb k j); reflexivity.
Qed.
Lemma part_outflows x : well_formed N ->
  rsum (fun jt => if pn jt then net_outflow N (fst jt) x else 0) (numbered_nodes N)
  = rsum (fun ie => part_net x (fst ie) (snd ie)) (numbered N).
Proof.
  intro W. unfold net_outflow.
  erewrite rsum_ext; [|intros jt _; apply if_rsum]. rewrite rsum_swap. apply rsum_ext. intros [i e] Hie. cbn [fst snd].
  assert (K : edge_ok N e) by (eapply wf_edge; [exact W|exact Hie]). destruct K as [_ K].
  assert (P : forall k a, nth_error (nodes N) k <> None ->
    rsum (fun jt => if pn jt then if Nat.eqb k (fst jt) then a else 0 else 0) (numbered_nodes N)
    = match nth_error (nodes N) k with Some t => if part k && gasn t then a else 0 | None => 0 end).
  { intros k a Hk. destruct (nth_error (nodes N) k) as [t|] eqn:E; [|congruence]. apply part_pick. exact E. }
  assert (Ends : carries_gas e = true -> nth_error (nodes N) (e_from e) <> None /\ nth_error (nodes N) (e_to e) <> None /\
     is_gas_node N (e_from e)).
  { unfold carries_gas. intro C.
    assert (G : is_gas_node N (e_from e) /\ (is_gas_node N (e_to e) \/ is_power_node N (e_to e))).
    { destruct (e_type e); try discriminate; tauto. }
    destruct G as [G1 G2]. split; [|split; [|exact G1]].
    - destruct (is_gas_some N _ G1) as [t [E _]]. congruence.
    - destruct G2 as [G2|G2]; [destruct (is_gas_some N _ G2) as [t [E _]]|destruct (is_power_some N _ G2) as [t [E _]]]; congruence. }
  destruct (carries_gas e) eqn:C.
  - destruct (Ends eq_refl) as [N1 [N2 G1]]. destruct (is_gas_some N _ G1) as [t [E1 T1]].
    rewrite (rsum_ext _ (fun jt => (if pn jt then if Nat.eqb (e_from e) (fst jt) then flow_at N i dstart x else 0 else 0)
      - (if pn jt then if Nat.eqb (e_to e) (fst jt) then flow_at N i dend x else 0 else 0))).
    2:{ intros jt _. destruct (pn jt), (Nat.eqb (e_from e) (fst jt)), (Nat.eqb (e_to e) (fst jt)); ring. }
    rewrite rsum_minus, !P by auto. rewrite E1, T1, andb_true_r. unfold part_net, carries_gas in *.
    assert (GT : is_gas_node N (e_to e) -> match nth_error (nodes N) (e_to e) with
       Some t => if part (e_to e) && gasn t then flow_at N i dend x else 0 | None => 0 end = if part (e_to e) then flow_at N i dend x else 0).
    { intro G2. destruct (is_gas_some N _ G2) as [t' [E2 T2]]. rewrite E2, T2, andb_true_r. reflexivity. }
    destruct (e_type e); try discriminate; try (rewrite GT by tauto; reflexivity).
    destruct (is_power_some N (e_to e) ltac:(tauto)) as [t' [E2 T2]]. rewrite E2, T2, andb_false_r. ring.
  - rewrite (rsum_ext _ (fun _ => 0)).
    2:{ intros jt _. destruct (pn jt); reflexivity. }
    rewrite rsum_const. unfold part_net. unfold carries_gas in C. destruct (e_type e); try discriminate. ring.
Qed.

Definition in_edge_mass (x : vec) (ie : nat * edge) : R := if inner part (snd ie) then edge_mass N x ie else 0.
Definition in_burnt (x : vec) (ie : nat * edge) : R :=
  match e_type (snd ie) with EGaspower _ _ => if part (e_from (snd ie)) then flow_at N (fst ie) dstart x else 0 | _ => 0 end.
Lemma part_edge_balance eps i e t0 t1 last x c : well_formed N -> pipes_ok N -> 0 <= eps -> t0 <= t1 ->
  nth_error (edges N) i = Some e -> edge_equation_within N eps i e t0 t1 last x c ->
  Rabs (in_edge_mass x (i, e) - in_edge_mass last (i, e)
        - (t1 - t0) * rho_0 * (part_net x i e + crossing N part x i e - in_burnt x (i, e)))
  <= eps * (if inner part e then edge_volume e else 0) + (if inner part e && shortb e then (t1 - t0) * rho_0 * eps else 0).
Proof.
  intros W HP He Ht H HE. pose proof (edge_mass_balance N eps i e t0 t1 last x c W HP He Ht H HE) as Q.
  unfold in_edge_mass, part_net, crossing, in_burnt, inner in *. cbn [fst snd].
  assert (Z : forall a, a = 0 -> Rabs a <= eps * 0 + 0) by (intros a ->; rewrite Rabs_R0; lra).
  unfold edge_net, edge_burnt in Q. cbn [snd fst] in Q.
  destruct (e_type e) as [d k dx np| | | |g2p p2g|G B] eqn:Et, (part (e_from e)), (part (e_to e)); cbn [andb] in *;
    try (apply Z; ring); try (match type of Q with Rabs ?a <= _ => match goal with |- Rabs ?b <= _ => replace b with a by ring end end; exact Q).
  all: unfold edge_mass, edge_volume, shortb in *; cbn [snd] in *; rewrite Et in *; match goal with |- Rabs ?b <= _ => replace b with 0 by ring end; rewrite Rabs_R0; lra.
Qed.

Theorem part_balance eps t0 t1 last x c : well_formed N -> pipes_ok N -> 0 <= eps -> t0 <= t1 ->
  network_equations_within N eps t0 t1 last x c ->
  Rabs (part_linepack N part x - part_linepack N part last
        - (t1 - t0) * (rho_0 * (part_supply N part t1 x + inflow N part x - part_burnt N part x))) <= part_error N part eps t0 t1.
Proof.
  intros W HP He Ht [HN HE]. pose proof rho_0_pos as R0.
  assert (Z : 0 <= (t1 - t0) * rho_0) by (apply Rmult_le_pos; lra).
  assert (Q1 : Rabs (rsum (fun ie => in_edge_mass x ie - in_edge_mass last ie
        - (t1 - t0) * rho_0 * (part_net x (fst ie) (snd ie) + crossing N part x (fst ie) (snd ie) - in_burnt x ie)) (numbered N))
     <= rsum (fun ie => eps * (if inner part (snd ie) then edge_volume (snd ie) else 0) + (if inner part (snd ie) && shortb (snd ie) then (t1 - t0) * rho_0 * eps else 0)) (numbered N)).
  { apply rsum_bound. intros [i e] Hie. cbn [fst snd]. apply in_numbered in Hie. apply (part_edge_balance eps i e t0 t1 last x c); auto. }
  assert (Q2 : Rabs (rsum (fun jt => (if pn jt then net_outflow N (fst jt) x else 0) - (if part (fst jt) then supply N t1 x (fst jt) (snd jt) else 0)) (numbered_nodes N))
     <= rsum (fun jt => if part (fst jt) && flown (snd jt) then eps else 0) (numbered_nodes N)).
  { apply rsum_bound. intros [j t] Hj. cbn [fst snd]. apply in_combine_seq in Hj. pose proof (node_supply N eps j t t1 x He (HN j t Hj)) as K.
    destruct (part j); cbn [andb]; [exact K|]. rewrite Rminus_0_r, Rabs_R0. lra. }
  rewrite rsum_minus, part_outflows in Q2 by exact W. fold (part_supply N part t1 x) in Q2.
  rewrite (rsum_count (fun jt => part (fst jt) && flown (snd jt))) in Q2.
  change (length (filter (fun jt => part (fst jt) && flown (snd jt)) (numbered_nodes N))) with (part_equations N part) in Q2.
  rewrite !rsum_minus, rsum_scal, rsum_minus, <- rsum_plus in Q1.
  change (rsum (in_burnt x) (numbered N)) with (part_burnt N part x) in Q1.
  change (rsum (in_edge_mass x) (numbered N)) with (part_linepack N part x) in Q1.
  change (rsum (in_edge_mass last) (numbered N)) with (part_linepack N part last) in Q1.
  change (rsum (fun ie => crossing N part x (fst ie) (snd ie)) (numbered N)) with (inflow N part x) in Q1.
  rewrite <- rsum_plus in Q1.
  set (net := rsum (fun ie => part_net x (fst ie) (snd ie)) (numbered N)) in *.
  assert (S1 : forall f : edge -> R, rsum (fun ie => f (snd ie)) (numbered N) = rsum f (edges N)) by (intro f; apply rsum_snd).
  rewrite (S1 (fun e => eps * (if inner part e then edge_volume e else 0))), rsum_scal in Q1.
  rewrite (S1 (fun e => if inner part e && shortb e then (t1 - t0) * rho_0 * eps else 0)), rsum_count in Q1.
  change (rsum (fun e => if inner part e then edge_volume e else 0) (edges N)) with (part_volume N part) in Q1.
  change (length (filter (fun e => inner part e && shortb e) (edges N))) with (part_short N part) in Q1.
  unfold part_error. rewrite plus_INR.
  match goal with |- Rabs ?g <= _ => replace g
    with ((part_linepack N part x - part_linepack N part last - (t1 - t0) * rho_0 * (net + inflow N part x - part_burnt N part x))
          + (t1 - t0) * rho_0 * (net - part_supply N part t1 x)) by ring end.
  eapply Rle_trans; [apply Rabs_triang|]. rewrite Rabs_mult, (Rabs_pos_eq ((t1 - t0) * rho_0)) by exact Z.
  assert (Q3 : (t1 - t0) * rho_0 * Rabs (net - part_supply N part t1 x) <= (t1 - t0) * rho_0 * (INR (part_equations N part) * eps))
    by (apply Rmult_le_compat_l; auto).
  eapply Rle_trans; [apply Rplus_le_compat; [exact Q1|exact Q3]|]. apply Req_le. ring.
Qed.
End Part.
