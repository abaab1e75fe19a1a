(** The balance of gas in the whole network. *)
From Coq Require Import Reals Lra Lia List Arith Bool.
From Verif Require Import Base Interp_Model Calc Euler_Model Euler_Spec Euler_Proofs Euler_Proofs2 Box_Model Box_Spec Box_Proofs
  Net_Model Net_Spec Net_Proofs Net_Proofs2 Net_Proofs3 Net_Proofs4 Net_Proofs5 Net_Proofs6 Net_Proofs7 Net_Proofs8 Sim_Spec Sim_Proofs Mass_Spec.
Import ListNotations.
Local Open Scope R_scope.

(** ** Sums *)
Lemma rsum_swap {A B} (f : A -> B -> R) la lb :
  rsum (fun a => rsum (f a) lb) la = rsum (fun b => rsum (fun a => f a b) la) lb.
Proof.
  induction la as [|a la IH]; cbn [rsum].
  - induction lb as [|b lb IH]; cbn [rsum]; [reflexivity|rewrite <- IH; ring].
  - rewrite IH, rsum_plus. reflexivity.
Qed.
Lemma rsum_scal {A} c (f : A -> R) l : rsum (fun a => c * f a) l = c * rsum f l.
Proof. induction l as [|a l IH]; cbn [rsum]; [ring|rewrite IH; ring]. Qed.
Lemma rsum_minus {A} (f g : A -> R) l : rsum (fun a => f a - g a) l = rsum f l - rsum g l.
Proof. induction l as [|a l IH]; cbn [rsum]; [ring|rewrite IH; ring]. Qed.
Lemma rsum_bound {A} (f g : A -> R) l : (forall a, In a l -> Rabs (f a) <= g a) -> Rabs (rsum f l) <= rsum g l.
Proof.
  induction l as [|a l IH]; intro H; cbn [rsum]; [rewrite Rabs_R0; lra|].
  eapply Rle_trans; [apply Rabs_triang|]. pose proof (H a (or_introl eq_refl)).
  assert (Rabs (rsum f l) <= rsum g l) by (apply IH; intros; apply H; right; auto). lra.
Qed.
Lemma rsum_const {A} (l : list A) c : rsum (fun _ => c) l = INR (length l) * c.
Proof. induction l as [|a l IH]; cbn [rsum length]; [cbn; ring|rewrite IH, S_INR; ring]. Qed.
Lemma rsum_count {A} (h : A -> bool) c l : rsum (fun a => if h a then c else 0) l = INR (length (filter h l)) * c.
Proof. rewrite <- rsum_filter with (f := fun _ => c). apply rsum_const. Qed.
Lemma rsum_map {A B} (f : B -> R) (g : A -> B) l : rsum f (map g l) = rsum (fun a => f (g a)) l.
Proof. induction l as [|a l IH]; cbn [rsum map]; [reflexivity|rewrite IH; reflexivity]. Qed.
Lemma rsum_snd {A} (f : A -> R) (l : list A) s : rsum (fun ia => f (snd ia)) (combine (seq s (length l)) l) = rsum f l.
Proof.
  revert s. induction l as [|a l IH]; intro s; cbn [length seq combine rsum snd]; [reflexivity|]. rewrite IH. reflexivity.
Qed.
Lemma telescope (f : nat -> R) n : rsum (fun m => f m - f (m + 1)%nat) (seq 0 n) = f 0%nat - f n.
Proof.
  induction n as [|n IH]; [cbn; ring|]. rewrite seq_S, rsum_app, IH. cbn [rsum]. rewrite Nat.add_0_l, Nat.add_1_r. ring.
Qed.
Lemma pick {A} (f : nat -> A -> R) (l : list A) k t : forall s, nth_error l k = Some t ->
  rsum (fun jt => if Nat.eqb (s + k) (fst jt) then f (fst jt) (snd jt) else 0) (combine (seq s (length l)) l) = f (s + k)%nat t.
Proof.
  revert k. induction l as [|a l IH]; intros k s H; [destruct k; discriminate|].
  cbn [length seq combine rsum fst snd].
  assert (Z : forall k0 s', (k0 < s')%nat -> rsum (fun jt => if Nat.eqb k0 (fst jt) then f (fst jt) (snd jt) else 0)
     (combine (seq s' (length l)) l) = 0).
  { clear. intro k0. induction l as [|b l IH]; intros s' Hs; [reflexivity|]. cbn [length seq combine rsum fst snd].
    destruct (Nat.eqb_spec k0 s'); [lia|]. rewrite IH by lia. ring. }
  destruct k as [|k].
  - cbn in H. injection H as ->. rewrite Nat.add_0_r, Nat.eqb_refl, Z by lia. ring.
  - cbn in H. destruct (Nat.eqb_spec (s + S k) s); [lia|].
    rewrite Nat.add_succ_r, <- Nat.add_succ_l, (IH k (S s) H). ring.
Qed.

(** ** One pipe *)
Definition pipe_mass (N : network) (x : vec) (i : nat) (dx : R) (np : nat) : R :=
  rsum (fun m => dx * ((x (fst (edge_block N i) + 2 * m)%nat + x (fst (edge_block N i) + 2 * (m + 1))%nat) / 2))
       (seq 0 (np - 1)).
Lemma pipe_mass_balance N eps i d k dx np t0 t1 last x c e : well_formed N -> geometry d k -> 0 < dx ->
  nth_error (edges N) i = Some e -> e_type e = EPipe d k dx np ->
  edge_equation_within N eps i e t0 t1 last x c ->
  Rabs (circle_area (/ 2 * d) * (pipe_mass N x i dx np - pipe_mass N last i dx np)
        - (t1 - t0) * (rho_0 * (flow_at N i dstart x - flow_at N i dend x)))
  <= eps * (circle_area (/ 2 * d) * (INR (np - 1) * dx)).
Proof.
  intros W G Hdx H Et HE. unfold edge_equation_within in HE. rewrite Et in HE. cbv zeta in HE.
  assert (Hd : 0 < d) by (eapply geo_d; eauto).
  assert (HA : 0 < circle_area (/ 2 * d)).
  { unfold circle_area, Pi. assert (0 < / 2 * d) by lra. apply Rmult_lt_0_compat; [|lra]. apply Rmult_lt_0_compat; lra. }
  set (s := fst (edge_block N i)) in *.
  assert (Q : forall m, In m (seq 0 (np - 1)) ->
     Rabs ((dx * ((x (s + 2 * m)%nat + x (s + 2 * (m + 1))%nat) / 2)
            - dx * ((last (s + 2 * m)%nat + last (s + 2 * (m + 1))%nat) / 2))
           - (t1 - t0) * (rho_0 / circle_area (/ 2 * d)) * (x (s + 2 * m + 1)%nat - x (s + 2 * (m + 1) + 1)%nat)) <= dx * eps).
  { intros m Hm. apply in_seq in Hm. specialize (HE m ltac:(lia)). destruct HE as [sl [sr [El [Er HE]]]].
    specialize (HE 0%nat ltac:(lia)).
    assert (Z : forall v w, source d k v = Ok w -> w 0%nat = 0).
    { intros v w Hw. rewrite source_ok in Hw by auto. injection Hw as <-. reflexivity. }
    rewrite (Z _ _ El), (Z _ _ Er) in HE. unfold within, flux, seg in HE. cbn [v2] in HE.
    rewrite !Nat.add_0_r in HE.
    match type of HE with Rabs ?a <= _ => match goal with |- Rabs ?b <= _ => replace b with a; [exact HE|] end end.
    field. lra. }
  apply (rsum_bound _ (fun _ => dx * eps)) in Q. rewrite rsum_const, seq_length in Q.
  rewrite rsum_minus, rsum_scal in Q. rewrite rsum_minus in Q.
  rewrite (telescope (fun m => x (s + 2 * m + 1)%nat)) in Q.
  unfold pipe_mass. fold s.
  set (A := circle_area (/ 2 * d)) in *.
  assert (S : snd (edge_block N i) = (s + 2 * np)%nat).
  { destruct (gas_of N i e) as [g|] eqn:Eg.
    - destruct (gas_of_size N i e g W H Eg) as [_ [_ Sz]]. destruct (gas_of_kind N i e g Eg) as [_ [E2 _]].
      unfold s. rewrite <- E2. cbn [fst snd]. rewrite Sz, Et. reflexivity.
    - unfold gas_of in Eg. rewrite Et in Eg. destruct (edge_block N i); discriminate. }
  assert (Hnp : (2 <= np)%nat).
  { unfold well_formed in W. rewrite List.Forall_forall in W. specialize (W e (nth_error_In _ _ H)).
    destruct W as [_ W]. rewrite Et in W. tauto. }
  unfold flow_at, end_position. rewrite S. fold s.
  replace (s + 2 * np - 2 + 1)%nat with (s + 2 * (np - 1) + 1)%nat by lia.
  replace (s + 2 * 0 + 1)%nat with (s + 1)%nat in Q by lia.
  match type of Q with Rabs (?a - ?b - ?c) <= _ =>
    match goal with |- Rabs ?g <= _ => replace g with (A * (a - b - c)) by (field; lra) end end.
  rewrite Rabs_mult, (Rabs_pos_eq A) by lra.
  replace (eps * (A * (INR (np - 1) * dx))) with (A * (INR (np - 1) * (dx * eps))) by ring.
  apply Rmult_le_compat_l; [lra|exact Q].
Qed.

(** ** All nodes *)
Definition gasn (t : nodetype) : bool := match t with Powernode _ _ _ _ _ => false | _ => true end.
Definition flown (t : nodetype) : bool := match t with Innode | Flownode _ _ => true | _ => false end.
Definition edge_net (N : network) (x : vec) (i : nat) (e : edge) : R :=
  match e_type e with
  | ELine _ _ => 0
  | EGaspower _ _ => flow_at N i dstart x
  | _ => flow_at N i dstart x - flow_at N i dend x
  end.
Notation numbered_nodes N := (combine (seq 0 (length (nodes N))) (nodes N)).

Lemma if_rsum {A} (b : bool) (f : A -> R) l : (if b then rsum f l else 0) = rsum (fun a => if b then f a else 0) l.
Proof. destruct b; [reflexivity|]. rewrite rsum_const. ring. Qed.
Lemma is_gas_some N j : is_gas_node N j -> exists t, nth_error (nodes N) j = Some t /\ gasn t = true.
Proof. unfold is_gas_node. destruct (nth_error (nodes N) j) as [t|]; [|intros []]. exists t. split; [auto|]. destruct t; tauto. Qed.
Lemma is_power_some N j : is_power_node N j -> exists t, nth_error (nodes N) j = Some t /\ gasn t = false.
Proof. unfold is_power_node. destruct (nth_error (nodes N) j) as [t|]; [|intros []]. exists t. split; [auto|]. destruct t; tauto. Qed.
Lemma node_pick N k a t : nth_error (nodes N) k = Some t ->
  rsum (fun jt => if gasn (snd jt) then if Nat.eqb k (fst jt) then a else 0 else 0) (numbered_nodes N)
  = if gasn t then a else 0.
Proof.
  intro H. rewrite <- (pick (fun _ t => if gasn t then a else 0) (nodes N) k t 0 H). apply rsum_ext.
  intros [j t'] _. cbn [fst snd]. rewrite Nat.add_0_l. destruct (gasn t'), (Nat.eqb k j); reflexivity.
Qed.
Lemma all_outflows N x : well_formed N ->
  rsum (fun jt => if gasn (snd jt) then net_outflow N (fst jt) x else 0) (numbered_nodes N)
  = rsum (fun ie => edge_net N x (fst ie) (snd ie)) (numbered N).
Proof.
  intro W. unfold net_outflow.
  erewrite rsum_ext; [|intros jt _; apply if_rsum]. rewrite rsum_swap. apply rsum_ext. intros [i e] Hie. cbn [fst snd].
  assert (K : edge_ok N e) by (eapply wf_edge; [exact W|exact Hie]). destruct K as [_ K].
  assert (P : forall k a, nth_error (nodes N) k <> None ->
    rsum (fun jt => if gasn (snd jt) then if Nat.eqb k (fst jt) then a else 0 else 0) (numbered_nodes N)
    = match nth_error (nodes N) k with Some t => if gasn t then a else 0 | None => 0 end).
  { intros k a Hk. destruct (nth_error (nodes N) k) as [t|] eqn:E; [|congruence]. apply node_pick. exact E. }
  assert (Ends : carries_gas e = true -> nth_error (nodes N) (e_from e) <> None /\ nth_error (nodes N) (e_to e) <> None /\
     is_gas_node N (e_from e)).
  { unfold carries_gas. intro C.
    assert (G : is_gas_node N (e_from e) /\ (is_gas_node N (e_to e) \/ is_power_node N (e_to e))).
    { destruct (e_type e); try discriminate; tauto. }
    destruct G as [G1 G2]. split; [|split; [|exact G1]].
    - destruct (is_gas_some N _ G1) as [t [E _]]. congruence.
    - destruct G2 as [G2|G2]; [destruct (is_gas_some N _ G2) as [t [E _]]|destruct (is_power_some N _ G2) as [t [E _]]]; congruence. }
  destruct (carries_gas e) eqn:C.
  - destruct (Ends eq_refl) as [N1 [N2 G1]]. destruct (is_gas_some N _ G1) as [t [E1 T1]].
    rewrite (rsum_ext _ (fun jt => (if gasn (snd jt) then if Nat.eqb (e_from e) (fst jt) then flow_at N i dstart x else 0 else 0)
      - (if gasn (snd jt) then if Nat.eqb (e_to e) (fst jt) then flow_at N i dend x else 0 else 0))).
    2:{ intros jt _. destruct (gasn (snd jt)), (Nat.eqb (e_from e) (fst jt)), (Nat.eqb (e_to e) (fst jt)); ring. }
    rewrite rsum_minus, !P by auto. rewrite E1, T1. unfold edge_net, carries_gas in *.
    assert (GT : is_gas_node N (e_to e) -> match nth_error (nodes N) (e_to e) with
       Some t => if gasn t then flow_at N i dend x else 0 | None => 0 end = flow_at N i dend x).
    { intro G2. destruct (is_gas_some N _ G2) as [t' [E2 T2]]. rewrite E2, T2. reflexivity. }
    destruct (e_type e); try discriminate; try (rewrite GT by tauto; reflexivity).
    destruct (is_power_some N (e_to e) ltac:(tauto)) as [t' [E2 T2]]. rewrite E2, T2. ring.
  - rewrite (rsum_ext _ (fun _ => 0)).
    2:{ intros jt _. destruct (gasn (snd jt)); reflexivity. }
    rewrite rsum_const. unfold edge_net. unfold carries_gas in C. destruct (e_type e); try discriminate. ring.
Qed.

Lemma no_ends N j x : gas_ends N j = 0%nat -> net_outflow N j x = 0 /\ ~ has_gas_edge N j.
Proof.
  intro H. rewrite <- attached_count in H. rewrite <- outflow_eq, <- attached_nonempty.
  destruct (attached_gas N j); [|discriminate]. split; [reflexivity|congruence].
Qed.
Lemma some_ends N j : gas_ends N j <> 0%nat -> has_gas_edge N j.
Proof.
  intro H. rewrite <- attached_count in H. apply attached_nonempty.
  destruct (attached_gas N j); [cbn in H; congruence|discriminate].
Qed.
Lemma node_supply N eps j t t1 x : 0 <= eps -> node_equation_within N eps j t t1 x ->
  Rabs ((if gasn t then net_outflow N j x else 0) - supply N t1 x j t) <= if flown t then eps else 0.
Proof.
  intros He H. destruct t as [|sink b|b|k ext G B b]; cbn [gasn flown supply node_equation_within] in *.
  - destruct (Nat.eq_dec (gas_ends N j) 0) as [E|E].
    + rewrite (proj1 (no_ends N j x E)), Rminus_0_r, Rabs_R0. exact He.
    + destruct (H (some_ends N j E)) as [_ K]. exact K.
  - destruct (Nat.eqb_spec (gas_ends N j) 0) as [E|E].
    + rewrite (proj1 (no_ends N j x E)), Rminus_0_r, Rabs_R0. exact He.
    + destruct (H (some_ends N j E)) as [v [Ev [_ K]]]. rewrite Ev. exact K.
  - rewrite Rminus_diag_eq, Rabs_R0 by reflexivity. lra.
  - rewrite Rminus_0_r, Rabs_R0. lra.
Qed.

(** ** One time step *)
Definition edge_mass (N : network) (x : vec) (ie : nat * edge) : R :=
  match e_type (snd ie) with
  | EPipe d _ dx np => circle_area (/ 2 * d) * pipe_mass N x (fst ie) dx np
  | _ => 0
  end.
Definition edge_burnt (N : network) (x : vec) (ie : nat * edge) : R :=
  match e_type (snd ie) with EGaspower _ _ => flow_at N (fst ie) dstart x | _ => 0 end.
Definition shortb (e : edge) : bool :=
  match e_type e with EShortpipe | ECompressor _ | EControlvalve => true | _ => false end.
Definition edge_volume (e : edge) : R :=
  match e_type e with EPipe d _ dx np => circle_area (/ 2 * d) * (INR (np - 1) * dx) | _ => 0 end.
Lemma short_flows N i e x : well_formed N -> nth_error (edges N) i = Some e -> shortb e = true ->
  flow_at N i dstart x = x (fst (edge_block N i) + 1)%nat /\ flow_at N i dend x = x (fst (edge_block N i) + 3)%nat.
Proof.
  intros W H Hs. unfold flow_at, end_position.
  assert (S : snd (edge_block N i) = (fst (edge_block N i) + 4)%nat).
  { destruct (gas_of N i e) as [g|] eqn:Eg.
    - destruct (gas_of_size N i e g W H Eg) as [_ [_ Sz]]. destruct (gas_of_kind N i e g Eg) as [_ [E2 _]].
      rewrite <- E2. cbn [fst snd]. rewrite Sz. unfold shortb in Hs. destruct (e_type e); try discriminate; reflexivity.
    - unfold gas_of in Eg. unfold shortb in Hs. destruct (edge_block N i); destruct (e_type e); discriminate. }
  rewrite S. split; [reflexivity|]. f_equal. lia.
Qed.
Lemma rho_0_pos : 0 < rho_0.
Proof. unfold rho_0. lra. Qed.
Lemma edge_mass_balance N eps i e t0 t1 last x c : well_formed N -> pipes_ok N -> 0 <= eps -> t0 <= t1 ->
  nth_error (edges N) i = Some e -> edge_equation_within N eps i e t0 t1 last x c ->
  Rabs (edge_mass N x (i, e) - edge_mass N last (i, e)
        - (t1 - t0) * rho_0 * (edge_net N x i e - edge_burnt N x (i, e)))
  <= eps * edge_volume e + (if shortb e then (t1 - t0) * rho_0 * eps else 0).
Proof.
  intros W HP He Ht H HE. pose proof rho_0_pos as R0.
  assert (Z : 0 <= (t1 - t0) * rho_0) by (apply Rmult_le_pos; lra).
  unfold pipes_ok in HP. rewrite List.Forall_forall in HP. specialize (HP e (nth_error_In _ _ H)).
  pose proof (short_flows N i e x W H) as SF.
  assert (Sh : shortb e = true -> within eps (x (fst (edge_block N i) + 3)%nat) (x (fst (edge_block N i) + 1)%nat) ->
     Rabs (0 - 0 - (t1 - t0) * rho_0 * (flow_at N i dstart x - flow_at N i dend x - 0))
     <= eps * 0 + (t1 - t0) * rho_0 * eps).
  { intros Hs Hw. destruct (SF Hs) as [-> ->]. unfold within in Hw.
    match goal with |- Rabs ?a <= _ => replace a with ((t1 - t0) * rho_0 *
      (x (fst (edge_block N i) + 3)%nat - x (fst (edge_block N i) + 1)%nat)) by ring end.
    rewrite Rabs_mult, (Rabs_pos_eq ((t1 - t0) * rho_0)) by exact Z. rewrite Rmult_0_r, Rplus_0_l.
    apply Rmult_le_compat_l; [exact Z|exact Hw]. }
  unfold edge_mass, edge_net, edge_burnt, edge_volume. cbn [fst snd].
  unfold shortb in *. destruct (e_type e) as [d k dx np| | | |g2p p2g|G B] eqn:Et.
  - destruct HP as [Hg Hdx].
    pose proof (pipe_mass_balance N eps i d k dx np t0 t1 last x c e W Hg Hdx H Et HE) as Q.
    rewrite Rplus_0_r. match type of Q with Rabs ?a <= _ => match goal with |- Rabs ?b <= _ => replace b with a by ring end end.
    exact Q.
  - apply Sh; [reflexivity|]. unfold edge_equation_within in HE. rewrite Et in HE. apply HE.
  - apply Sh; [reflexivity|]. unfold edge_equation_within in HE. rewrite Et in HE. apply HE.
  - apply Sh; [reflexivity|]. unfold edge_equation_within in HE. rewrite Et in HE. apply HE.
  - match goal with |- Rabs ?b <= _ => replace b with 0 by ring end. rewrite Rabs_R0. lra.
  - match goal with |- Rabs ?b <= _ => replace b with 0 by ring end. rewrite Rabs_R0. lra.
Qed.

Theorem mass_balance N eps t0 t1 last x c : well_formed N -> pipes_ok N -> 0 <= eps -> t0 <= t1 ->
  network_equations_within N eps t0 t1 last x c ->
  Rabs (linepack N x - linepack N last - entered N t0 t1 x) <= mass_error N eps t0 t1.
Proof.
  intros W HP He Ht [HN HE]. pose proof rho_0_pos as R0.
  assert (Z : 0 <= (t1 - t0) * rho_0) by (apply Rmult_le_pos; lra).
  pose proof (rsum_bound
    (fun ie => edge_mass N x ie - edge_mass N last ie - (t1 - t0) * rho_0 * (edge_net N x (fst ie) (snd ie) - edge_burnt N x ie))
    (fun ie => eps * edge_volume (snd ie) + (if shortb (snd ie) then (t1 - t0) * rho_0 * eps else 0))
    (numbered N)) as Q1.
  assert (Q1' : forall a, In a (numbered N) -> Rabs (edge_mass N x a - edge_mass N last a -
       (t1 - t0) * rho_0 * (edge_net N x (fst a) (snd a) - edge_burnt N x a)) <=
      eps * edge_volume (snd a) + (if shortb (snd a) then (t1 - t0) * rho_0 * eps else 0)).
  { intros [i e] Hie. cbn [fst snd]. apply in_numbered in Hie. apply (edge_mass_balance N eps i e t0 t1 last x c); auto. }
  specialize (Q1 Q1'). clear Q1'.
  pose proof (rsum_bound
    (fun jt => (if gasn (snd jt) then net_outflow N (fst jt) x else 0) - supply N t1 x (fst jt) (snd jt))
    (fun jt => if flown (snd jt) then eps else 0) (numbered_nodes N)) as Q2.
  assert (Q2' : forall a, In a (numbered_nodes N) ->
      Rabs ((if gasn (snd a) then net_outflow N (fst a) x else 0) - supply N t1 x (fst a) (snd a)) <= (if flown (snd a) then eps else 0)).
  { intros [j t] Hj. cbn [fst snd]. apply in_combine_seq in Hj. apply node_supply; auto. }
  specialize (Q2 Q2'). clear Q2'.
  rewrite rsum_minus, all_outflows in Q2 by exact W. fold (total_supply N t1 x) in Q2.
  rewrite (rsum_snd (fun t => if flown t then eps else 0)), rsum_count in Q2.
  fold (flow_equations N) in Q2.
  rewrite !rsum_minus, rsum_scal, rsum_minus in Q1. fold (burnt N x) in Q1.
  change (rsum (edge_mass N x) (numbered N)) with (linepack N x) in Q1.
  change (rsum (edge_mass N last) (numbered N)) with (linepack N last) in Q1.
  rewrite <- rsum_plus in Q1.
  set (net := rsum (fun ie => edge_net N x (fst ie) (snd ie)) (numbered N)) in *.
  assert (S1 : forall f : edge -> R, rsum (fun ie => f (snd ie)) (numbered N) = rsum f (edges N)) by (intro f; apply rsum_snd).
  rewrite (S1 (fun e => eps * edge_volume e)), rsum_scal in Q1.
  rewrite (S1 (fun e => if shortb e then (t1 - t0) * rho_0 * eps else 0)), rsum_count in Q1.
  change (rsum edge_volume (edges N)) with (volume N) in Q1.
  change (length (filter shortb (edges N))) with (short_edges N) in Q1.
  change (length (filter flown (nodes N))) with (flow_equations N) in Q2.
  unfold entered, mass_error. rewrite plus_INR.
  replace (linepack N x - linepack N last - (t1 - t0) * (rho_0 * (total_supply N t1 x - burnt N x)))
    with ((linepack N x - linepack N last - (t1 - t0) * rho_0 * (net - burnt N x))
          + (t1 - t0) * rho_0 * (net - total_supply N t1 x)) by ring.
  eapply Rle_trans; [apply Rabs_triang|]. rewrite Rabs_mult, (Rabs_pos_eq ((t1 - t0) * rho_0)) by exact Z.
  assert (Q3 : (t1 - t0) * rho_0 * Rabs (net - total_supply N t1 x) <= (t1 - t0) * rho_0 * (INR (flow_equations N) * eps))
    by (apply Rmult_le_compat_l; auto).
  eapply Rle_trans; [apply Rplus_le_compat; [exact Q1|exact Q3]|]. apply Req_le. ring.
Qed.
