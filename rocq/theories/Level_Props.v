(** * Property C107: gas networks whose pressures or flows are not determined *)
From Coq Require Import Reals Lra Lia List Arith Bool.
From Coquelicot Require Import Coquelicot.
From Verif Require Import Base Interp_Model Calc Euler_Model Euler_Spec Newton_Model Newton_Spec Box_Model Net_Model Net_Spec Net_Proofs Net_Proofs5 Net_Proofs6 Net_Proofs8 Net_Props
  Sim_Model Sim_Spec Sim_Props Mass_Spec Mass_Proofs Grid_Spec Grid_Proofs Level_Spec Level_Proofs Level_Proofs2.
Import ListNotations.
Local Open Scope R_scope.

(** A change of pressures and flows that leaves pipes and given pressures alone, changes both ends of short edges alike
    and is balanced at the nodes, changes no residual: with a solution all changed states are solutions. *)
Theorem C107_unseen : forall N h z a t0 t1 last x y c v,
  well_formed N -> pipes_ok N -> boundary_defined N t1 -> unseen N h z -> changed N h z a x y ->
  (exists r r', evaluate N t0 t1 last x c v = Ok r /\ evaluate N t0 t1 last y c v = Ok r' /\ forall k, r' k = r k) /\
  (network_equations N t0 t1 last x c -> network_equations N t0 t1 last y c).
Proof.
  intros N h z a t0 t1 last x y c v W HP HB U X.
  destruct (evaluate_changed N h z a x y t0 t1 last c v W HP HB U X) as (r & r' & E & E' & S).
  split; [exists r, r'; auto|]. intro H.
  destruct (C54_solution N t0 t1 last x c v W HP HB) as (q & F & Hq). rewrite E in F. injection F as <-.
  destruct (C54_solution N t0 t1 last y c v W HP HB) as (q & F & Hq'). rewrite E' in F. injection F as <-.
  apply Hq'. intros i Hi. rewrite S. apply Hq; assumption.
Qed.
Print Assumptions C107_unseen.

(** The matrix of the linear systems in Newton's method then has no inverse (in all states: C107_always). *)
Theorem C107_singular : forall N h z t0 t1 last x c,
  well_formed N -> pipes_ok N -> boundary_defined N t1 -> regular_state N x ->
  unseen N h z -> seen_somewhere N h z ->
  exists ts, d_evaluate_d_new_state N t0 t1 last x c = Ok ts /\ singular (number_of_states N) (matrix_of ts).
Proof. intros. eapply unseen_singular; eassumption. Qed.
Print Assumptions C107_singular.

(** So it is in a part of the network without pipes and without given pressure. *)
Theorem C107_level : forall N inside t0 t1 last x c,
  well_formed N -> pipes_ok N -> boundary_defined N t1 -> regular_state N x ->
  (forall j b, nth_error (nodes N) j = Some (Pressurenode b) -> inside j = false) ->
  (forall e, In e (edges N) -> match e_type e with
     | EPipe _ _ _ _ => inside (e_from e) = false /\ inside (e_to e) = false
     | EShortpipe | ECompressor _ | EControlvalve => inside (e_from e) = inside (e_to e)
     | _ => True
     end) ->
  (exists e d, In e (edges N) /\ gas_end e d /\ inside (end_node e d) = true) ->
  exists ts, d_evaluate_d_new_state N t0 t1 last x c = Ok ts /\ singular (number_of_states N) (matrix_of ts).
Proof.
  intros N inside t0 t1 last x c W HP HB HR H1 H2 (e & d & He & G & I).
  apply (C107_singular N _ _ t0 t1 last x c W HP HB HR (level_unseen N inside H1 H2)).
  apply In_nth_error in He. destruct He as (i & He). exists i, e, d. rewrite I. split; [exact He|]. split; [exact G|]. left. lra.
Qed.
Print Assumptions C107_level.

(** So it is if two short pipes, compressors or control valves join the same two nodes, for example a compressor and
    its bypass. *)
Theorem C107_parallel : forall N i i' e e' t0 t1 last x c,
  well_formed N -> pipes_ok N -> boundary_defined N t1 -> regular_state N x ->
  nth_error (edges N) i = Some e -> nth_error (edges N) i' = Some e' -> i <> i' -> short e -> short e' ->
  (e_from e = e_from e' /\ e_to e = e_to e') \/ (e_from e = e_to e' /\ e_to e = e_from e') ->
  exists ts, d_evaluate_d_new_state N t0 t1 last x c = Ok ts /\ singular (number_of_states N) (matrix_of ts).
Proof.
  intros N i i' e e' t0 t1 last x c W HP HB HR He He' D S S' J.
  destruct (short_carries e S) as (C & G). destruct (short_carries e' S') as (C' & G').
  assert (K : forall z, (z = (fun k => unit_flow i k - unit_flow i' k) \/ z = (fun k => unit_flow i k + unit_flow i' k)) ->
     (forall j, divergence N z j = 0) ->
     exists ts, d_evaluate_d_new_state N t0 t1 last x c = Ok ts /\ singular (number_of_states N) (matrix_of ts)).
  { intros z Z Dz. apply (C107_singular N (fun _ => 0) z t0 t1 last x c W HP HB HR).
    - apply flows_unseen; [|intros j _; apply Dz]. intros k ek Hk NS.
      assert (k <> i) by (intros ->; apply NS; congruence). assert (k <> i') by (intros ->; apply NS; congruence).
      destruct Z as [-> | ->]; unfold unit_flow; destruct (Nat.eqb_spec k i), (Nat.eqb_spec k i'); try contradiction; ring.
    - exists i, e, dstart. split; [exact He|]. split; [apply G|]. right. destruct Z as [-> | ->]; unfold unit_flow; rewrite Nat.eqb_refl;
        destruct (Nat.eqb_spec i i'); try contradiction; lra. }
  destruct J as [(J1 & J2)|(J1 & J2)].
  - apply (K _ (or_introl eq_refl)). intro j. rewrite divergence_minus, (divergence_unit N i e j He C), (divergence_unit N i' e' j He' C'), J1, J2. ring.
  - apply (K _ (or_intror eq_refl)). intro j. rewrite divergence_plus, (divergence_unit N i e j He C), (divergence_unit N i' e' j He' C'), J1, J2. ring.
Qed.
Print Assumptions C107_parallel.

(** So it is if one of them joins two nodes with given pressure; a solution exists then only if the pressures fit. *)
Theorem C107_pressures : forall N i e b b' t0 t1 last x c,
  well_formed N -> pipes_ok N -> boundary_defined N t1 -> regular_state N x ->
  nth_error (edges N) i = Some e -> short e ->
  nth_error (nodes N) (e_from e) = Some (Pressurenode b) -> nth_error (nodes N) (e_to e) = Some (Pressurenode b') ->
  (exists ts, d_evaluate_d_new_state N t0 t1 last x c = Ok ts /\ singular (number_of_states N) (matrix_of ts)) /\
  (forall y v v', network_equations N t0 t1 last y c -> b t1 = Ok v -> b' t1 = Ok v' ->
     v' 0%nat - v 0%nat = match e_type e with
                          | ECompressor _ => c (fst (control_block N i))
                          | EControlvalve => - c (fst (control_block N i))
                          | _ => 0
                          end).
Proof.
  intros N i e b b' t0 t1 last x c W HP HB HR He S Hb Hb'. destruct (short_carries e S) as (C & G). split.
  - apply (C107_singular N (fun _ => 0) (unit_flow i) t0 t1 last x c W HP HB HR).
    + apply flows_unseen.
      * intros k ek Hk NS. unfold unit_flow. destruct (Nat.eqb_spec k i) as [->|]; [|reflexivity]. exfalso. apply NS. congruence.
      * intros j Bj. rewrite (divergence_unit N i e j He C). unfold balances in Bj.
        destruct (Nat.eqb_spec (e_from e) j) as [<-|]; [rewrite Hb in Bj; destruct Bj|].
        destruct (Nat.eqb_spec (e_to e) j) as [<-|]; [rewrite Hb' in Bj; destruct Bj|]. ring.
    + exists i, e, dstart. split; [exact He|]. split; [apply G|]. right. unfold unit_flow. rewrite Nat.eqb_refl. lra.
  - intros y v v' (Hn & Hed) Ev Ev'. pose proof (Hn _ _ Hb) as P1. pose proof (Hn _ _ Hb') as P2. cbn [node_equation] in P1, P2.
    destruct P1 as (w & Ew & P1); [exists i, e, dstart; repeat split; auto|].
    destruct P2 as (w' & Ew' & P2); [exists i, e, dend; repeat split; auto|].
    rewrite Ev in Ew. injection Ew as <-. rewrite Ev' in Ew'. injection Ew' as <-.
    specialize (P1 i e dstart He C eq_refl). specialize (P2 i e dend He C eq_refl). specialize (Hed i e He).
    destruct (block_after N i e He) as (A & _). unfold pressure_at, end_position, edge_equation in *. rewrite A in P2. unfold short in S.
    destruct (e_type e); try (destruct S; fail); cbn [edge_states] in *;
      replace (fst (edge_block N i) + 4 - 2)%nat with (fst (edge_block N i) + 2)%nat in P2 by lia; lra.
Qed.
Print Assumptions C107_pressures.

(** In a network without pipes a solution exists only if the supplies fit what the power plants burn. *)
Theorem C107_supply : forall N t0 t1 last x c, t0 < t1 ->
  well_formed N -> boundary_defined N t1 ->
  (forall e, In e (edges N) -> match e_type e with EPipe _ _ _ _ => False | _ => True end) ->
  network_equations N t0 t1 last x c -> total_supply N t1 x = burnt N x.
Proof.
  intros N t0 t1 last x c Ht W HB NP H.
  assert (HP : pipes_ok N).
  { apply List.Forall_forall. intros e He. specialize (NP e He). destruct (e_type e); [destruct NP|exact Logic.I..]. }
  assert (L : forall x, linepack N x = 0).
  { intro y. unfold linepack. transitivity (rsum (fun _ : nat * edge => 0) (numbered N)).
    - apply rsum_ext. intros [i e] He. apply in_numbered in He. specialize (NP e (nth_error_In _ _ He)). cbn [snd]. destruct (e_type e); [destruct NP|reflexivity..].
    - induction (numbered N) as [|q l IH]; cbn; [reflexivity|]. rewrite IH. ring. }
  destruct (C54_solution N t0 t1 last x c (fun _ => 0) W HP HB) as (r & E & Hr).
  destruct (C90_residual N 0 t0 t1 last x c (fun _ => 0) W HP HB (Rle_refl 0)) as (r' & E' & K).
  rewrite E in E'. injection E' as <-.
  assert (Z : network_equations_within N 0 t0 t1 last x c).
  { apply K. pose proof (proj2 Hr H) as Z. clear - Z. apply Req_le. unfold euclidean_norm.
    replace (sum_squares (number_of_states N) r) with 0; [apply sqrt_0|]. symmetry.
    assert (Q : forall n, (forall i, (i < n)%nat -> r i = 0) -> sum_squares n r = 0).
    { induction n as [|n IH]; intro Hn; cbn; [reflexivity|]. rewrite IH by (intros; apply Hn; lia). rewrite Hn by lia. ring. }
    apply Q. exact Z. }
  pose proof (C91_exact N t0 t1 last x c W HP (Rlt_le _ _ Ht) Z) as M. rewrite !L in M.
  assert (R0 : rho_0 <> 0) by (unfold rho_0; lra).
  assert (Q : (t1 - t0) * (rho_0 * (total_supply N t1 x - burnt N x)) = 0) by lra.
  apply Rmult_integral in Q. destruct Q as [Q|Q]; [lra|]. apply Rmult_integral in Q. destruct Q as [Q|Q]; [contradiction|lra].
Qed.
Print Assumptions C107_supply.

(** Case: a compressor with a bypass valve between a node with given pressure and a sink.  Setup does not reject it. *)
Definition bypass : network :=
  mkNet [Pressurenode (fun _ => Ok (v2 50 0)); Flownode true (fun _ => Ok (v2 10 0))]
        [mkEdge 0 1 (ECompressor 1); mkEdge 0 1 EControlvalve].
Definition bypass_state (q : R) : vec := fun k => nth k [50; q; 50; q; 50; 10 - q; 50; 10 - q] 0.
Lemma bypass_ok : setup_ok bypass = true /\ constructible bypass /\ well_formed bypass /\ pipes_ok bypass /\
  (forall t, boundary_defined bypass t) /\ (forall x, regular_state bypass x).
Proof.
  split; [reflexivity|]. split; [repeat constructor; cbn; lia|]. split; [repeat constructor; cbn; auto; lia|].
  split; [repeat constructor|]. split.
  - intros t j. destruct j as [|[|j]]; cbn; eauto. destruct j; exact Logic.I.
  - intros x i e H. destruct i as [|[|i]]; cbn in H; try (injection H as <-; cbn; exact Logic.I). destruct i; discriminate.
Qed.
Example C107_case : unseen bypass (fun _ => 0) (fun i => if Nat.eqb i 0 then 1 else -1) /\
  seen_somewhere bypass (fun _ => 0) (fun i => if Nat.eqb i 0 then 1 else -1) /\
  (forall a, changed bypass (fun _ => 0) (fun i => if Nat.eqb i 0 then 1 else -1) a (bypass_state 10) (bypass_state (10 + a))) /\
  network_equations bypass 0 1 (bypass_state 10) (bypass_state 10) (fun _ => 0).
Proof.
  split; [|split; [|split]].
  - split; [reflexivity|]. split.
    + intros i e H. destruct i as [|[|i]]; cbn in H; try (injection H as <-; reflexivity). destruct i; discriminate.
    + intros j H. destruct j as [|[|j]]; cbn in H; try (destruct H; fail); [unfold divergence; cbn; ring|destruct j; destruct H].
  - exists 0%nat, (mkEdge 0 1 (ECompressor 1)), dstart. repeat split. right. cbn. lra.
  - intro a. split.
    + intros i e d H _. destruct i as [|[|i]]; cbn in H; try (injection H as <-; destruct d; cbn; split; ring). destruct i; discriminate.
    + intros k H.
      pose proof (H 0%nat (mkEdge 0 1 (ECompressor 1)) dstart eq_refl Logic.I) as A1. pose proof (H 0%nat (mkEdge 0 1 (ECompressor 1)) dend eq_refl Logic.I) as A2.
      pose proof (H 1%nat (mkEdge 0 1 EControlvalve) dstart eq_refl Logic.I) as A3. pose proof (H 1%nat (mkEdge 0 1 EControlvalve) dend eq_refl Logic.I) as A4.
      cbn in A1, A2, A3, A4. do 8 (destruct k as [|k]; [exfalso; lia|]). destruct k; reflexivity.
  - split.
    + intros j t H. destruct j as [|[|j]]; cbn in H; [injection H as <-..|destruct j; discriminate]; intros _.
      * exists (v2 50 0). split; [reflexivity|]. intros i e d He _ Ht. destruct i as [|[|i]]; cbn in He; try (injection He as <-; destruct d; cbn; reflexivity). destruct i; discriminate.
      * exists (v2 10 0). split; [reflexivity|]. split.
        -- exists 50. intros i e d He _ Ht. destruct i as [|[|i]]; cbn in He; try (injection He as <-; destruct d; cbn; reflexivity). destruct i; discriminate.
        -- unfold net_outflow. cbn. ring.
    + intros i e H. destruct i as [|[|i]]; cbn in H; try (injection H as <-; cbn; split; ring). destruct i; discriminate.
Qed.
(** Case: a source and a sink, joined by a short pipe. *)
Definition floating : network :=
  mkNet [Flownode false (fun _ => Ok (v2 10 0)); Flownode true (fun _ => Ok (v2 10 0))] [mkEdge 0 1 EShortpipe].
Example C107_level_case : setup_ok floating = true /\ well_formed floating /\ pipes_ok floating /\ (forall t, boundary_defined floating t) /\
  (forall x, regular_state floating x) /\
  (forall j b, nth_error (nodes floating) j = Some (Pressurenode b) -> (fun _ : nat => true) j = false) /\
  network_equations floating 0 1 (fun _ => 0) (fun k => if Nat.even k then 7 else 10) (fun _ => 0).
Proof.
  split; [reflexivity|]. split; [repeat constructor; cbn; auto; lia|]. split; [repeat constructor|]. split; [|split; [|split; [|split]]].
  - intros t j. destruct j as [|[|j]]; cbn; eauto. destruct j; exact Logic.I.
  - intros x i e H. destruct i as [|i]; cbn in H; try (injection H as <-; cbn; exact Logic.I). destruct i; discriminate.
  - intros j b H. destruct j as [|[|j]]; try discriminate. destruct j; discriminate.
  - intros j t H. destruct j as [|[|j]]; cbn in H; [injection H as <-..|destruct j; discriminate]; intros _;
      (exists (v2 10 0); split; [reflexivity|]; split;
        [exists 7; intros i e d He _ Ht; destruct i as [|i]; cbn in He; [injection He as <-; destruct d; cbn; reflexivity|destruct i; discriminate]
        |unfold net_outflow; cbn; ring]).
  - intros i e H. destruct i as [|i]; cbn in H; [injection H as <-; cbn; split; ring|destruct i; discriminate].
Qed.
