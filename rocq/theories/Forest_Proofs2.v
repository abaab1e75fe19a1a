(** Two solutions differ by a change that no equation sees; the Jacobian of a determined network has an inverse. *)
From Coq Require Import Reals Lra Lia List Arith Bool Permutation.
From Coquelicot Require Import Coquelicot.
From Verif Require Import Base Interp_Model Calc Euler_Model Euler_Spec Box_Model Net_Model Net_Spec Net_Proofs Net_Proofs2 Net_Proofs3 Net_Proofs4 Net_Proofs5 Net_Proofs6
  Net_Proofs7 Net_Proofs8 Net_Proofs9 Net_Props Mass_Proofs Grid_Spec Grid_Proofs Grid_Proofs2 Level_Spec Level_Proofs Level_Proofs2 Stuck_Proofs Linear_Proofs Forest_Spec Forest_Proofs.
Import ListNotations.
Local Open Scope R_scope.

(** ** The difference of two solutions *)
Definition at_node (j : nat) (ie : nat * edge) : bool := Nat.eqb (e_from (snd ie)) j || Nat.eqb (e_to (snd ie)) j.
Definition side (j : nat) (e : edge) : direction := if Nat.eqb (e_from e) j then dstart else dend.
Definition pressure_change (N : network) (x y : vec) : nat -> R := fun j =>
  match find (at_node j) (numbered N) with
  | Some (i, e) => y (end_position N i (side j e)) - x (end_position N i (side j e))
  | None => 0
  end.
Definition flow_change (N : network) (x y : vec) : nat -> R := fun i => flow_at N i dstart y - flow_at N i dstart x.

Section Difference.
Variable N : network.
Variables t0 t1 : R.
Variables last x y c : vec.
Hypothesis W : well_formed N.
Hypothesis S : short_net N.
Hypothesis X : network_equations N t0 t1 last x c.
Hypothesis Y : network_equations N t0 t1 last y c.

Lemma found j i e : find (at_node j) (numbered N) = Some (i, e) ->
  nth_error (edges N) i = Some e /\ touches e (side j e) j /\ has_gas_edge N j.
Proof.
  intro F. apply find_some in F. destruct F as (I & B). apply in_numbered in I. unfold at_node in B. cbn [snd] in B.
  assert (T : touches e (side j e) j).
  { unfold side. destruct (Nat.eqb_spec (e_from e) j) as [E|E]; [exact E|]. cbn [orb] in B. apply Nat.eqb_eq in B. exact B. }
  split; [exact I|]. split; [exact T|]. exists i, e, (side j e). split; [exact I|]. split; [apply (short_ends N i e S I)|exact T].
Qed.
Lemma short_pressure i e d v : nth_error (edges N) i = Some e -> pressure_at N i e d v = v (end_position N i d).
Proof.
  intro He. pose proof (proj2 S e (nth_error_In _ _ He)) as Sh. unfold short in Sh. unfold pressure_at. destruct (e_type e); try (destruct Sh; fail); reflexivity.
Qed.
Lemma same_change i e d j : nth_error (edges N) i = Some e -> touches e d j ->
  y (end_position N i d) - x (end_position N i d) = pressure_change N x y j.
Proof.
  intros He T. unfold pressure_change.
  destruct (find (at_node j) (numbered N)) as [[i' e']|] eqn:F.
  - destruct (found j i' e' F) as (He' & T' & HG).
    assert (Hg : is_gas_node N j).
    { unfold well_formed in W. rewrite List.Forall_forall in W. destruct (W e (nth_error_In _ _ He)) as (_ & K).
      pose proof (proj2 S e (nth_error_In _ _ He)) as Sh. unfold short in Sh. unfold touches in T.
      destruct (e_type e); try (destruct Sh; fail); destruct d; subst j; tauto. }
    unfold is_gas_node in Hg. destruct (nth_error (nodes N) j) as [t|] eqn:Hj; [|destruct Hg].
    pose proof (proj1 X j t Hj) as Ex. pose proof (proj1 Y j t Hj) as Ey.
    assert (Q : (exists pr, equal_pressures N j x pr) /\ (exists pr, equal_pressures N j y pr)).
    { destruct t; cbn [node_equation] in Ex, Ey; try (destruct Hg; fail).
      - split; [apply (Ex HG)|apply (Ey HG)].
      - destruct (Ex HG) as (? & _ & ? & _). destruct (Ey HG) as (? & _ & ? & _). split; assumption.
      - destruct (Ex HG) as (v & _ & ?). destruct (Ey HG) as (v' & _ & ?). split; eexists; eassumption. }
    destruct Q as ((p & Qx) & (q & Qy)).
    destruct (short_ends N i e S He) as (_ & C & _). destruct (short_ends N i' e' S He') as (_ & C' & _).
    pose proof (Qx i e d He C T) as A1. pose proof (Qy i e d He C T) as A2.
    pose proof (Qx i' e' (side j e') He' C' T') as A3. pose proof (Qy i' e' (side j e') He' C' T') as A4.
    rewrite short_pressure in A1, A2, A3, A4 by assumption. lra.
  - exfalso. pose proof (find_none _ _ F (i, e) ltac:(apply in_numbered; exact He)) as B. unfold at_node in B. cbn [snd] in B.
    apply orb_false_elim in B. destruct B as (B1 & B2). apply Nat.eqb_neq in B1, B2. unfold touches in T. destruct d; congruence.
Qed.
Lemma same_flow i e : nth_error (edges N) i = Some e -> flow_at N i dend x = flow_at N i dstart x /\ flow_at N i dend y = flow_at N i dstart y.
Proof.
  intro He. destruct (short_ends N i e S He) as (_ & _ & _ & P0 & P1). pose proof (proj2 X i e He) as Ex. pose proof (proj2 Y i e He) as Ey.
  pose proof (proj2 S e (nth_error_In _ _ He)) as Sh. unfold short in Sh. unfold edge_equation in Ex, Ey. unfold flow_at. rewrite P0, P1.
  replace (fst (edge_block N i) + 2 + 1)%nat with (fst (edge_block N i) + 3)%nat by lia.
  destruct (e_type e); try (destruct Sh; fail); tauto.
Qed.
Lemma outflow_change j : net_outflow N j y - net_outflow N j x = divergence N (flow_change N x y) j.
Proof.
  unfold net_outflow, divergence. rewrite <- rsum_minus. apply rsum_ext. intros [i e] I. apply in_numbered in I. cbn [fst snd].
  destruct (same_flow i e I) as (A & B). rewrite A, B. unfold flow_change.
  destruct (carries_gas e), (Nat.eqb (e_from e) j), (Nat.eqb (e_to e) j); ring.
Qed.
Lemma lonely j z : find (at_node j) (numbered N) = None -> divergence N z j = 0.
Proof.
  intro F. unfold divergence. rewrite (rsum_ext _ (fun _ => 0)); [rewrite rsum_const; ring|]. intros [i e] I.
  pose proof (find_none _ _ F (i, e) I) as B. unfold at_node in B. cbn [fst snd] in *. apply orb_false_elim in B. destruct B as (-> & ->).
  destruct (carries_gas e); ring.
Qed.
Lemma difference_unseen : unseen N (pressure_change N x y) (flow_change N x y).
Proof.
  split; [|split].
  - intros j b Hj. destruct (find (at_node j) (numbered N)) as [[i e]|] eqn:F; [|unfold pressure_change; rewrite F; reflexivity].
    destruct (found j i e F) as (He & T & HG). rewrite <- (same_change i e (side j e) j He T).
    destruct (proj1 X j _ Hj HG) as (v & Ev & Qx). destruct (proj1 Y j _ Hj HG) as (v' & Ev' & Qy). rewrite Ev in Ev'. injection Ev' as <-.
    destruct (short_ends N i e S He) as (_ & C & _). pose proof (Qx i e _ He C T) as A1. pose proof (Qy i e _ He C T) as A2.
    rewrite short_pressure in A1, A2 by exact He. lra.
  - intros i e He.
    pose proof (same_change i e dstart (e_from e) He eq_refl) as A. pose proof (same_change i e dend (e_to e) He eq_refl) as B.
    destruct (short_ends N i e S He) as (_ & _ & _ & P0 & P1). rewrite P0 in A. rewrite P1 in B.
    pose proof (proj2 X i e He) as Ex. pose proof (proj2 Y i e He) as Ey.
    pose proof (proj2 S e (nth_error_In _ _ He)) as Sh. unfold short in Sh. unfold edge_equation in Ex, Ey.
    destruct (e_type e); try (destruct Sh; fail); destruct Ex as (Ex & _), Ey as (Ey & _); lra.
  - intros j Hb. destruct (find (at_node j) (numbered N)) as [[i e]|] eqn:F; [|apply lonely; exact F].
    destruct (found j i e F) as (He & T & HG). rewrite <- outflow_change.
    unfold balances in Hb. destruct (nth_error (nodes N) j) as [t|] eqn:Hj; [|destruct Hb].
    pose proof (proj1 X j t Hj) as Ex. pose proof (proj1 Y j t Hj) as Ey.
    destruct t; cbn [node_equation] in Ex, Ey; try (destruct Hb; fail).
    + destruct (Ex HG) as (_ & ->). destruct (Ey HG) as (_ & ->). ring.
    + destruct (Ex HG) as (v & Ev & _ & ->). destruct (Ey HG) as (v' & Ev' & _ & ->). rewrite Ev in Ev'. injection Ev' as <-. ring.
Qed.
Lemma difference_seen k : (k < number_of_states N)%nat -> x k <> y k -> seen_somewhere N (pressure_change N x y) (flow_change N x y).
Proof.
  intros Hk Ne. destruct (short_position N k S Hk) as (i & e & d & He & P). destruct (short_ends N i e S He) as (G & _).
  exists i, e, d. split; [exact He|]. split; [apply G|]. destruct P as [->| ->].
  - left. assert (T : touches e d (end_node e d)) by (destruct d; reflexivity). rewrite <- (same_change i e d _ He T). lra.
  - right. unfold flow_change. destruct (same_flow i e He) as (A & B). destruct d; [unfold flow_at; lra|].
    rewrite <- A, <- B. unfold flow_at. lra.
Qed.
End Difference.

(** ** The same network with boundary values zero *)
Definition clear_node (t : nodetype) : nodetype :=
  match t with
  | Innode => Innode
  | Flownode sink _ => Flownode sink (fun _ => Ok (fun _ => 0))
  | Pressurenode _ => Pressurenode (fun _ => Ok (fun _ => 0))
  | Powernode k e G B _ => Powernode k e G B (fun _ => Ok (fun _ => 0))
  end.
Definition cleared (N : network) : network := mkNet (map clear_node (nodes N)) (edges N).
Lemma cleared_sizes N : state_sizes (cleared N) = state_sizes N.
Proof.
  unfold state_sizes, cleared. cbn [nodes edges]. f_equal. rewrite map_map. apply map_ext. intros []; reflexivity.
Qed.
Lemma cleared_states N : number_of_states (cleared N) = number_of_states N.
Proof. unfold number_of_states. rewrite cleared_sizes. reflexivity. Qed.
Lemma cleared_block N i : edge_block (cleared N) i = edge_block N i.
Proof. unfold edge_block, state_blocks. rewrite cleared_sizes. cbn [cleared nodes]. rewrite map_length. reflexivity. Qed.
Lemma cleared_node N j : nth_error (nodes (cleared N)) j = option_map clear_node (nth_error (nodes N) j).
Proof. cbn [cleared nodes]. apply nth_error_map. Qed.
Lemma cleared_gas_node N j : is_gas_node (cleared N) j <-> is_gas_node N j.
Proof. unfold is_gas_node. rewrite cleared_node. destruct (nth_error (nodes N) j) as [[]|]; cbn; tauto. Qed.
Lemma cleared_power_node N j : is_power_node (cleared N) j <-> is_power_node N j.
Proof. unfold is_power_node. rewrite cleared_node. destruct (nth_error (nodes N) j) as [[]|]; cbn; tauto. Qed.
Lemma cleared_short N : short_net N -> short_net (cleared N).
Proof.
  intros (A & B). split; [|exact B]. intros j Hj. apply cleared_gas_node. apply A. cbn [cleared nodes] in Hj. rewrite map_length in Hj. exact Hj.
Qed.
Lemma cleared_formed N : well_formed N -> short_net N -> well_formed (cleared N).
Proof.
  unfold well_formed. rewrite !List.Forall_forall. intros W (_ & B) e He. specialize (W e He). specialize (B e He). unfold short in B. unfold edge_ok in *.
  split; [apply W|]. destruct W as (_ & W). destruct (e_type e); try (destruct B; fail); rewrite !cleared_gas_node; exact W.
Qed.
Lemma cleared_defined N t : boundary_defined (cleared N) t.
Proof. intro j. rewrite cleared_node. destruct (nth_error (nodes N) j) as [[]|]; cbn; eauto. Qed.
Lemma cleared_gas N i e : short_net N -> nth_error (edges N) i = Some e -> gas_of (cleared N) i e = gas_of N i e.
Proof.
  intros S He. pose proof (proj2 S e (nth_error_In _ _ He)) as Sh. unfold short in Sh. unfold gas_of. rewrite cleared_block.
  destruct (edge_block N i). destruct (e_type e); try (destruct Sh; fail); reflexivity.
Qed.
Lemma cleared_list N d f : short_net N -> gas_list (cleared N) (filter f (numbered N)) d = gas_list N (filter f (numbered N)) d.
Proof.
  intro S. unfold gas_list. rewrite !flat_map_concat_map. f_equal. apply map_ext_in. intros [i e] I. apply filter_In in I. destruct I as (I & _).
  apply in_numbered in I. cbn [fst snd]. rewrite cleared_gas by assumption. reflexivity.
Qed.
Lemma cleared_attached N j : short_net N -> attached_gas (cleared N) j = attached_gas N j.
Proof. intro S. unfold attached_gas. change (numbered (cleared N)) with (numbered N). rewrite !cleared_list by exact S. reflexivity. Qed.
Lemma cleared_jacobian N t0 t1 last x c : short_net N -> d_evaluate_d_new_state (cleared N) t0 t1 last x c = d_evaluate_d_new_state N t0 t1 last x c.
Proof.
  intro S. unfold d_evaluate_d_new_state. cbv zeta. f_equal.
  assert (Ed : forall sel f, on_edges (A := entry) (cleared N) sel f = on_edges N sel f).
  { intros sel f. unfold on_edges. change (numbered (cleared N)) with (numbered N). rewrite !flat_map_concat_map. f_equal. apply map_ext_in. intros [i e] I.
    apply in_numbered in I. cbn [fst snd]. rewrite cleared_gas by assumption. reflexivity. }
  rewrite !Ed. f_equal. unfold on_nodes. cbn [cleared nodes]. rewrite map_length.
  assert (Nd : forall l s, (forall j t, nth_error l j = Some t -> nth_error (nodes N) (s + j) = Some t) ->
    map (fun jt => node_d_new_state (mkNet (map clear_node (nodes N)) (edges N)) (fst jt) (snd jt) x) (combine (seq s (length l)) (map clear_node l)) =
    map (fun jt => node_d_new_state N (fst jt) (snd jt) x) (combine (seq s (length l)) l)).
  { induction l as [|t l IH]; intros s H; [reflexivity|]. cbn [length seq map combine fst snd]. rewrite IH.
    - f_equal. pose proof (H 0%nat t eq_refl) as Hj. rewrite Nat.add_0_r in Hj. unfold node_d_new_state. fold (cleared N). rewrite cleared_attached by exact S.
      destruct t; try reflexivity. exfalso. pose proof (proj1 S s ltac:(apply nth_error_Some; congruence)) as Gn. unfold is_gas_node in Gn. rewrite Hj in Gn. exact Gn.
    - intros j t' H'. specialize (H (Datatypes.S j) t' H'). rewrite <- H. f_equal. lia. }
  apply Nd. intros j t H. exact H.
Qed.
Lemma cleared_unseen N h z : unseen (cleared N) h z -> unseen N h z.
Proof.
  intros (A & B & D). split; [|split].
  - intros j b Hj. apply (A j (fun _ => Ok (fun _ => 0))). rewrite cleared_node, Hj. reflexivity.
  - exact B.
  - intros j Hb. apply D. unfold balances in *. rewrite cleared_node. destruct (nth_error (nodes N) j) as [[]|]; exact Hb.
Qed.
Lemma cleared_zero N t0 t1 last : short_net N -> network_equations (cleared N) t0 t1 last (fun _ => 0) (fun _ => 0).
Proof.
  intro S. pose proof (cleared_short N S) as S'.
  assert (P0 : forall j, equal_pressures (cleared N) j (fun _ => 0) 0).
  { intros j i e d He C T. rewrite (short_pressure (cleared N) S' i e d _ He). reflexivity. }
  assert (F0 : forall j, net_outflow (cleared N) j (fun _ => 0) = 0).
  { intro j. unfold net_outflow, flow_at. rewrite (rsum_ext _ (fun _ => 0)); [rewrite rsum_const; ring|]. intros [i e] _. cbn [fst snd].
    destruct (carries_gas e), (Nat.eqb (e_from e) j), (Nat.eqb (e_to e) j); ring. }
  split.
  - intros j t Hj. pose proof (proj1 S' j ltac:(apply nth_error_Some; congruence)) as G. unfold is_gas_node in G. rewrite Hj in G.
    rewrite cleared_node in Hj. destruct (nth_error (nodes N) j) as [t'|] eqn:E; [|discriminate]. cbn [option_map] in Hj. injection Hj as <-.
    destruct t' as [|sink b|b|k ext G' B b]; cbn [clear_node node_equation]; try (destruct G; fail).
    + intros _. split; [exists 0; apply P0|apply F0].
    + intros _. exists (fun _ => 0). split; [reflexivity|]. split; [exists 0; apply P0|]. rewrite F0. destruct sink; ring.
    + intros _. exists (fun _ => 0). split; [reflexivity|apply P0].
  - intros i e He. pose proof (proj2 S' e (nth_error_In _ _ He)) as Sh. unfold short in Sh. unfold edge_equation.
    destruct (e_type e); try (destruct Sh; fail); split; ring.
Qed.

(** ** The Jacobian of a determined network has an inverse *)
Lemma determined_regular N t0 t1 last x c ts : well_formed N -> short_net N -> determined N ->
  d_evaluate_d_new_state N t0 t1 last x c = Ok ts -> ~ singular (number_of_states N) (matrix_of ts).
Proof.
  intros W S D E (w & (k & Hk & Wk) & Z).
  pose proof (cleared_short N S) as S'. pose proof (cleared_formed N W S) as W'. pose proof (cleared_defined N 0) as B'.
  destruct (affine (cleared N) 0 W' S' B') as (ts' & Et & AF).
  assert (ts' = ts) as ->. { specialize (Et t0 t1 last x c). rewrite cleared_jacobian in Et by exact S. congruence. }
  destruct (AF 0 (fun _ => 0) (fun _ => 0) (fun _ => 0) (fun _ => 0) w) as (f & r & Ef & Er & Q).
  pose proof (cleared_zero N 0 0 (fun _ => 0) S) as EqX.
  assert (EqY : network_equations (cleared N) 0 0 (fun _ => 0) w (fun _ => 0)).
  { destruct (C54_solution (cleared N) 0 0 (fun _ => 0) (fun _ => 0) (fun _ => 0) (fun _ => 0) W' (short_pipes _ S') B') as (f' & Ef' & If).
    rewrite Ef in Ef'. injection Ef' as <-.
    destruct (C54_solution (cleared N) 0 0 (fun _ => 0) w (fun _ => 0) (fun _ => 0) W' (short_pipes _ S') B') as (r' & Er' & Ir).
    rewrite Er in Er'. injection Er' as <-. apply Ir. intros i Hi. rewrite Q by exact Hi. rewrite (proj2 If EqX i Hi).
    rewrite cleared_states in *. rewrite <- (Z i Hi) at 2. rewrite Rplus_0_l. apply vsum_ext. intros j _. ring. }
  apply (D (pressure_change (cleared N) (fun _ => 0) w) (flow_change (cleared N) (fun _ => 0) w)).
  - apply cleared_unseen. exact (difference_unseen (cleared N) 0 0 (fun _ => 0) (fun _ => 0) w (fun _ => 0) W' S' EqX EqY).
  - refine (difference_seen (cleared N) 0 0 (fun _ => 0) (fun _ => 0) w (fun _ => 0) W' S' EqX EqY k _ _).
    + rewrite cleared_states. exact Hk.
    + intro H. apply Wk. symmetry. exact H.
Qed.

(** ** Solutions *)
Lemma determined_unique N t0 t1 last x y c : well_formed N -> short_net N -> determined N ->
  network_equations N t0 t1 last x c -> network_equations N t0 t1 last y c -> forall k, (k < number_of_states N)%nat -> x k = y k.
Proof.
  intros W S D X Y k Hk. destruct (Req_EM_T (x k) (y k)) as [E|E]; [exact E|]. exfalso.
  exact (D _ _ (difference_unseen N t0 t1 last x y c W S X Y) (difference_seen N t0 t1 last x y c W S X Y k Hk E)).
Qed.
Lemma determined_solvable N t0 t1 last c : well_formed N -> short_net N -> determined N -> boundary_defined N t1 ->
  exists x, network_equations N t0 t1 last x c.
Proof.
  intros W S D HB. destruct (affine N t1 W S HB) as (ts & Et & AF).
  pose proof (determined_regular N 0 t1 last last c ts W S D (Et _ _ _ _ _)) as NS.
  destruct (AF t0 last c (fun _ => 0) (fun _ => 0) (fun _ => 0)) as (f & _ & Ef & _).
  destruct (solvable _ _ (fun k => - f k) NS) as (w & Hw). exists w.
  destruct (AF t0 last c (fun _ => 0) (fun _ => 0) w) as (f' & r & Ef' & Er & Q). rewrite Ef in Ef'. injection Ef' as <-.
  destruct (C54_solution N t0 t1 last w c (fun _ => 0) W (short_pipes _ S) HB) as (r' & Er' & Ir). rewrite Er in Er'. injection Er' as <-.
  apply Ir. intros i Hi. rewrite Q by exact Hi. rewrite (vsum_ext _ _ (fun j => matrix_of ts i j * w j)) by (intros; ring). rewrite Hw by exact Hi. ring.
Qed.
