(** States before and after the cut. *)
From Coq Require Import Reals ZArith Lra Lia List Arith Bool.
From Verif Require Import Base Calc Euler_Model Euler_Spec Euler_Proofs Box_Model Net_Model Net_Spec Net_Proofs5 Level_Spec Level_Proofs Grid_Proofs2 Insert_Proofs.
From Verif Require Import Cut_Spec Cut_Proofs.
Import ListNotations.
Local Open Scope R_scope.

Lemma p_same r s : density_ok r -> density_ok s -> p r / bar = p s / bar -> r = s.
Proof.
  intros R S E. pose proof bar_pos. assert (P : p r = p s) by (apply (Rmult_eq_reg_r (/ bar)); [exact E|apply Rinv_neq_0_compat; lra]).
  destruct (Rtotal_order r s) as [L|[L|L]]; [|exact L|]; exfalso.
  - pose proof (p_increasing r s R S L). lra.
  - pose proof (p_increasing s r S R L). lra.
Qed.

Section Cut.
Variables (N : network) (i : nat) (a z : nat) (dm ro dx : R) (np l : nat).
Let e := mkEdge a z (EPipe dm ro dx np).
Hypothesis W : well_formed N.
Hypothesis He : nth_error (edges N) i = Some e.
Hypothesis Hl : (1 <= l)%nat.
Hypothesis Hn : (l + 1 < np)%nat.
Let k := length (nodes N).
Let m := length (edges N).
Let N' := cut_pipe N i e l.
Let D := (2 * (np - l - 1))%nat.
Let s := fst (edge_block N i).
Let n := number_of_states N.

Lemma cut_room : (s + 2 * np <= n)%nat.
Proof. destruct (edge_block_spec N i e He) as (s0 & B & L). unfold s, n. rewrite B. exact L. Qed.
Lemma power_before j c : is_power_node N j -> (c < 2)%nat -> (fst (node_block N j) + c < s)%nat.
Proof. intros P Hc. pose proof (node_before_edge N j i e P He) as B. fold s in B. lia. Qed.
Lemma edge_before i0 e0 c : nth_error (edges N) i0 = Some e0 -> (i0 < i)%nat -> (c < edge_states (e_type e0))%nat -> (fst (edge_block N i0) + c < s)%nat.
Proof.
  intros H L Hc. pose proof (edge_size N i0 e0 H) as S0. pose proof (edge_size N i e He) as S1.
  pose proof (block_order N (length (nodes N) + i0) (length (nodes N) + i) _ _ ltac:(lia) S0 S1) as B. unfold s, edge_block. lia.
Qed.
Lemma edge_after i0 e0 c : nth_error (edges N) i0 = Some e0 -> (i < i0)%nat -> (c < edge_states (e_type e0))%nat ->
  (s + 2 * np <= fst (edge_block N i0) + c < n)%nat.
Proof.
  intros H L Hc. pose proof (edge_size N i0 e0 H) as S0. pose proof (edge_size N i e He) as S1.
  pose proof (block_order N (length (nodes N) + i) (length (nodes N) + i0) _ _ ltac:(lia) S1 S0) as B. cbn [e e_type edge_states] in B.
  destruct (edge_block_spec N i0 e0 H) as (s0 & B0 & L0). rewrite B0. cbn [fst]. fold n in L0. assert (s0 = fst (edge_block N i0)) by (rewrite B0; reflexivity).
  unfold s. unfold edge_block in *. lia.
Qed.
Lemma cut_before' i0 : (i0 <= i)%nat -> fst (edge_block N' i0) = fst (edge_block N i0).
Proof. exact (cut_before N i a z dm ro dx np l He Hl Hn i0). Qed.
Lemma cut_after' i0 : (i < i0)%nat -> (i0 < m)%nat -> fst (edge_block N' i0) = (fst (edge_block N i0) - D)%nat.
Proof. intros H L. pose proof (cut_after N i a z dm ro dx np l He Hl Hn i0 H L) as E. fold e N' D in E. lia. Qed.
Lemma cut_last' : fst (edge_block N' m) = (n - D)%nat.
Proof. pose proof (cut_last N i a z dm ro dx np l He Hl Hn) as E. fold e N' D m n in E. lia. Qed.

Lemma cut_node_block' j : is_power_node N j -> node_block N' j = node_block N j.
Proof.
  intro P. apply (cut_node_block N i a z dm ro dx np l He Hl Hn j). unfold is_power_node in P. apply nth_error_Some. destruct (nth_error (nodes N) j); [discriminate|destruct P].
Qed.

Definition cut_of (x : vec) : vec := fun q =>
  if Nat.ltb q (s + 2 * (l + 1)) then x q else if Nat.ltb q (n - D) then x (q + D)%nat else x (s + 2 * l + (q - (n - D)))%nat.
Lemma cut_of_state x : cut_state N i e l x (cut_of x).
Proof.
  pose proof cut_room as Ro. unfold cut_state. cbv zeta. fold N' m. split; [|split; [|split]].
  - intros j c P Hc. rewrite (cut_node_block' j P).
    pose proof (power_before j c P Hc). unfold cut_of. destruct (Nat.ltb_spec (fst (node_block N j) + c) (s + 2 * (l + 1))); [reflexivity|lia].
  - intros i0 e0 c H Ne Hc. destruct (lt_dec i0 i) as [L|L].
    + rewrite cut_before' by lia. pose proof (edge_before i0 e0 c H L Hc). unfold cut_of. destruct (Nat.ltb_spec (fst (edge_block N i0) + c) (s + 2 * (l + 1))); [reflexivity|lia].
    + assert (Lm : (i0 < m)%nat) by (apply nth_error_Some; congruence). rewrite cut_after' by lia. pose proof (edge_after i0 e0 c H ltac:(lia) Hc).
      assert (HD : (D = 2 * (np - l - 1))%nat) by reflexivity. unfold cut_of.
      pose proof (edge_after i0 e0 0 H ltac:(lia) ltac:(lia)).
      destruct (Nat.ltb_spec (fst (edge_block N i0) - D + c) (s + 2 * (l + 1))); [lia|]. destruct (Nat.ltb_spec (fst (edge_block N i0) - D + c) (n - D)); [|lia]. f_equal. lia.
  - intros g c Hg Hc. rewrite cut_before' by lia. fold s. unfold cut_of. destruct (Nat.ltb_spec (s + 2 * g + c) (s + 2 * (l + 1))); [reflexivity|lia].
  - cbn [e e_type]. intros g c Hg Hc. rewrite cut_last'. fold s. assert (HD : (D = 2 * (np - l - 1))%nat) by reflexivity. unfold cut_of.
    destruct (Nat.ltb_spec (n - D + 2 * (g - l) + c) (s + 2 * (l + 1))); [lia|]. destruct (Nat.ltb_spec (n - D + 2 * (g - l) + c) (n - D)); [lia|]. f_equal. lia.
Qed.

Definition joined (x' : vec) : vec := fun q =>
  if Nat.ltb q (s + 2 * (l + 1)) then x' q else if Nat.ltb q (s + 2 * np) then x' (n - D + (q - s - 2 * l))%nat else x' (q - D)%nat.
Lemma joined_state x' :
  (forall c, (c < 2)%nat -> x' (end_position N' i dend + c)%nat = x' (end_position N' m dstart + c)%nat) -> cut_state N i e l (joined x') x'.
Proof.
  intro A. pose proof cut_room as Ro. assert (HD : (D = 2 * (np - l - 1))%nat) by reflexivity. unfold cut_state. cbv zeta. fold N' m. split; [|split; [|split]].
  - intros j c P Hc. rewrite (cut_node_block' j P).
    pose proof (power_before j c P Hc). unfold joined. destruct (Nat.ltb_spec (fst (node_block N j) + c) (s + 2 * (l + 1))); [reflexivity|lia].
  - intros i0 e0 c H Ne Hc. destruct (lt_dec i0 i) as [L|L].
    + rewrite cut_before' by lia. pose proof (edge_before i0 e0 c H L Hc). unfold joined. destruct (Nat.ltb_spec (fst (edge_block N i0) + c) (s + 2 * (l + 1))); [reflexivity|lia].
    + assert (Lm : (i0 < m)%nat) by (apply nth_error_Some; congruence). rewrite cut_after' by lia. pose proof (edge_after i0 e0 c H ltac:(lia) Hc).
      pose proof (edge_after i0 e0 0 H ltac:(lia) ltac:(lia)). unfold joined.
      destruct (Nat.ltb_spec (fst (edge_block N i0) + c) (s + 2 * (l + 1))); [lia|]. destruct (Nat.ltb_spec (fst (edge_block N i0) + c) (s + 2 * np)); [lia|]. f_equal. lia.
  - intros g c Hg Hc. rewrite cut_before' by lia. fold s. unfold joined. destruct (Nat.ltb_spec (s + 2 * g + c) (s + 2 * (l + 1))); [reflexivity|lia].
  - cbn [e e_type]. intros g c Hg Hc. rewrite cut_last'. fold s. unfold joined.
    destruct (Nat.ltb_spec (s + 2 * g + c) (s + 2 * (l + 1))).
    + assert (g = l) by lia. subst g. rewrite Nat.sub_diag, Nat.mul_0_r, Nat.add_0_r. symmetry.
      specialize (A c Hc). unfold end_position in A. rewrite cut_last' in A.
      destruct (block_after N' i _ (cut_first_edge N i a z dm ro dx np l He)) as (B' & _). cbn [e_type edge_states] in B'. rewrite B', cut_before' in A by lia. fold s in A.
      rewrite <- A. f_equal. lia.
    + destruct (Nat.ltb_spec (s + 2 * g + c) (s + 2 * np)); [|lia]. f_equal. lia.
Qed.

Lemma cut_agrees t0 t1 last' x' c : network_equations N' t0 t1 last' x' c ->
  density_ok (x' (end_position N' i dend)) -> density_ok (x' (end_position N' m dstart)) ->
  forall q, (q < 2)%nat -> x' (end_position N' i dend + q)%nat = x' (end_position N' m dstart + q)%nat.
Proof.
  intros (A & _) D1 D2.
  assert (K : nth_error (nodes N') k = Some Innode) by (cbn; rewrite nth_error_app2 by (unfold k; lia); unfold k; rewrite Nat.sub_diag; reflexivity).
  pose proof (cut_first_edge N i a z dm ro dx np l He) as F1. pose proof (cut_new_edge N i a z dm ro dx np l Hl Hn) as F2. fold e N' k m in F1, F2.
  destruct (A k Innode K) as ((pr & P) & Q).
  { exists i, (mkEdge a k (EPipe dm ro dx (l + 1))), dend. repeat split. exact F1. }
  pose proof (P i _ dend F1 eq_refl eq_refl) as P1. pose proof (P m _ dstart F2 eq_refl eq_refl) as P2. unfold pressure_at in P1, P2. cbn [e_type] in P1, P2.
  pose proof (cut_new_outflow N i a z dm ro dx np l W He Hl Hn x') as Q'. fold e N' k m in Q'. rewrite Q' in Q. unfold flow_at in Q.
  intros [|[|q]] Hq; [|lra|lia]. rewrite !Nat.add_0_r. apply p_same; [exact D1|exact D2|congruence].
Qed.

(** ** The new network is a network *)
Lemma cut_well_formed : well_formed N'.
Proof.
  unfold well_formed. apply Forall_forall. intros e0 I. apply In_nth_error in I. destruct I as (i0 & H0).
  assert (G : forall j0, is_gas_node N j0 -> is_gas_node N' j0).
  { intros j0 G. unfold is_gas_node in *. destruct (nth_error (nodes N) j0) eqn:E; [|destruct G].
    cbn. rewrite nth_error_app1 by (apply nth_error_Some; congruence). rewrite E. exact G. }
  assert (P : forall j0, is_power_node N j0 -> is_power_node N' j0).
  { intros j0 G'. unfold is_power_node in *. destruct (nth_error (nodes N) j0) eqn:E; [|destruct G'].
    cbn. rewrite nth_error_app1 by (apply nth_error_Some; congruence). rewrite E. exact G'. }
  assert (K : is_gas_node N' (length (nodes N))) by (unfold is_gas_node; cbn; rewrite nth_error_app2, Nat.sub_diag by lia; exact Logic.I).
  destruct (cut_az N i a z dm ro dx np W He) as (La & Lz & Naz & Ga & Gz).
  assert (All := proj1 (Forall_forall _ _) W).
  destruct (cut_edge_cases N i a z dm ro dx np l He Hl Hn i0 e0 H0) as [(-> & ->)|[(-> & ->)|(Ne & L & O)]].
  - split; cbn; [lia|]. split; [lia|]. split; [exact K|apply G; exact Gz].
  - split; cbn; [lia|]. split; [lia|]. split; [apply G; exact Ga|exact K].
  - destruct (All e0 (nth_error_In _ _ O)) as (A & B). split; [exact A|]. destruct (e_type e0); intuition auto.
Qed.
Lemma cut_pipes : pipes_ok N -> pipes_ok N'.
Proof.
  unfold pipes_ok. rewrite !Forall_forall. intros HP e0 I. apply In_nth_error in I. destruct I as (i0 & H0). pose proof (HP e (nth_error_In _ _ He)) as Pe. cbn [e e_type] in Pe.
  destruct (cut_edge_cases N i a z dm ro dx np l He Hl Hn i0 e0 H0) as [(-> & ->)|[(-> & ->)|(Ne & L & O)]]; [exact Pe|exact Pe|exact (HP e0 (nth_error_In _ _ O))].
Qed.
Lemma cut_boundary t : boundary_defined N t -> boundary_defined N' t.
Proof.
  intros HB j0. specialize (HB j0). cbn [N' cut_pipe nodes]. destruct (lt_dec j0 (length (nodes N))) as [L|L].
  - rewrite nth_error_app1 by exact L. exact HB.
  - rewrite nth_error_app2 by lia. destruct (j0 - length (nodes N))%nat as [|[|]]; exact Logic.I.
Qed.
End Cut.
