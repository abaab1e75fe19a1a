(** Balance of power in a network. *)
From Coq Require Import Reals Lra Lia List Arith Bool.
From Coquelicot Require Import Coquelicot Complex.
From Verif Require Import Base Interp_Model Calc Net_Model Net_Spec Net_Proofs Net_Proofs5 Net_Proofs6 Net_Proofs8 Mass_Proofs Grid_Spec.
Import ListNotations.
Local Open Scope R_scope.

Lemma pick_from (F : nat -> R) n : forall s k, (s <= k < s + n)%nat ->
  rsum (fun j => if Nat.eqb k j then F j else 0) (seq s n) = F k.
Proof.
  induction n as [|n IH]; intros s k H; [lia|]. cbn [seq rsum]. destruct (Nat.eqb_spec k s) as [->|D].
  - rewrite (rsum_ext _ (fun _ => 0)), rsum_const; [ring|].
    intros j Hj. apply in_seq in Hj. destruct (Nat.eqb_spec s j); [lia|reflexivity].
  - rewrite IH by lia. ring.
Qed.
Lemma power_number N k : is_power_node N k -> (k < length (nodes N))%nat.
Proof. unfold is_power_node. intro H. apply nth_error_Some. destruct (nth_error (nodes N) k); [discriminate|destruct H]. Qed.

Section Part.
Variable part : C -> R.
Variable sg : R.
Hypothesis part_0 : part (RtoC 0) = 0.
Hypothesis part_plus : forall a b, part (Cplus a b) = part a + part b.
Hypothesis part_own : forall y V, part (Cmult V (Cconj (Cmult y V))) = sg * (part y * square V).
Hypothesis part_two : forall y V W, part (Cmult V (Cconj (Cmult y W))) + part (Cmult W (Cconj (Cmult y V)))
  = sg * (part y * (square V + square W - square (Cminus V W))).

Definition line_at (N : network) (x : vec) (j : nat) (e : edge) : R :=
  match e_type e with
  | ELine g b =>
      (if Nat.eqb (e_from e) j then part (Cmult (voltage N j x) (Cconj (Cmult (g, b) (voltage N (e_to e) x)))) else 0)
      + (if Nat.eqb (e_to e) j then part (Cmult (voltage N j x) (Cconj (Cmult (g, b) (voltage N (e_from e) x)))) else 0)
  | _ => 0
  end.
Definition entry_at (j : nat) (e : edge) : R :=
  match e_type e with
  | ELine g b => if (Nat.eqb (e_from e) j || Nat.eqb (e_to e) j)%bool then part (g, b) else 0
  | _ => 0
  end.
Definition powerb (N : network) (j : nat) : bool :=
  match nth_error (nodes N) j with Some (Powernode _ _ _ _ _) => true | _ => false end.

Lemma part_power N j G B x : part (power N j G B x)
  = sg * (part (G, B) * square (voltage N j x)) + rsum (line_at N x j) (edges N).
Proof.
  unfold power, current.
  assert (D : forall V a b, Cmult V (Cconj (Cplus a b)) = Cplus (Cmult V (Cconj a)) (Cmult V (Cconj b))).
  { intros [] [] []. cbn. unfold Cplus, Cmult, Cconj. cbn. f_equal; ring. }
  assert (Z : forall V, part (Cmult V (Cconj (RtoC 0))) = 0).
  { intro V. transitivity (part (RtoC 0)); [|exact part_0]. f_equal. destruct V. unfold Cmult, Cconj, RtoC. cbn. f_equal; ring. }
  rewrite D, part_plus, part_own. f_equal.
  rewrite (conj_csum (fun w => part (Cmult (voltage N j x) (Cconj w)))); [|apply Z|intros a b; rewrite D, part_plus; reflexivity].
  apply rsum_ext. intros e _. unfold line_at. destruct (e_type e); try apply Z.
  rewrite D, part_plus. destruct (Nat.eqb (e_from e) j), (Nat.eqb (e_to e) j); rewrite ?Z; reflexivity.
Qed.

Lemma balance N x : well_formed N -> fed_in part N x = sg * (ground_power part N x + line_power part N x).
Proof.
  intro W. unfold fed_in, ground_power, node_numbers.
  rewrite (rsum_ext _ (fun j => sg * (to_ground part N j * square (voltage N j x))
     + (if powerb N j then rsum (fun e => line_at N x j e - sg * (entry_at j e * square (voltage N j x))) (edges N) else 0))).
  2:{ intros j _. unfold node_power, to_ground, powerb. destruct (nth_error (nodes N) j) as [[]|]; try (rewrite part_0; ring).
      rewrite part_power. rewrite rsum_minus, rsum_scal.
      rewrite (rsum_ext (fun e => entry_at j e * square (voltage N j x)) (fun e => square (voltage N j x) * entry_at j e)) by (intros; ring).
      rewrite rsum_scal. unfold entry_at. ring. }
  rewrite <- rsum_plus, rsum_scal, Rmult_plus_distr_l. f_equal.
  erewrite rsum_ext; [|intros j _; apply if_rsum]. rewrite rsum_swap. unfold line_power. rewrite <- rsum_scal.
  apply rsum_ext. intros e He.
  unfold well_formed in W. rewrite List.Forall_forall in W. destruct (W e He) as (NE & K).
  destruct (e_type e) as [| | | | |g b] eqn:T;
    try (rewrite (rsum_ext _ (fun _ => 0)); [rewrite rsum_const; ring|intros j _; unfold line_at, entry_at; rewrite T; destruct (powerb N j); ring]).
  destruct K as (K1 & K2).
  set (Ff := fun j => if powerb N j then part (Cmult (voltage N j x) (Cconj (Cmult (g, b) (voltage N (e_to e) x))))
     - sg * (part (g, b) * square (voltage N j x)) else 0).
  set (Ft := fun j => if powerb N j then part (Cmult (voltage N j x) (Cconj (Cmult (g, b) (voltage N (e_from e) x))))
     - sg * (part (g, b) * square (voltage N j x)) else 0).
  rewrite (rsum_ext _ (fun j => (if Nat.eqb (e_from e) j then Ff j else 0) + (if Nat.eqb (e_to e) j then Ft j else 0))).
  2:{ intros j _. unfold line_at, entry_at, Ff, Ft. rewrite T.
      destruct (Nat.eqb_spec (e_from e) j), (Nat.eqb_spec (e_to e) j), (powerb N j); cbn [orb]; try ring. congruence. }
  pose proof (power_number N _ K1) as L1. pose proof (power_number N _ K2) as L2.
  rewrite <- rsum_plus, !pick_from by lia.
  assert (P1 : powerb N (e_from e) = true) by (unfold powerb, is_power_node in *; destruct (nth_error (nodes N) (e_from e)) as [[]|]; tauto).
  assert (P2 : powerb N (e_to e) = true) by (unfold powerb, is_power_node in *; destruct (nth_error (nodes N) (e_to e)) as [[]|]; tauto).
  unfold Ff, Ft. rewrite P1, P2. pose proof (part_two (g, b) (voltage N (e_from e) x) (voltage N (e_to e) x)). lra.
Qed.
End Part.

Lemma active_balance N x : well_formed N -> fed_in fst N x = ground_power fst N x + line_power fst N x.
Proof.
  intro W. rewrite (balance fst 1); [ring|reflexivity|reflexivity| | |exact W].
  - intros [] []. unfold square. cbn. ring.
  - intros [] [] []. unfold square. cbn. ring.
Qed.
Lemma reactive_balance N x : well_formed N -> fed_in snd N x = - (ground_power snd N x + line_power snd N x).
Proof.
  intro W. rewrite (balance snd (-1)); [ring|reflexivity|reflexivity| | |exact W].
  - intros [] []. unfold square. cbn. ring.
  - intros [] [] []. unfold square. cbn. ring.
Qed.
Lemma rsum_nonneg {A} (f : A -> R) l : (forall a, In a l -> 0 <= f a) -> 0 <= rsum f l.
Proof.
  induction l as [|a l IH]; intro H; cbn [rsum]; [lra|]. pose proof (H a (or_introl eq_refl)).
  assert (0 <= rsum f l) by (apply IH; intros; apply H; right; auto). lra.
Qed.
Lemma square_nonneg z : 0 <= square z.
Proof. unfold square. nra. Qed.
Lemma passive_loses N x : well_formed N -> passive N -> 0 <= fed_in fst N x.
Proof.
  intros W (P1 & P2). rewrite active_balance by exact W.
  assert (0 <= ground_power fst N x) by (apply rsum_nonneg; intros j _; apply Rmult_le_pos; [apply P2|apply square_nonneg]).
  assert (0 <= line_power fst N x); [|lra].
  apply rsum_nonneg. intros e He. destruct (e_type e) as [| | | | |g b] eqn:T; try lra.
  apply Rmult_le_pos; [|apply square_nonneg]. pose proof (P1 e g b He T). cbn [fst]. lra.
Qed.
