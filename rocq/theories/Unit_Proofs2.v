(** Every state can be expressed in the other units. *)
From Coq Require Import Reals ZArith Lra Lia List Arith Bool.
From Verif Require Import Base Calc Net_Model Net_Spec Net_Proofs5 Grid_Proofs2.
From Verif Require Import Unit_Spec.
Import ListNotations.
Local Open Scope R_scope.

Definition power_here (N : network) (j : nat) : bool := match nth_error (nodes N) j with Some (Powernode _ _ _ _ _) => true | _ => false end.
Definition in_units (u : R) (N : network) (x : vec) : vec := fun k =>
  if existsb (fun j => power_here N j && Nat.eqb k (fst (node_block N j)))%bool (seq 0 (length (nodes N))) then u * x k else x k.
Lemma power_here_spec N j : power_here N j = true <-> is_power_node N j.
Proof. unfold power_here, is_power_node. destruct (nth_error (nodes N) j) as [[]|]; split; auto; discriminate. Qed.
Lemma in_units_state u N x : state_units u N x (in_units u N x).
Proof.
  split.
  - intros j P. assert (L : (j < length (nodes N))%nat) by (unfold is_power_node in P; apply nth_error_Some; destruct (nth_error (nodes N) j); [discriminate|contradiction]).
    pose proof (node_size N j P) as S. unfold in_units. split.
    + assert (E : existsb (fun j0 => power_here N j0 && Nat.eqb (fst (node_block N j)) (fst (node_block N j0)))%bool (seq 0 (length (nodes N))) = true).
      { apply existsb_exists. exists j. split; [apply in_seq; lia|]. rewrite (proj2 (power_here_spec N j) P), Nat.eqb_refl. reflexivity. }
      rewrite E. reflexivity.
    + destruct (existsb _ _) eqn:E; [|reflexivity]. exfalso. apply existsb_exists in E. destruct E as (j' & _ & E). apply andb_true_iff in E. destruct E as (P' & E).
      apply power_here_spec in P'. apply Nat.eqb_eq in E. pose proof (node_size N j' P') as S'. unfold node_block in *.
      destruct (lt_eq_lt_dec j j') as [[D|D]|D]; [pose proof (block_order N j j' _ _ D S S')|subst; lia|pose proof (block_order N j' j _ _ D S' S)]; lia.
  - intros i e k He Hk. unfold in_units. destruct (existsb _ _) eqn:E; [|reflexivity]. exfalso. apply existsb_exists in E. destruct E as (j' & I & E). apply andb_true_iff in E. destruct E as (P' & E).
    apply power_here_spec in P'. apply Nat.eqb_eq in E. apply in_seq in I. pose proof (node_size N j' P') as S'.
    assert (S : nth_error (state_sizes N) (length (nodes N) + i) = Some (edge_states (e_type e))).
    { unfold state_sizes. rewrite nth_error_app2, map_length by (rewrite map_length; lia). replace (length (nodes N) + i - length (nodes N))%nat with i by lia.
      rewrite nth_error_map, He. reflexivity. }
    pose proof (block_order N j' (length (nodes N) + i) _ _ ltac:(lia) S' S) as D. unfold node_block, edge_block in *. lia.
Qed.
Lemma state_units_back u N x x' : u <> 0 -> state_units u N x x' -> state_units (/ u) N x' x.
Proof.
  intros Hu (A & B). split.
  - intros j P. destruct (A j P) as (A0 & A1). rewrite A0, A1. split; [field; exact Hu|reflexivity].
  - intros i e k He Hk. symmetry. apply B with e; assumption.
Qed.
