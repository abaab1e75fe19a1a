(** A determined network of short components consists of trees below nodes with given pressure. *)
From Coq Require Import Reals Lra Lia List Arith Bool Classical IndefiniteDescription.
From Verif Require Import Base Calc Net_Model Net_Spec Net_Proofs5 Net_Proofs8 Mass_Proofs Level_Spec Level_Proofs2 Forest_Spec.
Import ListNotations.
Local Open Scope R_scope.

Lemma excluded_middle_informative (P : Prop) : {P} + {~ P}.
Proof.
  destruct (constructive_indefinite_description (fun b : bool => if b then P else ~ P)) as [[|] H]; [|left; exact H|right; exact H].
  destruct (classic P) as [H|H]; [exists true|exists false]; exact H.
Qed.
Lemma epsilon_exists {A : Type} (i : inhabited A) (P : A -> Prop) : exists x, (exists y, P y) -> P x.
Proof. destruct (classic (exists y, P y)) as [[y Hy]|H]; [exists y; auto|destruct i as [a]; exists a; intro Q; contradiction]. Qed.
(** Some element with the property, if there is one. *)
Definition epsilon {A : Type} (i : inhabited A) (P : A -> Prop) : A := proj1_sig (constructive_indefinite_description _ (epsilon_exists i P)).
Lemma epsilon_spec {A : Type} (i : inhabited A) (P : A -> Prop) : (exists x, P x) -> P (epsilon i P).
Proof. intro H. unfold epsilon. exact (proj2_sig (constructive_indefinite_description _ (epsilon_exists i P)) H). Qed.


Section Trees.
Variable N : network.
Hypothesis W : well_formed N.
Hypothesis S : short_net N.
Hypothesis D : determined N.

(** [j] is an end of an edge; a walk of [d] edges from a node with given pressure leads to [j]. *)
Definition used (j : nat) : Prop := exists i e, nth_error (edges N) i = Some e /\ (e_from e = j \/ e_to e = j).
Fixpoint reach (d j : nat) : Prop :=
  match d with
  | O => exists b, nth_error (nodes N) j = Some (Pressurenode b)
  | Datatypes.S d => balances N j /\ exists i e, nth_error (edges N) i = Some e /\
      (e_to e = j /\ reach d (e_from e) \/ e_from e = j /\ reach d (e_to e))
  end.
Lemma used_kind j : used j -> (exists b, nth_error (nodes N) j = Some (Pressurenode b)) \/ balances N j.
Proof.
  intros (i & e & He & Ej). unfold well_formed in W. rewrite List.Forall_forall in W. destruct (W e (nth_error_In _ _ He)) as (_ & K).
  pose proof (proj2 S e (nth_error_In _ _ He)) as Sh. unfold short in Sh.
  assert (G : is_gas_node N j) by (destruct (e_type e); try (destruct Sh; fail); destruct Ej; subst j; tauto).
  unfold is_gas_node in G. unfold balances. destruct (nth_error (nodes N) j) as [[]|]; try (destruct G; fail); [right; exact Logic.I..|left; eauto].
Qed.
Lemma pressure_no_balance j b : nth_error (nodes N) j = Some (Pressurenode b) -> ~ balances N j.
Proof. intros H. unfold balances. rewrite H. auto. Qed.
Lemma all_reached j : used j -> exists d, reach d j.
Proof.
  intros Hu. destruct (classic (exists d, reach d j)) as [R|R]; [exact R|]. exfalso. destruct Hu as (i & e & He & Ej).
  set (h := fun j => if excluded_middle_informative (exists d, reach d j) then 0 else 1).
  assert (Step : forall i e, nth_error (edges N) i = Some e -> (exists d, reach d (e_from e)) <-> (exists d, reach d (e_to e))).
  { intros i' e' He'. split; intros (d & Hd).
    - destruct (used_kind (e_to e')) as [P|B]; [exists i', e'; auto|exists 0%nat; exact P|]. exists (Datatypes.S d). split; [exact B|]. exists i', e'. auto.
    - destruct (used_kind (e_from e')) as [P|B]; [exists i', e'; auto|exists 0%nat; exact P|]. exists (Datatypes.S d). split; [exact B|]. exists i', e'. auto. }
  refine (D h (fun _ => 0) _ _).
  - split; [|split].
    + intros j' b Hb. unfold h. destruct (excluded_middle_informative _) as [_|Q]; [reflexivity|]. exfalso. apply Q. exists 0%nat. cbn. eauto.
    + intros i' e' He'. pose proof (Step i' e' He') as St.
      assert (E : h (e_from e') = h (e_to e')).
      { unfold h. destruct (excluded_middle_informative (exists d, reach d (e_from e'))), (excluded_middle_informative (exists d, reach d (e_to e'))); tauto. }
      pose proof (proj2 S e' (nth_error_In _ _ He')) as Sh. unfold short in Sh. destruct (e_type e'); try (destruct Sh; fail); exact E.
    + intros j' _. unfold divergence. rewrite (rsum_ext _ (fun _ => 0)); [rewrite rsum_const; ring|]. intros [i' e'] _. cbn [fst snd].
      destruct (carries_gas e'), (Nat.eqb (e_from e') j'), (Nat.eqb (e_to e') j'); ring.
  - destruct (short_carries e (proj2 S e (nth_error_In _ _ He))) as (_ & G).
    assert (Hj : h j <> 0) by (unfold h; destruct (excluded_middle_informative _); [contradiction|lra]).
    destruct Ej as [Ej|Ej]; [exists i, e, dstart|exists i, e, dend]; (split; [exact He|]; split; [apply G|]; left; cbn [end_node]; rewrite Ej; exact Hj).
Qed.

(** Distance from the nodes with given pressure. *)
Definition least (j d : nat) : Prop := reach d j /\ forall d', reach d' j -> (d <= d')%nat.
Definition depth (j : nat) : nat := epsilon (inhabits 0%nat) (least j).
Lemma depth_least j : used j -> least j (depth j).
Proof.
  intro U. apply (epsilon_spec (inhabits 0%nat) (least j)). destruct (all_reached j U) as (d & Hd). revert Hd.
  induction d as [d IH] using lt_wf_ind. intro Hd. destruct (classic (exists d', (d' < d)%nat /\ reach d' j)) as [(d' & L & H)|Q].
  - exact (IH d' L H).
  - exists d. split; [exact Hd|]. intros d' H. destruct (Nat.le_gt_cases d d') as [L|L]; [exact L|]. exfalso. apply Q. eauto.
Qed.
(** The edge towards the root. *)
Definition towards (j i : nat) : Prop := exists e, nth_error (edges N) i = Some e /\
  (e_to e = j /\ (depth (e_from e) < depth j)%nat \/ e_from e = j /\ (depth (e_to e) < depth j)%nat).
Definition par (j : nat) : nat := epsilon (inhabits 0%nat) (towards j).
Lemma par_spec j : used j -> balances N j -> towards j (par j).
Proof.
  intros U B. apply (epsilon_spec (inhabits 0%nat) (towards j)). destruct (depth_least j U) as (R & L). destruct (depth j) as [|d] eqn:Ed.
  - destruct R as (b & Hb). destruct (pressure_no_balance j b Hb B).
  - cbn [reach] in R. destruct R as (_ & i & e & He & K). exists i, e. split; [exact He|]. rewrite Ed.
    destruct K as [(K1 & K2)|(K1 & K2)]; [left|right]; (split; [exact K1|]).
    + destruct (depth_least (e_from e)) as (_ & L'); [exists i, e; auto|]. specialize (L' d K2). lia.
    + destruct (depth_least (e_to e)) as (_ & L'); [exists i, e; auto|]. specialize (L' d K2). lia.
Qed.
Lemma par_injective j j' : used j -> balances N j -> used j' -> balances N j' -> par j = par j' -> j = j'.
Proof.
  intros U B U' B' E. destruct (par_spec j U B) as (e & He & K). destruct (par_spec j' U' B') as (e' & He' & K'). rewrite <- E, He in He'. injection He' as <-.
  destruct K as [(K1 & K2)|(K1 & K2)], K' as [(K1' & K2')|(K1' & K2')]; subst; try reflexivity; lia.
Qed.

(** One unit from the root to [j]. *)
Definition balancesb (j : nat) : bool := match nth_error (nodes N) j with Some Innode | Some (Flownode _ _) => true | _ => false end.
Lemma balancesb_iff j : balancesb j = true <-> balances N j.
Proof. unfold balancesb, balances. destruct (nth_error (nodes N) j) as [[]|]; intuition discriminate. Qed.
Fixpoint from_root (m j : nat) : nat -> R :=
  match m with
  | O => fun _ => 0
  | Datatypes.S m =>
      if balancesb j then
        match nth_error (edges N) (par j) with
        | Some e => if Nat.eqb (e_to e) j then fun k => unit_flow (par j) k + from_root m (e_from e) k
                    else fun k => from_root m (e_to e) k - unit_flow (par j) k
        | None => fun _ => 0
        end
      else fun _ => 0
  end.
Lemma zero_divergence k : divergence N (fun _ => 0) k = 0.
Proof.
  unfold divergence. rewrite (rsum_ext _ (fun _ => 0)); [rewrite rsum_const; ring|]. intros [i' e'] _. cbn [fst snd].
  destruct (carries_gas e'), (Nat.eqb (e_from e') k), (Nat.eqb (e_to e') k); ring.
Qed.
Lemma root_divergence m : forall j k, (depth j < m)%nat -> used j -> balances N k ->
  divergence N (from_root m j) k = if Nat.eqb j k then -1 else 0.
Proof.
  induction m as [|m IH]; intros j k L U Bk; [lia|]. cbn [from_root]. destruct (balancesb j) eqn:Bj.
  - apply balancesb_iff in Bj. destruct (par_spec j U Bj) as (e & He & K). rewrite He.
    destruct (short_carries e (proj2 S e (nth_error_In _ _ He))) as (C & _).
    assert (Uf : used (e_from e)) by (exists (par j), e; auto). assert (Ut : used (e_to e)) by (exists (par j), e; auto).
    destruct (Nat.eqb_spec (e_to e) j) as [Q|Q].
    + assert (DF : (depth (e_from e) < depth j)%nat).
      { destruct K as [(_ & K)|(K1 & K2)]; [exact K|]. exfalso. rewrite Q in K2. lia. }
      rewrite divergence_plus, (divergence_unit N (par j) e k He C), (IH (e_from e) k ltac:(lia) Uf Bk), Q.
      destruct (Nat.eqb (e_from e) k), (Nat.eqb j k); ring.
    + destruct K as [(K1 & _)|(K1 & K2)]; [contradiction|].
      rewrite divergence_minus, (divergence_unit N (par j) e k He C), (IH (e_to e) k ltac:(lia) Ut Bk), K1.
      destruct (Nat.eqb (e_to e) k), (Nat.eqb j k); ring.
  - rewrite zero_divergence. destruct (Nat.eqb_spec j k) as [->|_]; [|reflexivity]. exfalso. apply balancesb_iff in Bk. congruence.
Qed.
Lemma root_avoids i : (forall j, used j -> balances N j -> par j <> i) -> forall m j, used j -> from_root m j i = 0.
Proof.
  intro H. induction m as [|m IH]; intros j U; [reflexivity|]. cbn [from_root]. destruct (balancesb j) eqn:Bj; [|reflexivity].
  apply balancesb_iff in Bj. destruct (par_spec j U Bj) as (e & He & K). rewrite He.
  assert (Z : unit_flow (par j) i = 0) by (unfold unit_flow; destruct (Nat.eqb_spec i (par j)) as [Q|_]; [exfalso; exact (H j U Bj (eq_sym Q))|reflexivity]).
  destruct (Nat.eqb (e_to e) j); rewrite Z, IH by (exists (par j), e; auto); ring.
Qed.
Lemma edge_is_parent i e : nth_error (edges N) i = Some e -> exists j, used j /\ balances N j /\ par j = i.
Proof.
  intro He. destruct (classic (exists j, used j /\ balances N j /\ par j = i)) as [Q|Q]; [exact Q|]. exfalso.
  assert (A : forall j, used j -> balances N j -> par j <> i) by (intros j U B E; apply Q; eauto).
  assert (Uf : used (e_from e)) by (exists i, e; auto). assert (Ut : used (e_to e)) by (exists i, e; auto).
  set (m := Datatypes.S (Nat.max (depth (e_from e)) (depth (e_to e)))).
  set (z := fun k => (unit_flow i k + from_root m (e_from e) k) - from_root m (e_to e) k).
  destruct (short_carries e (proj2 S e (nth_error_In _ _ He))) as (C & G).
  refine (D (fun _ => 0) z _ _).
  - apply flows_unseen.
    + intros i' e' He' Ns. destruct (Ns (proj2 S e' (nth_error_In _ _ He'))).
    + intros j B. unfold z. rewrite divergence_minus, divergence_plus, (divergence_unit N i e j He C).
      rewrite !root_divergence by (first [assumption | unfold m; lia]).
      destruct (Nat.eqb (e_from e) j), (Nat.eqb (e_to e) j); ring.
  - exists i, e, dstart. split; [exact He|]. split; [apply G|]. right. unfold z. rewrite !root_avoids by assumption.
    unfold unit_flow. rewrite Nat.eqb_refl. lra.
Qed.
Definition below (i j : nat) : Prop := used j /\ balances N j /\ par j = i.
Definition child (i : nat) : nat := epsilon (inhabits 0%nat) (below i).
Lemma child_spec i : (i < length (edges N))%nat -> below i (child i).
Proof.
  intro H. apply (epsilon_spec (inhabits 0%nat) (below i)). destruct (nth_error (edges N) i) as [e|] eqn:He; [|apply nth_error_None in He; lia]. exact (edge_is_parent i e He).
Qed.
Lemma trees : forest N.
Proof.
  exists child, depth. split; [|split].
  - intros i e He. assert (Hi : (i < length (edges N))%nat) by (apply nth_error_Some; congruence).
    destruct (child_spec i Hi) as (U & B & P). split; [|exact B]. destruct (par_spec _ U B) as (e' & He' & K). rewrite P, He in He'. injection He' as <-.
    destruct K as [(K1 & K2)|(K1 & K2)]; [left|right]; rewrite K1; auto.
  - intros i i' Hi Hi' E. destruct (child_spec i Hi) as (_ & _ & P). destruct (child_spec i' Hi') as (_ & _ & P'). congruence.
  - intros e j He Ej B. apply In_nth_error in He. destruct He as (i & He). assert (U : used j) by (exists i, e; auto).
    destruct (par_spec j U B) as (e' & He' & _). assert (Hp : (par j < length (edges N))%nat) by (apply nth_error_Some; congruence).
    exists (par j). split; [exact Hp|]. destruct (child_spec (par j) Hp) as (U' & B' & P). symmetry. apply par_injective; auto.
Qed.
End Trees.
