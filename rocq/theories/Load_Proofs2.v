(** Networks in which every node with given power is joined only to nodes with given voltage and phase. *)
From Coq Require Import Reals Lra Lia List Arith Bool IndefiniteDescription.
From Coquelicot Require Import Rcomplements Complex.
From Verif Require Import Base Calc Euler_Model Net_Model Net_Spec Net_Proofs5 Net_Proofs6 Net_Proofs8 Sim_Spec Mass_Proofs Grid_Proofs2 Load_Spec Load_Proofs.
Import ListNotations.
Local Open Scope R_scope.

Section Star.
Variable N : network.
Variable time : R.
Hypothesis W : well_formed N.
Hypothesis S : star_net N.
Hypothesis HB : boundary_defined N time.

Lemma star_power j : (j < length (nodes N))%nat -> is_power_node N j.
Proof.
  intro H. pose proof (proj1 S j H) as K. unfold is_power_node. destruct (nth_error (nodes N) j) as [[| | |k]|]; auto.
Qed.
Lemma sizes_twice : forall j, (j <= length (nodes N))%nat -> list_sum (firstn j (state_sizes N)) = (2 * j)%nat.
Proof.
  intro j. induction j as [|j IH]; intro H; [reflexivity|].
  pose proof (node_size N j (star_power j H)) as Sz.
  destruct (nth_error_split _ _ Sz) as (l1 & l2 & E & L). rewrite E in *.
  assert (F1 : firstn j (l1 ++ 2%nat :: l2) = l1) by (rewrite <- L, firstn_app, firstn_all, Nat.sub_diag; cbn; apply app_nil_r).
  rewrite F1 in IH. rewrite <- L. change (l1 ++ 2%nat :: l2) with (l1 ++ [2%nat] ++ l2). rewrite app_assoc.
  replace (Datatypes.S (length l1)) with (length (l1 ++ [2%nat])) by (rewrite app_length; cbn; lia).
  rewrite firstn_app, firstn_all, Nat.sub_diag, firstn_O, app_nil_r, list_sum_app, IH by lia. cbn. rewrite app_length. cbn. lia.
Qed.
Lemma star_block j : (j < length (nodes N))%nat -> fst (node_block N j) = (2 * j)%nat.
Proof.
  intro H. unfold node_block, state_blocks. rewrite (nth_error_nth _ _ _ (assign_start _ 0 _ _ (node_size N j (star_power j H)))).
  cbn [fst]. rewrite sizes_twice by lia. reflexivity.
Qed.

(** In a solution the voltages are those given, so the current of the lines at a node with given power is known. *)
Lemma star_current (V : nat -> C) j ext G B b : nth_error (nodes N) j = Some (Powernode PQ ext G B b) ->
  (forall k ext' G' B' b', nth_error (nodes N) k = Some (Powernode Vphi ext' G' B' b') -> V k = given_phasor N time k) ->
  line_current N V j = given_current N time j.
Proof.
  intros Hj HV.
  assert (K : forall k, is_power_node N k -> ~ (exists x1 G1 B1 b1, nth_error (nodes N) k = Some (Powernode PQ x1 G1 B1 b1)) -> V k = given_phasor N time k).
  { intros k P NPQ. unfold is_power_node in P. destruct (nth_error (nodes N) k) as [t|] eqn:E; [|destruct P]. destruct t as [| | |kind x1 G1 B1 b1]; try destruct P.
    assert (L : (k < length (nodes N))%nat) by (apply nth_error_Some; congruence).
    pose proof (proj1 S k L) as Q. rewrite E in Q. destruct kind; [exfalso; apply NPQ; eauto|destruct Q|eapply HV; exact E]. }
  unfold line_current, given_current.
  assert (Sub : forall e, In e (edges N) -> In e (edges N)) by auto. revert Sub. generalize (edges N) at 1 3 4. intros l Sub.
  induction l as [|e l IH]; [reflexivity|]. cbn [csum fold_right]. fold (csum (A := edge)). f_equal; [|apply IH; intros; apply Sub; right; assumption].
  pose proof (Sub e (or_introl eq_refl)) as He. destruct (proj2 S e He) as (_ & Not).
  unfold well_formed in W. rewrite List.Forall_forall in W. pose proof (W e He) as Ok. unfold edge_ok in Ok.
  destruct (e_type e); try reflexivity. destruct Ok as (_ & P1 & P2). f_equal.
  - destruct (Nat.eqb_spec (e_from e) j) as [E|_]; [|reflexivity]. f_equal. apply K; [exact P2|].
    intros (x1 & G1 & B1 & b1 & Q). apply Not. rewrite E. exists ext, G, B, b, x1, G1, B1, b1. split; assumption.
  - destruct (Nat.eqb_spec (e_to e) j) as [E|_]; [|reflexivity]. f_equal. apply K; [exact P1|].
    intros (x1 & G1 & B1 & b1 & Q). apply Not. rewrite E. exists x1, G1, B1, b1, ext, G, B, b. split; assumption.
Qed.

Lemma star_necessary t0 last x c : network_equations N t0 time last x c -> loads_carried N time.
Proof.
  intros (H & _) j ext G B b v Hj Hb. pose proof (H j _ Hj) as K. cbn [node_equation] in K. destruct K as (v' & Ev & K).
  rewrite Hb in Ev. injection Ev as <-. cbv zeta in K. rewrite <- K, power_one.
  rewrite (star_current (fun k => voltage N k x) j ext G B b Hj); [apply one_carried|].
  intros k ext' G' B' b' Hk. pose proof (H k _ Hk) as K'. cbn [node_equation] in K'. destruct K' as (u & Eu & K1 & K2).
  unfold given_phasor. rewrite Hk, Eu. unfold voltage. rewrite K1, K2. reflexivity.
Qed.

Lemma star_roots t0 last x c j ext G B b v : network_equations N t0 time last x c ->
  nth_error (nodes N) j = Some (Powernode PQ ext G B b) -> b time = Ok v ->
  magnitude N x j * magnitude N x j = square_root true (G, B) (v 0%nat, v 1%nat) (Cmod (given_current N time j)) \/
  magnitude N x j * magnitude N x j = square_root false (G, B) (v 0%nat, v 1%nat) (Cmod (given_current N time j)).
Proof.
  intros (H & _) Hj Hb. pose proof (H j _ Hj) as K. cbn [node_equation] in K. destruct K as (v' & Ev & K).
  rewrite Hb in Ev. injection Ev as <-. cbv zeta in K. rewrite <- K, power_one.
  assert (Lj : (j < length (nodes N))%nat) by (apply nth_error_Some; congruence). pose proof (proj1 S j Lj) as Q. rewrite Hj in Q.
  rewrite (star_current (fun k => voltage N k x) j ext G B b Hj); [apply one_roots; exact Q|].
  intros k ext' G' B' b' Hk. pose proof (H k _ Hk) as K'. cbn [node_equation] in K'. destruct K' as (u & Eu & K1 & K2).
  unfold given_phasor. rewrite Hk, Eu. unfold voltage. rewrite K1, K2. reflexivity.
Qed.

Lemma star_sufficient (high : nat -> bool) t0 last c : loads_carried N time ->
  exists x, network_equations N t0 time last x c /\
    forall j ext G B b v, nth_error (nodes N) j = Some (Powernode PQ ext G B b) -> b time = Ok v ->
      magnitude N x j * magnitude N x j = square_root (high j) (G, B) (v 0%nat, v 1%nat) (Cmod (given_current N time j)).
Proof.
  intro L.
  set (good := fun (j : nat) (VP : R * R) =>
    match nth_error (nodes N) j with
    | Some (Powernode PQ _ G B b) => exists v, b time = Ok v /\
        one_power (G, B) (given_current N time j) (fst VP * cos (snd VP), fst VP * sin (snd VP)) = (v 0%nat, v 1%nat) /\
        fst VP * fst VP = square_root (high j) (G, B) (v 0%nat, v 1%nat) (Cmod (given_current N time j))
    | Some (Powernode Vphi _ G B b) => exists v, b time = Ok v /\ fst VP = v 0%nat /\ snd VP = v 1%nat
    | _ => True
    end).
  assert (Ex : forall j, exists VP, good j VP).
  { intro j. unfold good. destruct (nth_error (nodes N) j) as [t|] eqn:E; [|exists (0, 0); exact Logic.I].
    destruct t as [| | |kind ext G B b]; try (exists (0, 0); exact Logic.I).
    pose proof (HB j) as Hb. rewrite E in Hb. cbn in Hb.
    assert (Lj : (j < length (nodes N))%nat) by (apply nth_error_Some; congruence).
    pose proof (proj1 S j Lj) as Q. rewrite E in Q.
    destruct kind; [|exists (0, 0); exact Logic.I|].
    - destruct Hb as (v & Hb). destruct (one_solve (high j) (G, B) (given_current N time j) (v 0%nat, v 1%nat) Q (L j ext G B b v E Hb)) as (V & phi & K & K').
      exists (V, phi), v. split; [exact Hb|]. split; assumption.
    - destruct Hb as (v & Hb). exists (v 0%nat, v 1%nat), v. repeat split. exact Hb. }
  set (f := fun j => proj1_sig (constructive_indefinite_description _ (Ex j))).
  assert (Gf : forall j, good j (f j)) by (intro j; exact (proj2_sig (constructive_indefinite_description _ (Ex j)))).
  clearbody f.
  set (x := fun k : nat => if Nat.even k then fst (f (k / 2)%nat) else snd (f (k / 2)%nat)).
  assert (X0 : forall j, x (2 * j)%nat = fst (f j)).
  { intro j. unfold x. rewrite Nat.even_mul. cbn [Nat.even orb]. rewrite Nat.mul_comm, Nat.div_mul by lia. reflexivity. }
  assert (X1 : forall j, x (2 * j + 1)%nat = snd (f j)).
  { intro j. unfold x. rewrite Nat.even_add, Nat.even_mul. cbn [Nat.even orb Bool.eqb].
    replace ((2 * j + 1) / 2)%nat with j; [reflexivity|]. apply (Nat.div_unique _ 2 j 1); lia. }
  exists x. split; [split|].
  - intros j t Hj. assert (Lj : (j < length (nodes N))%nat) by (apply nth_error_Some; congruence).
    pose proof (proj1 S j Lj) as Q. pose proof (Gf j) as K. unfold good in K. rewrite Hj in Q, K.
    destruct t as [| | |kind ext G B b]; try destruct Q. destruct kind; [|destruct Q|].
    + destruct K as (v & Hb & K & _). cbn [node_equation]. exists v. split; [exact Hb|]. cbv zeta. rewrite power_one.
      rewrite (star_current (fun k => voltage N k x) j ext G B b Hj).
      * unfold voltage. rewrite star_block by exact Lj. rewrite X0, X1. exact K.
      * intros k ext' G' B' b' Hk. assert (Lk : (k < length (nodes N))%nat) by (apply nth_error_Some; congruence).
        pose proof (Gf k) as K'. unfold good in K'. rewrite Hk in K'. destruct K' as (u & Eu & K1 & K2).
        unfold given_phasor. rewrite Hk, Eu. unfold voltage. rewrite star_block by exact Lk. rewrite X0, X1, K1, K2. reflexivity.
    + destruct K as (v & Hb & K1 & K2). cbn [node_equation]. exists v. split; [exact Hb|]. cbv zeta.
      rewrite star_block by exact Lj. rewrite X0, X1. split; assumption.
  - intros i e He. destruct (proj2 S e (nth_error_In _ _ He)) as ((g & b & T) & _). unfold edge_equation. rewrite T. exact Logic.I.
  - intros j ext G B b v Hj Hb. assert (Lj : (j < length (nodes N))%nat) by (apply nth_error_Some; congruence).
    pose proof (Gf j) as K. unfold good in K. rewrite Hj in K. destruct K as (v' & Hb' & _ & K). rewrite Hb in Hb'. injection Hb' as <-.
    unfold magnitude. rewrite voltage_mod, star_block, X0 by exact Lj. rewrite <- K, <- Rabs_mult. apply Rabs_pos_eq. nra.
Qed.
End Star.
