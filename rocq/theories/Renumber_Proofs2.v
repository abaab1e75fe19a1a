(** Edges, whole networks, and the state of the renumbered network. *)
From Coq Require Import Reals Lra Lia List Arith Bool Permutation.
From Coquelicot Require Import Coquelicot Complex.
From Verif Require Import Base Interp_Model Calc Euler_Model Euler_Spec Box_Model Net_Model Net_Spec Net_Proofs5 Net_Proofs8 Renumber_Spec Renumber_Proofs.
Import ListNotations.
Local Open Scope R_scope.

Section Same.
Variables (N N' : network) (pn pe : nat -> nat) (flip : nat -> bool).
Hypothesis W : well_formed N.
Hypothesis S : same_network N N' pn pe flip.
Notation image := (image pn flip).

Lemma mirror_points i e x y m : nth_error (edges N) i = Some e -> same_state N N' pn pe flip x y -> flip i = true ->
  (m < points (e_type e))%nat ->
  mirror (seg x (fst (edge_block N i) + 2 * (points (e_type e) - 1 - m))) (seg y (fst (edge_block N' (pe i)) + 2 * m)).
Proof.
  intros He (_ & V) Fl Hm. specialize (V i e He). cbv zeta in V. rewrite Fl in V. destruct (V m Hm) as (V0 & V1).
  unfold mirror, seg. rewrite !Nat.add_0_r. split; assumption.
Qed.
Lemma mirror_sym u v : mirror u v -> mirror v u.
Proof. intros (A & B). split; [symmetry; exact A|]. rewrite B. ring. Qed.
Lemma same_points i e x y m : nth_error (edges N) i = Some e -> same_state N N' pn pe flip x y -> flip i = false ->
  (2 * m + 2 <= edge_states (e_type e))%nat ->
  forall c, (c < 2)%nat -> seg y (fst (edge_block N' (pe i)) + 2 * m) c = seg x (fst (edge_block N i) + 2 * m) c.
Proof.
  intros He (_ & V) Fl Hm c Hc. specialize (V i e He). cbv zeta in V. rewrite Fl in V. unfold seg. rewrite <- !Nat.add_assoc. apply V. lia.
Qed.

Lemma edge_same i e t0 t1 last last' x y c c' : nth_error (edges N) i = Some e ->
  same_state N N' pn pe flip last last' -> same_state N N' pn pe flip x y -> same_control N N' pe c c' ->
  (edge_equation N' (pe i) (image i e) t0 t1 last' y c' <-> edge_equation N i e t0 t1 last x c).
Proof.
  intros He XL X XC. unfold edge_equation. rewrite image_type.
  pose proof S as S0. destruct S0 as (_ & _ & _ & _ & SN & SE). destruct (SE i e He) as (_ & U). clear SE.
  assert (Dir : ~ undirected (e_type e) -> flip i = false) by (intro D; destruct (flip i); [exfalso; apply D, U; reflexivity|reflexivity]).
  destruct (e_type e) as [d k dx np| |cc| |g2p p2g|g b] eqn:Ty.
  - destruct (flip i) eqn:Fl.
    + assert (PM : forall z z', same_state N N' pn pe flip z z' -> forall m, (m < np)%nat ->
        mirror (seg z (fst (edge_block N i) + 2 * (np - 1 - m))) (seg z' (fst (edge_block N' (pe i)) + 2 * m))).
      { intros z z' Z m Hm. pose proof (mirror_points i e z z' m He Z Fl) as Q. rewrite Ty in Q. apply Q. exact Hm. }
      split; intros H m Hm.
      * specialize (H (np - 2 - m)%nat ltac:(lia)).
        pose proof (PM last last' XL (np - 2 - m)%nat ltac:(lia)) as A1. pose proof (PM last last' XL (np - 2 - m + 1)%nat ltac:(lia)) as A2.
        pose proof (PM x y X (np - 2 - m)%nat ltac:(lia)) as A3. pose proof (PM x y X (np - 2 - m + 1)%nat ltac:(lia)) as A4.
        replace (np - 1 - (np - 2 - m))%nat with (m + 1)%nat in A1, A3 by lia.
        replace (np - 1 - (np - 2 - m + 1))%nat with m in A2, A4 by lia.
        eapply cell_mirror; [..|exact H]; apply mirror_sym; assumption.
      * specialize (H (np - 2 - m)%nat ltac:(lia)).
        pose proof (PM last last' XL m ltac:(lia)) as A1. pose proof (PM last last' XL (m + 1)%nat ltac:(lia)) as A2.
        pose proof (PM x y X m ltac:(lia)) as A3. pose proof (PM x y X (m + 1)%nat ltac:(lia)) as A4.
        replace (np - 1 - m)%nat with (np - 2 - m + 1)%nat in A1, A3 by lia.
        replace (np - 1 - (m + 1))%nat with (np - 2 - m)%nat in A2, A4 by lia.
        eapply cell_mirror; [..|exact H]; assumption.
    + assert (PM : forall z z', same_state N N' pn pe flip z z' -> forall m, (m < np)%nat ->
        forall c, (c < 2)%nat -> seg z' (fst (edge_block N' (pe i)) + 2 * m) c = seg z (fst (edge_block N i) + 2 * m) c).
      { intros z z' Z m Hm. pose proof (same_points i e z z' m He Z Fl) as Q. rewrite Ty in Q. cbn [edge_states] in Q. apply Q. lia. }
      split; intros H m Hm; specialize (H m Hm).
      * eapply cell_same_values; [..|exact H]; intros q Hq; symmetry; [apply (PM last last' XL)|apply (PM last last' XL)|apply (PM x y X)|apply (PM x y X)]; lia.
      * eapply cell_same_values; [..|exact H]; intros q Hq; [apply (PM last last' XL)|apply (PM last last' XL)|apply (PM x y X)|apply (PM x y X)]; lia.
  - destruct X as (_ & V). specialize (V i e He). cbv zeta in V. rewrite Ty in V. cbn [points edge_states] in V. destruct (flip i).
    + destruct (V 0%nat ltac:(lia)) as (V0 & V1). destruct (V 1%nat ltac:(lia)) as (V2 & V3).
      cbn [Nat.sub Nat.mul Nat.add] in *. rewrite !Nat.add_0_r in *.
      replace (fst (edge_block N' (pe i)) + 3)%nat with (fst (edge_block N' (pe i)) + 2 + 1)%nat by lia.
      replace (fst (edge_block N i) + 3)%nat with (fst (edge_block N i) + 2 + 1)%nat by lia.
      rewrite V0, V1, V2, V3. split; intros (A & B); lra.
    + pose proof (V 0%nat ltac:(lia)) as V0. rewrite !Nat.add_0_r in V0. rewrite V0, (V 1%nat), (V 2%nat), (V 3%nat) by lia. reflexivity.
  - destruct X as (_ & V). specialize (V i e He). cbv zeta in V. rewrite Ty, Dir in V by (cbn; tauto). cbn [edge_states] in V.
    pose proof (V 0%nat ltac:(lia)) as V0. rewrite !Nat.add_0_r in V0. rewrite V0, (V 1%nat), (V 2%nat), (V 3%nat) by lia.
    rewrite (XC i e He) by (rewrite Ty; reflexivity). reflexivity.
  - destruct X as (_ & V). specialize (V i e He). cbv zeta in V. rewrite Ty, Dir in V by (cbn; tauto). cbn [edge_states] in V.
    pose proof (V 0%nat ltac:(lia)) as V0. rewrite !Nat.add_0_r in V0. rewrite V0, (V 1%nat), (V 2%nat), (V 3%nat) by lia.
    rewrite (XC i e He) by (rewrite Ty; reflexivity). reflexivity.
  - destruct (ends N W i e He) as ((_ & K) & _). rewrite Ty in K. destruct K as (_ & K).
    assert (Im : e_to (image i e) = pn (e_to e)) by (unfold Renumber_Proofs.image; rewrite Dir by (cbn; tauto); reflexivity).
    pose proof X as X0. destruct X0 as (_ & V). specialize (V i e He). cbv zeta in V. rewrite Ty, Dir in V by (cbn; tauto). cbn [edge_states] in V.
    rewrite (V 1%nat) by lia. rewrite Im.
    destruct (nth_error (nodes N) (e_to e)) as [t|] eqn:E; [|unfold is_power_node in K; rewrite E in K; destruct K].
    rewrite (SN _ _ E). destruct t; try (unfold is_power_node in K; rewrite E in K; destruct K).
    rewrite (power_same N N' pn pe flip W S x y X (e_to e)) by (unfold is_power_node; rewrite E; exact Logic.I). reflexivity.
  - reflexivity.
Qed.

Lemma network_same t0 t1 last last' x y c c' :
  same_state N N' pn pe flip last last' -> same_state N N' pn pe flip x y -> same_control N N' pe c c' ->
  (network_equations N' t0 t1 last' y c' <-> network_equations N t0 t1 last x c).
Proof.
  intros XL X XC. split; intros (Hn & He); split.
  - intros j t H. apply (node_same N N' pn pe flip W S x y X j t t1 H). apply Hn. apply (image_node N N' pn pe flip S). exact H.
  - intros i e H. apply (edge_same i e t0 t1 last last' x y c c' H XL X XC). apply He. apply (image_edge N N' pn pe flip S). exact H.
  - intros j' t H. destruct (node_found N N' pn pe flip S j' t H) as (j & Hj & ->).
    apply (node_same N N' pn pe flip W S x y X j t t1 Hj). apply Hn. exact Hj.
  - intros i' e' H. destruct (edge_found N N' pn pe flip S i' e' H) as (i & e & Hi & -> & ->).
    apply (edge_same i e t0 t1 last last' x y c c' Hi XL X XC). apply He. exact Hi.
Qed.

Lemma gas_node_same j : is_gas_node N j -> is_gas_node N' (pn j).
Proof.
  unfold is_gas_node. destruct (nth_error (nodes N) j) as [t|] eqn:E; [|intros []]. rewrite (image_node N N' pn pe flip S j t E). auto.
Qed.
Lemma power_node_same j : is_power_node N j -> is_power_node N' (pn j).
Proof.
  unfold is_power_node. destruct (nth_error (nodes N) j) as [t|] eqn:E; [|intros []]. rewrite (image_node N N' pn pe flip S j t E). auto.
Qed.
Lemma well_formed_same : well_formed N'.
Proof.
  apply List.Forall_forall. intros e' He'. apply In_nth_error in He'. destruct He' as (i' & H).
  destruct (edge_found N N' pn pe flip S i' e' H) as (i & e & Hi & -> & ->).
  destruct (ends N W i e Hi) as ((NE & K) & L1 & L2). unfold edge_ok. rewrite image_type.
  pose proof S as S0. destruct S0 as (_ & _ & _ & _ & _ & SE). destruct (SE i e Hi) as (_ & U). clear SE.
  assert (D : pn (e_from e) <> pn (e_to e)) by (intro Q; apply NE; apply (pn_inj N N' pn pe flip S); assumption).
  unfold Renumber_Proofs.image. destruct (flip i).
  - specialize (U eq_refl). cbn [e_from e_to]. split; [congruence|].
    destruct (e_type e); try destruct U; intuition auto using gas_node_same, power_node_same.
  - cbn [e_from e_to]. split; [exact D|]. destruct (e_type e); intuition auto using gas_node_same, power_node_same.
Qed.

(** ** The state of [N'] *)
Lemma table_function (L : list (nat * R)) : NoDup (map fst L) -> exists y : vec, forall k v, In (k, v) L -> y k = v.
Proof.
  intro ND. exists (fun k => match find (fun kv => Nat.eqb (fst kv) k) L with Some kv => snd kv | None => 0 end).
  intros k v H. destruct (find (fun kv => Nat.eqb (fst kv) k) L) as [[k' v']|] eqn:F.
  - apply find_some in F. destruct F as (F & E). cbn [fst snd] in *. apply Nat.eqb_eq in E. subst k'.
    clear -ND F H. induction L as [|[a b] L IH]; [destruct H|]. cbn [map fst] in ND. inversion ND as [|? ? NI ND']; subst.
    destruct F as [F|F], H as [H|H].
    + congruence.
    + injection F as -> ->. exfalso. apply NI. apply (in_map fst _ _ H).
    + injection H as -> ->. exfalso. apply NI. apply (in_map fst _ _ F).
    + apply IH; assumption.
  - exfalso. pose proof (find_none _ _ F _ H) as Q. cbn [fst] in Q. rewrite Nat.eqb_refl in Q. discriminate.
Qed.
(** What is stored at position [k] of the block of an edge. *)
Definition edge_value (x : vec) (i : nat) (e : edge) (k : nat) : R :=
  let s := fst (edge_block N i) in
  if flip i then let m' := (points (e_type e) - 1 - k / 2)%nat in
                 if Nat.eqb (k mod 2) 0 then x (s + 2 * m')%nat else - x (s + 2 * m' + 1)%nat
  else x (s + k)%nat.
Definition node_table (x : vec) : list (nat * R) :=
  flat_map (fun jt => map (fun k => ((fst (node_block N' (pn (fst jt))) + k)%nat, x (fst (node_block N (fst jt)) + k)%nat)) (seq 0 (node_states (snd jt))))
    (combine (seq 0 (length (nodes N))) (nodes N)).
Definition edge_table (x : vec) : list (nat * R) :=
  flat_map (fun ie => map (fun k => ((fst (edge_block N' (pe (fst ie))) + k)%nat, edge_value x (fst ie) (snd ie) k)) (seq 0 (edge_states (e_type (snd ie)))))
    (numbered N).
Lemma map_flat_map {A B C} (f : B -> C) (g : A -> list B) l : map f (flat_map g l) = flat_map (fun a => map f (g a)) l.
Proof. induction l as [|a l IH]; cbn [flat_map map]; [reflexivity|]. rewrite map_app, IH. reflexivity. Qed.
Lemma flat_map_in_eq {A B} (f g : A -> list B) l : (forall a, In a l -> f a = g a) -> flat_map f l = flat_map g l.
Proof. induction l as [|a l IH]; intro H; cbn [flat_map]; [reflexivity|]. rewrite (H a), IH; [reflexivity|intros; apply H; right; assumption|left; reflexivity]. Qed.
Lemma nodes_image : Permutation (map (fun jt => (pn (fst jt), snd jt)) (combine (seq 0 (length (nodes N))) (nodes N)))
  (combine (seq 0 (length (nodes N'))) (nodes N')).
Proof.
  pose proof S as S0. destruct S0 as (L & Pn & _ & _ & SN & _). apply NoDup_Permutation_bis.
  - apply (NoDup_map_inv fst). rewrite map_map. cbn [fst]. rewrite <- (map_map fst pn). rewrite combine_fst.
    eapply Permutation_NoDup; [apply Permutation_sym, permutes_onto; exact Pn|apply seq_NoDup].
  - rewrite map_length, !combine_length, !seq_length. lia.
  - intros [j' t] H. apply in_map_iff in H. destruct H as ([j t'] & E & Hj). cbn [fst snd] in E. injection E as <- <-.
    apply in_combine_seq in Hj. apply in_combine_seq. apply SN. exact Hj.
Qed.
Lemma map_seq_shift s n : map (fun k => (s + k)%nat) (seq 0 n) = seq s n.
Proof. symmetry. apply seq_from. Qed.
Lemma table_positions x : Permutation (map fst (node_table x ++ edge_table x)) (seq 0 (number_of_states N')).
Proof.
  rewrite <- blocks_tile, map_app. apply Permutation_app.
  - unfold node_table. rewrite map_flat_map.
    eapply Permutation_trans; [|apply (Permutation_flat_map _ nodes_image)]. rewrite flat_map_map.
    rewrite (flat_map_in_eq _ (fun jt => range (node_block N' (pn (fst jt))))); [apply Permutation_refl|].
    intros [j t] Hj. cbn [fst snd]. rewrite map_map. cbn [fst]. apply in_combine_seq in Hj.
    destruct (node_block_spec N' (pn j) t (image_node N N' pn pe flip S j t Hj)) as (s & E & _). rewrite E. cbn [fst snd].
    rewrite map_seq_shift. unfold range. cbn [fst snd]. f_equal. lia.
  - unfold edge_table. rewrite map_flat_map.
    eapply Permutation_trans; [|apply (Permutation_flat_map _ (numbered_image N N' pn pe flip S))]. rewrite flat_map_map.
    rewrite (flat_map_in_eq _ (fun ie => range (edge_block N' (pe (fst ie))))); [apply Permutation_refl|].
    intros [i e] Hi. cbn [fst snd]. rewrite map_map. cbn [fst]. apply in_numbered in Hi.
    destruct (edge_block_spec N' (pe i) _ (image_edge N N' pn pe flip S i e Hi)) as (s & E & _). rewrite E, image_type. cbn [fst snd].
    rewrite map_seq_shift. unfold range. cbn [fst snd]. f_equal. lia.
Qed.
Lemma state_exists x : exists y, same_state N N' pn pe flip x y.
Proof.
  destruct (table_function (node_table x ++ edge_table x)) as (y & Hy).
  { eapply Permutation_NoDup; [apply Permutation_sym, table_positions|apply seq_NoDup]. }
  exists y. split.
  - intros j k Hj Hk. apply Hy. apply in_or_app. left. unfold node_table. apply in_flat_map.
    unfold is_power_node in Hj. destruct (nth_error (nodes N) j) as [t|] eqn:E; [|destruct Hj].
    exists (j, t). split; [apply in_combine_seq; exact E|]. cbn [fst snd]. apply in_map_iff. exists k. split; [reflexivity|].
    apply in_seq. destruct t; try (destruct Hj; fail). cbn [node_states]. lia.
  - intros i e He. cbv zeta.
    assert (Ey : forall k, (k < edge_states (e_type e))%nat -> y (fst (edge_block N' (pe i)) + k)%nat = edge_value x i e k).
    { intros k Hk. apply Hy. apply in_or_app. right. unfold edge_table. apply in_flat_map. exists (i, e).
      split; [apply in_numbered; exact He|]. cbn [fst snd]. apply in_map_iff. exists k. split; [reflexivity|]. apply in_seq. lia. }
    unfold edge_value in Ey. destruct (flip i) eqn:Fl.
    + pose proof S as S0. destruct S0 as (_ & _ & _ & _ & _ & SE). destruct (SE i e He) as (_ & U). specialize (U Fl). clear SE.
      assert (Z : edge_states (e_type e) = (2 * points (e_type e))%nat) by (destruct (e_type e); try destruct U; reflexivity).
      intros m Hm. split.
      * rewrite Ey by lia. replace (2 * m)%nat with (m * 2)%nat by lia. rewrite Nat.mod_mul, Nat.div_mul by lia. reflexivity.
      * rewrite <- Nat.add_assoc. rewrite Ey by lia. replace (2 * m + 1)%nat with (1 + m * 2)%nat by lia.
        rewrite Nat.mod_add, Nat.div_add by lia. cbn [Nat.modulo Nat.div Nat.divmod fst snd Nat.eqb Nat.sub]. rewrite Nat.add_0_l. reflexivity.
    + exact Ey.
Qed.
End Same.
