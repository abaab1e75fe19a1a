(** Edges, whole networks, and states put together from parts. *)
From Coq Require Import Reals Lra Lia List Arith Bool Permutation.
From Coquelicot Require Import Coquelicot Complex.
From Verif Require Import Base Interp_Model Calc Euler_Model Euler_Spec Box_Model Net_Model Net_Spec Net_Proofs5 Net_Proofs8 Sim_Spec Renumber_Spec Renumber_Proofs Renumber_Proofs2.
From Verif Require Import Apart_Spec Apart_Proofs.
Import ListNotations.
Local Open Scope R_scope.

Lemma cell_within_values eps d k dx t0 t1 ll lr l r ll' lr' l' r' :
  (forall c, (c < 2)%nat -> ll' c = ll c) -> (forall c, (c < 2)%nat -> lr' c = lr c) ->
  (forall c, (c < 2)%nat -> l' c = l c) -> (forall c, (c < 2)%nat -> r' c = r c) ->
  cell_balanced_within eps d k dx t0 t1 ll lr l r -> cell_balanced_within eps d k dx t0 t1 ll' lr' l' r'.
Proof.
  intros M1 M2 M3 M4 (sl & sr & El & Er & H).
  assert (Sl : source d k l' = source d k l) by (unfold source; rewrite !M3 by lia; reflexivity).
  assert (Sr : source d k r' = source d k r) by (unfold source; rewrite !M4 by lia; reflexivity).
  exists sl, sr. rewrite Sl, Sr. split; [exact El|]. split; [exact Er|]. intros c Hc. pose proof (H c Hc) as Hc'.
  assert (Fl : flux d l' c = flux d l c) by (unfold flux; rewrite !M3 by lia; reflexivity).
  assert (Fr : flux d r' c = flux d r c) by (unfold flux; rewrite !M4 by lia; reflexivity).
  rewrite M1, M2, M3, M4, Fl, Fr by exact Hc. exact Hc'.
Qed.

Section Part.
Variables (N N' : network) (pn pe : nat -> nat).
Hypothesis W : well_formed N.
Hypothesis O : occurs N N' pn pe.
Hypothesis U : unconnected N N' pn pe.
Notation image := (Apart_Proofs.image pn).

Lemma points_part i e z z' m : nth_error (edges N) i = Some e -> state_part N N' pn pe z z' ->
  (2 * m + 2 <= edge_states (e_type e))%nat ->
  forall c, (c < 2)%nat -> seg z' (fst (edge_block N' (pe i)) + 2 * m) c = seg z (fst (edge_block N i) + 2 * m) c.
Proof. intros He (_ & V) Hm c Hc. unfold seg. rewrite <- !Nat.add_assoc. apply (V i e); [exact He|lia]. Qed.

Lemma edge_part i e t0 t1 last last' x y c c' : nth_error (edges N) i = Some e ->
  state_part N N' pn pe last last' -> state_part N N' pn pe x y -> control_part N N' pe c c' ->
  (edge_equation N' (pe i) (image e) t0 t1 last' y c' <-> edge_equation N i e t0 t1 last x c).
Proof.
  intros He XL X XC. unfold edge_equation. cbn [Apart_Proofs.image e_type e_to].
  pose proof X as X0. destruct X0 as (_ & V0). pose proof (fun k => V0 i e k He) as V. clear V0.
  destruct (e_type e) as [d k dx np| |cc| |g2p p2g|g b] eqn:Ty; cbn [edge_states] in V.
  - assert (PM : forall z z', state_part N N' pn pe z z' -> forall m, (m < np)%nat ->
        forall c, (c < 2)%nat -> seg z' (fst (edge_block N' (pe i)) + 2 * m) c = seg z (fst (edge_block N i) + 2 * m) c).
    { intros z z' Z m Hm. pose proof (points_part i e z z' m He Z) as Q. rewrite Ty in Q. cbn [edge_states] in Q. apply Q. lia. }
    split; intros H m Hm; specialize (H m Hm).
    + eapply cell_same_values; [..|exact H]; intros q Hq; symmetry; [apply (PM last last' XL)|apply (PM last last' XL)|apply (PM x y X)|apply (PM x y X)]; lia.
    + eapply cell_same_values; [..|exact H]; intros q Hq; [apply (PM last last' XL)|apply (PM last last' XL)|apply (PM x y X)|apply (PM x y X)]; lia.
  - pose proof (V 0%nat ltac:(lia)) as V0. rewrite !Nat.add_0_r in V0. rewrite V0, (V 1%nat), (V 2%nat), (V 3%nat) by lia. reflexivity.
  - pose proof (V 0%nat ltac:(lia)) as V0. rewrite !Nat.add_0_r in V0. rewrite V0, (V 1%nat), (V 2%nat), (V 3%nat) by lia.
    rewrite (XC i e He) by (rewrite Ty; reflexivity). reflexivity.
  - pose proof (V 0%nat ltac:(lia)) as V0. rewrite !Nat.add_0_r in V0. rewrite V0, (V 1%nat), (V 2%nat), (V 3%nat) by lia.
    rewrite (XC i e He) by (rewrite Ty; reflexivity). reflexivity.
  - destruct (ends N W i e He) as ((_ & K) & _). rewrite Ty in K. destruct K as (_ & K). rewrite (V 1%nat) by lia.
    destruct (nth_error (nodes N) (e_to e)) as [t|] eqn:E; [|unfold is_power_node in K; rewrite E in K; destruct K].
    rewrite (image_node N N' pn pe O _ _ E). destruct t; try (unfold is_power_node in K; rewrite E in K; destruct K).
    rewrite (power_part N N' pn pe W O U x y X (e_to e)) by (unfold is_power_node; rewrite E; exact Logic.I). reflexivity.
  - reflexivity.
Qed.
Lemma edge_part_within eps i e t0 t1 last last' x y c c' : nth_error (edges N) i = Some e ->
  state_part N N' pn pe last last' -> state_part N N' pn pe x y -> control_part N N' pe c c' ->
  (edge_equation_within N' eps (pe i) (image e) t0 t1 last' y c' <-> edge_equation_within N eps i e t0 t1 last x c).
Proof.
  intros He XL X XC. unfold edge_equation_within. cbn [Apart_Proofs.image e_type e_to].
  pose proof X as X0. destruct X0 as (_ & V0). pose proof (fun k => V0 i e k He) as V. clear V0.
  destruct (e_type e) as [d k dx np| |cc| |g2p p2g|g b] eqn:Ty; cbn [edge_states] in V.
  - assert (PM : forall z z', state_part N N' pn pe z z' -> forall m, (m < np)%nat ->
        forall c, (c < 2)%nat -> seg z' (fst (edge_block N' (pe i)) + 2 * m) c = seg z (fst (edge_block N i) + 2 * m) c).
    { intros z z' Z m Hm. pose proof (points_part i e z z' m He Z) as Q. rewrite Ty in Q. cbn [edge_states] in Q. apply Q. lia. }
    split; intros H m Hm; specialize (H m Hm).
    + eapply cell_within_values; [..|exact H]; intros q Hq; symmetry; [apply (PM last last' XL)|apply (PM last last' XL)|apply (PM x y X)|apply (PM x y X)]; lia.
    + eapply cell_within_values; [..|exact H]; intros q Hq; [apply (PM last last' XL)|apply (PM last last' XL)|apply (PM x y X)|apply (PM x y X)]; lia.
  - pose proof (V 0%nat ltac:(lia)) as V0. rewrite !Nat.add_0_r in V0. rewrite V0, (V 1%nat), (V 2%nat), (V 3%nat) by lia. reflexivity.
  - pose proof (V 0%nat ltac:(lia)) as V0. rewrite !Nat.add_0_r in V0. rewrite V0, (V 1%nat), (V 2%nat), (V 3%nat) by lia.
    rewrite (XC i e He) by (rewrite Ty; reflexivity). reflexivity.
  - pose proof (V 0%nat ltac:(lia)) as V0. rewrite !Nat.add_0_r in V0. rewrite V0, (V 1%nat), (V 2%nat), (V 3%nat) by lia.
    rewrite (XC i e He) by (rewrite Ty; reflexivity). reflexivity.
  - destruct (ends N W i e He) as ((_ & K) & _). rewrite Ty in K. destruct K as (_ & K). rewrite (V 1%nat) by lia.
    destruct (nth_error (nodes N) (e_to e)) as [t|] eqn:E; [|unfold is_power_node in K; rewrite E in K; destruct K].
    rewrite (image_node N N' pn pe O _ _ E). destruct t; try (unfold is_power_node in K; rewrite E in K; destruct K).
    rewrite (power_part N N' pn pe W O U x y X (e_to e)) by (unfold is_power_node; rewrite E; exact Logic.I). reflexivity.
  - reflexivity.
Qed.

(** The equations of the whole imply those of the part. *)
Lemma network_part t0 t1 last last' x y c c' :
  state_part N N' pn pe last last' -> state_part N N' pn pe x y -> control_part N N' pe c c' ->
  network_equations N' t0 t1 last' y c' -> network_equations N t0 t1 last x c.
Proof.
  intros XL X XC (Hn & He). split.
  - intros j t H. apply (node_part N N' pn pe W O U x y X j t t1 H). apply Hn. apply (image_node N N' pn pe O). exact H.
  - intros i e H. apply (edge_part i e t0 t1 last last' x y c c' H XL X XC). apply He. apply (image_edge N N' pn pe O). exact H.
Qed.
Lemma network_part_within eps t0 t1 last last' x y c c' :
  state_part N N' pn pe last last' -> state_part N N' pn pe x y -> control_part N N' pe c c' ->
  network_equations_within N' eps t0 t1 last' y c' -> network_equations_within N eps t0 t1 last x c.
Proof.
  intros XL X XC (Hn & He). split.
  - intros j t H. apply (node_part_within N N' pn pe W O U x y X eps j t t1 H). apply Hn. apply (image_node N N' pn pe O). exact H.
  - intros i e H. apply (edge_part_within eps i e t0 t1 last last' x y c c' H XL X XC). apply He. apply (image_edge N N' pn pe O). exact H.
Qed.
(** Every state of the whole has a part. *)
Lemma part_exists y : exists x, state_part N N' pn pe x y.
Proof.
  set (node_table := flat_map (fun jt => map (fun k => ((fst (node_block N (fst jt)) + k)%nat, y (fst (node_block N' (pn (fst jt))) + k)%nat)) (seq 0 (node_states (snd jt))))
    (combine (seq 0 (length (nodes N))) (nodes N))).
  set (edge_table := flat_map (fun ie => map (fun k => ((fst (edge_block N (fst ie)) + k)%nat, y (fst (edge_block N' (pe (fst ie))) + k)%nat)) (seq 0 (edge_states (e_type (snd ie)))))
    (numbered N)).
  destruct (table_function (node_table ++ edge_table)) as (x & Hx).
  { assert (E : map fst (node_table ++ edge_table) = seq 0 (number_of_states N)).
    { rewrite <- blocks_tile, map_app. f_equal.
      - unfold node_table. rewrite map_flat_map. apply flat_map_in_eq. intros [j t] Hj. cbn [fst snd]. rewrite map_map. cbn [fst]. apply in_combine_seq in Hj.
        destruct (node_block_spec N j t Hj) as (s & E & _). rewrite E. cbn [fst snd]. rewrite map_seq_shift. unfold range. cbn [fst snd]. f_equal. lia.
      - unfold edge_table. rewrite map_flat_map. apply flat_map_in_eq. intros [i e] Hi. cbn [fst snd]. rewrite map_map. cbn [fst]. apply in_numbered in Hi.
        destruct (edge_block_spec N i e Hi) as (s & E & _). rewrite E. cbn [fst snd]. rewrite map_seq_shift. unfold range. cbn [fst snd]. f_equal. lia. }
    rewrite E. apply seq_NoDup. }
  exists x. split.
  - intros j k Hj Hk. symmetry. apply Hx. apply in_or_app. left. unfold node_table. apply in_flat_map.
    unfold is_power_node in Hj. destruct (nth_error (nodes N) j) as [t|] eqn:E; [|destruct Hj].
    exists (j, t). split; [apply in_combine_seq; exact E|]. cbn [fst snd]. apply in_map_iff. exists k. split; [reflexivity|].
    apply in_seq. destruct t; try (destruct Hj; fail). cbn [node_states]. lia.
  - intros i e k He Hk. symmetry. apply Hx. apply in_or_app. right. unfold edge_table. apply in_flat_map. exists (i, e).
    split; [apply in_numbered; exact He|]. cbn [fst snd]. apply in_map_iff. exists k. split; [reflexivity|]. apply in_seq. lia.
Qed.
End Part.

(** ** Two parts *)
Section Parts.
Variables (N' N1 N2 : network) (pn1 pe1 pn2 pe2 : nat -> nat).
Hypothesis W1 : well_formed N1.
Hypothesis W2 : well_formed N2.
Hypothesis K : consists N' N1 N2 pn1 pe1 pn2 pe2.

Lemma apart1 : unconnected N1 N' pn1 pe1.
Proof.
  destruct K as (O1 & O2 & Dn & _ & _ & Ce). intros i' e' j H Hj T.
  destruct (Ce i') as [(i & Hi & ->)|(i & Hi & ->)]; [apply nth_error_Some; congruence|exists i; auto|].
  destruct (nth_error (edges N2) i) as [e|] eqn:E; [|apply nth_error_None in E; lia].
  destruct O2 as (_ & _ & _ & Q). rewrite (Q i e E) in H. injection H as <-. cbn [e_from e_to] in T.
  destruct (ends N2 W2 i e E) as (_ & L1 & L2). exfalso. destruct T as [T|T]; symmetry in T; revert T; apply Dn; assumption.
Qed.
Lemma apart2 : unconnected N2 N' pn2 pe2.
Proof.
  destruct K as (O1 & O2 & Dn & _ & _ & Ce). intros i' e' j H Hj T.
  destruct (Ce i') as [(i & Hi & ->)|(i & Hi & ->)]; [apply nth_error_Some; congruence| |exists i; auto].
  destruct (nth_error (edges N1) i) as [e|] eqn:E; [|apply nth_error_None in E; lia].
  destruct O1 as (_ & _ & _ & Q). rewrite (Q i e E) in H. injection H as <-. cbn [e_from e_to] in T.
  destruct (ends N1 W1 i e E) as (_ & L1 & L2). exfalso. destruct T as [T|T]; revert T; apply Dn; assumption.
Qed.
Lemma occurs_node Np pn pe j : occurs Np N' pn pe -> (j < length (nodes Np))%nat -> nth_error (nodes N') (pn j) = nth_error (nodes Np) j.
Proof.
  intros O H. destruct (nth_error (nodes Np) j) as [t|] eqn:E; [|apply nth_error_None in E; lia]. apply (image_node Np N' pn pe O j t E).
Qed.
Lemma network_parts t0 t1 last1 last2 last' x1 x2 y c1 c2 c' :
  state_part N1 N' pn1 pe1 last1 last' -> state_part N1 N' pn1 pe1 x1 y -> control_part N1 N' pe1 c1 c' ->
  state_part N2 N' pn2 pe2 last2 last' -> state_part N2 N' pn2 pe2 x2 y -> control_part N2 N' pe2 c2 c' ->
  (network_equations N' t0 t1 last' y c' <-> network_equations N1 t0 t1 last1 x1 c1 /\ network_equations N2 t0 t1 last2 x2 c2).
Proof.
  intros L1 X1 C1 L2 X2 C2. pose proof apart1 as U1. pose proof apart2 as U2. destruct K as (O1 & O2 & _ & _ & Cn & Ce). split.
  - intro H. split; eapply network_part; eassumption.
  - intros ((Hn1 & He1) & (Hn2 & He2)). split.
    + intros j' t H. destruct (Cn j') as [(j & Hj & ->)|(j & Hj & ->)]; [apply nth_error_Some; congruence| |].
      * rewrite (occurs_node N1 pn1 pe1 j O1 Hj) in H. apply (node_part N1 N' pn1 pe1 W1 O1 U1 x1 y X1 j t t1 H). apply Hn1. exact H.
      * rewrite (occurs_node N2 pn2 pe2 j O2 Hj) in H. apply (node_part N2 N' pn2 pe2 W2 O2 U2 x2 y X2 j t t1 H). apply Hn2. exact H.
    + intros i' e' H. destruct (Ce i') as [(i & Hi & ->)|(i & Hi & ->)]; [apply nth_error_Some; congruence| |].
      * destruct (nth_error (edges N1) i) as [e|] eqn:E; [|apply nth_error_None in E; lia].
        rewrite (image_edge N1 N' pn1 pe1 O1 i e E) in H. injection H as <-.
        apply (edge_part N1 N' pn1 pe1 W1 O1 U1 i e t0 t1 last1 last' x1 y c1 c' E L1 X1 C1). apply He1. exact E.
      * destruct (nth_error (edges N2) i) as [e|] eqn:E; [|apply nth_error_None in E; lia].
        rewrite (image_edge N2 N' pn2 pe2 O2 i e E) in H. injection H as <-.
        apply (edge_part N2 N' pn2 pe2 W2 O2 U2 i e t0 t1 last2 last' x2 y c2 c' E L2 X2 C2). apply He2. exact E.
Qed.

(** States of the parts make a state of the whole. *)
Definition nodes_of (Np : network) (pn : nat -> nat) (x : vec) : list (nat * R) :=
  flat_map (fun jt => map (fun k => ((fst (node_block N' (pn (fst jt))) + k)%nat, x (fst (node_block Np (fst jt)) + k)%nat)) (seq 0 (node_states (snd jt))))
    (combine (seq 0 (length (nodes Np))) (nodes Np)).
Definition edges_of (Np : network) (pe : nat -> nat) (x : vec) : list (nat * R) :=
  flat_map (fun ie => map (fun k => ((fst (edge_block N' (pe (fst ie))) + k)%nat, x (fst (edge_block Np (fst ie)) + k)%nat)) (seq 0 (edge_states (e_type (snd ie)))))
    (numbered Np).
Lemma nodes_positions Np pn pe x : occurs Np N' pn pe ->
  map fst (nodes_of Np pn x) = flat_map (fun j => range (node_block N' j)) (map pn (seq 0 (length (nodes Np)))).
Proof.
  intro O. unfold nodes_of. rewrite map_flat_map. set (L := combine _ _).
  replace (seq 0 (length (nodes Np))) with (map fst L) by apply combine_fst. rewrite map_map, flat_map_map. apply flat_map_in_eq.
  intros [j t] Hj. cbn [fst snd]. rewrite map_map. cbn [fst]. apply in_combine_seq in Hj.
  destruct (node_block_spec N' (pn j) t (image_node Np N' pn pe O j t Hj)) as (s & E & _). rewrite E. cbn [fst snd].
  rewrite map_seq_shift. unfold range. cbn [fst snd]. f_equal. lia.
Qed.
Lemma edges_positions Np pn pe x : occurs Np N' pn pe ->
  map fst (edges_of Np pe x) = flat_map (fun i => range (edge_block N' i)) (map pe (seq 0 (length (edges Np)))).
Proof.
  intro O. unfold edges_of, numbered. rewrite map_flat_map. set (L := combine _ _).
  replace (seq 0 (length (edges Np))) with (map fst L) by apply combine_fst. rewrite map_map, flat_map_map. apply flat_map_in_eq.
  intros [i e] Hi. cbn [fst snd]. rewrite map_map. cbn [fst]. apply in_combine_seq in Hi.
  destruct (edge_block_spec N' (pe i) _ (image_edge Np N' pn pe O i e Hi)) as (s & E & _). rewrite E. cbn [fst snd Apart_Proofs.image e_type].
  rewrite map_seq_shift. unfold range. cbn [fst snd]. f_equal. lia.
Qed.
Lemma NoDup_app_intro {A} (a b : list A) : NoDup a -> NoDup b -> (forall k, In k a -> In k b -> False) -> NoDup (a ++ b).
Proof.
  intros Na Nb D. induction a as [|k a IH]; [exact Nb|]. inversion Na as [|? ? NI Na']; subst. cbn. constructor.
  - rewrite in_app_iff. intros [H|H]; [exact (NI H)|apply (D k); [left; reflexivity|exact H]].
  - apply IH; [exact Na'|]. intros m Hm. apply D. right. exact Hm.
Qed.
Lemma all_positions n' n1 n2 (f1 f2 : nat -> nat) : one_to_one n1 f1 -> one_to_one n2 f2 ->
  (forall k1 k2, (k1 < n1)%nat -> (k2 < n2)%nat -> f1 k1 <> f2 k2) ->
  (forall k, (k < n')%nat -> (exists k1, (k1 < n1)%nat /\ k = f1 k1) \/ (exists k2, (k2 < n2)%nat /\ k = f2 k2)) ->
  (forall k, (k < n1)%nat -> (f1 k < n')%nat) -> (forall k, (k < n2)%nat -> (f2 k < n')%nat) ->
  Permutation (map f1 (seq 0 n1) ++ map f2 (seq 0 n2)) (seq 0 n').
Proof.
  intros I1 I2 D C B1 B2.
  assert (G : forall n f, one_to_one n f -> NoDup (map f (seq 0 n))).
  { intros n f I.
    assert (G : forall l, (forall k, In k l -> (k < n)%nat) -> NoDup l -> NoDup (map f l)).
    { induction l as [|a l IH]; intros H ND; [constructor|]. inversion ND as [|? ? NI ND']; subst. cbn. constructor.
      - intro Q. apply in_map_iff in Q. destruct Q as (b & E & Hb). apply NI.
        rewrite (I a b); [exact Hb|apply H; left; reflexivity|apply H; right; exact Hb|congruence].
      - apply IH; [intros; apply H; right; assumption|exact ND']. }
    apply G; [intros k Hk; apply in_seq in Hk; lia|apply seq_NoDup]. }
  apply NoDup_Permutation; [|apply seq_NoDup|].
  - apply NoDup_app_intro; [apply G; exact I1|apply G; exact I2|].
    intros k H1 H2. apply in_map_iff in H1. apply in_map_iff in H2. destruct H1 as (a & <- & Ha), H2 as (b & E & Hb).
    apply in_seq in Ha. apply in_seq in Hb. apply (D a b); [lia|lia|congruence].
  - intro k. rewrite in_app_iff, !in_map_iff, in_seq. split.
    + intros [(a & <- & Ha)|(a & <- & Ha)]; apply in_seq in Ha; [pose proof (B1 a)|pose proof (B2 a)]; lia.
    + intros (_ & Hk). destruct (C k ltac:(lia)) as [(a & Ha & ->)|(a & Ha & ->)]; [left|right]; exists a; (split; [reflexivity|apply in_seq; lia]).
Qed.
Lemma whole_exists x1 x2 : exists y, state_part N1 N' pn1 pe1 x1 y /\ state_part N2 N' pn2 pe2 x2 y.
Proof.
  destruct K as (O1 & O2 & Dn & De & Cn & Ce).
  destruct (table_function ((nodes_of N1 pn1 x1 ++ nodes_of N2 pn2 x2) ++ (edges_of N1 pe1 x1 ++ edges_of N2 pe2 x2))) as (y & Hy).
  { assert (P : Permutation (map fst ((nodes_of N1 pn1 x1 ++ nodes_of N2 pn2 x2) ++ (edges_of N1 pe1 x1 ++ edges_of N2 pe2 x2))) (seq 0 (number_of_states N'))).
    { rewrite <- blocks_tile, !map_app. apply Permutation_app.
      - rewrite (nodes_positions N1 pn1 pe1 x1 O1), (nodes_positions N2 pn2 pe2 x2 O2), <- flat_map_app.
        rewrite <- (flat_map_map _ _ _ (fun j => range (node_block N' j)) fst), combine_fst. apply Permutation_flat_map.
        apply all_positions; [apply O1|apply O2|exact Dn|exact Cn| |].
        + intros k Hk. apply nth_error_Some. rewrite (occurs_node N1 pn1 pe1 k O1 Hk). apply nth_error_Some. exact Hk.
        + intros k Hk. apply nth_error_Some. rewrite (occurs_node N2 pn2 pe2 k O2 Hk). apply nth_error_Some. exact Hk.
      - rewrite (edges_positions N1 pn1 pe1 x1 O1), (edges_positions N2 pn2 pe2 x2 O2), <- flat_map_app.
        unfold numbered. rewrite <- (flat_map_map _ _ _ (fun i => range (edge_block N' i)) fst), combine_fst. apply Permutation_flat_map.
        apply all_positions; [apply O1|apply O2|exact De|exact Ce| |].
        + intros k Hk. destruct (nth_error (edges N1) k) as [e|] eqn:E; [|apply nth_error_None in E; lia].
          apply nth_error_Some. rewrite (image_edge N1 N' pn1 pe1 O1 k e E). discriminate.
        + intros k Hk. destruct (nth_error (edges N2) k) as [e|] eqn:E; [|apply nth_error_None in E; lia].
          apply nth_error_Some. rewrite (image_edge N2 N' pn2 pe2 O2 k e E). discriminate. }
    eapply Permutation_NoDup; [apply Permutation_sym; exact P|apply seq_NoDup]. }
  assert (A : forall Np pn x, (forall k v, In (k, v) (nodes_of Np pn x) -> y k = v) -> forall j k, is_power_node Np j -> (k < 2)%nat ->
     y (fst (node_block N' (pn j)) + k)%nat = x (fst (node_block Np j) + k)%nat).
  { intros Np pn x H j k Hj Hk. apply H. unfold nodes_of. apply in_flat_map.
    unfold is_power_node in Hj. destruct (nth_error (nodes Np) j) as [t|] eqn:E; [|destruct Hj].
    exists (j, t). split; [apply in_combine_seq; exact E|]. cbn [fst snd]. apply in_map_iff. exists k. split; [reflexivity|].
    apply in_seq. destruct t; try (destruct Hj; fail). cbn [node_states]. lia. }
  assert (B : forall Np pe x, (forall k v, In (k, v) (edges_of Np pe x) -> y k = v) -> forall i e k, nth_error (edges Np) i = Some e ->
     (k < edge_states (e_type e))%nat -> y (fst (edge_block N' (pe i)) + k)%nat = x (fst (edge_block Np i) + k)%nat).
  { intros Np pe x H i e k He Hk. apply H. unfold edges_of. apply in_flat_map. exists (i, e).
    split; [apply in_numbered; exact He|]. cbn [fst snd]. apply in_map_iff. exists k. split; [reflexivity|]. apply in_seq. lia. }
  exists y. split; split.
  - apply A. intros k v H. apply Hy. rewrite !in_app_iff. auto.
  - apply B. intros k v H. apply Hy. rewrite !in_app_iff. auto.
  - apply A. intros k v H. apply Hy. rewrite !in_app_iff. auto.
  - apply B. intros k v H. apply Hy. rewrite !in_app_iff. auto.
Qed.
End Parts.
