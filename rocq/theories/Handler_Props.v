(** * Properties of the matrix handlers: C36 *)
From Coq Require Import Reals Lra Lia List Arith Bool.
From Verif Require Import Base Calc Euler_Model Box_Model Net_Model Handler_Model Handler_Spec Handler_Proofs Handler_Proofs2.
Import ListNotations.
Local Open Scope R_scope.

Local Definition put (r c : nat) (v : R) : contribution := (r, c, v).

(** Building: every entry is the sum of its contributions, also in transposed mode. *)
Theorem C36_build :
  forall (transposed : bool) rows cols ts, fits rows cols ts ->
    exists m, triplet_fill transposed (if transposed then cols else rows) (if transposed then rows else cols) ts = Ok m /\
      compressed m /\ forall r c, coeff m r c = expected transposed ts r c.
Proof.
  intros tr rows cols ts F. destruct (build tr rows cols ts F) as [m [A [B [_ [_ [C _]]]]]]. exists m. auto.
Qed.
Print Assumptions C36_build.

(** Refilling any number of times at the positions of the first fill: the matrix is given by the
    contributions of the last fill alone. *)
Theorem C36_refill :
  forall grow (transposed : bool) rows cols first fills ts,
    fits rows cols first ->
    (forall l, In l (fills ++ [ts]) -> incl (positions l) (positions first)) ->
    exists m0 m,
      triplet_fill transposed (if transposed then cols else rows) (if transposed then rows else cols) first = Ok m0 /\
      refills grow transposed m0 (fills ++ [ts]) = Ok m /\
      compressed m /\ forall r c, coeff m r c = expected transposed ts r c.
Proof.
  intros grow tr rows cols first fills ts F H.
  destruct (build tr rows cols first F) as [m0 [A [B [D1 [D2 [_ PR]]]]]].
  destruct (refill_all grow tr (fills ++ [ts]) m0 B) as [m [E [C [_ [_ V]]]]].
  - apply Forall_forall. intros l Hl. specialize (H l Hl).
    assert (K : forall t, In t l -> exists t', In t' first /\ fst t' = fst t).
    { intros t Ht. assert (P : In (fst t) (positions first)) by (apply H; apply in_map; exact Ht).
      apply in_map_iff in P. destruct P as [t' [P1 P2]]. exists t'. auto. }
    assert (AC : forall t t' : contribution, fst t' = fst t -> fst (actual tr t') = fst (actual tr t)).
    { intros [[r c] v] [[r' c'] v'] Q. cbn in Q. injection Q as -> ->. destruct tr; reflexivity. }
    split; apply Forall_forall; intros x Hx; apply in_map_iff in Hx; destruct Hx as [t [<- Ht]];
      destruct (K t Ht) as [t' [T1 T2]]; rewrite <- (AC t t' T2).
    + rewrite D1, D2. apply (fits_actual tr) in F. rewrite Forall_forall in F. apply F. apply in_map. exact T1.
    + apply PR. exact T1.
  - exists m0, m. split; [exact A|]. split; [exact E|]. split; [exact C|].
    apply V; [apply last_last|]. destruct fills; discriminate.
Qed.
Print Assumptions C36_refill.

(** The transposed mode gives the transposed matrix. *)
Theorem C36_transposed :
  forall rows cols ts m m', fits rows cols ts ->
    triplet_fill false rows cols ts = Ok m -> triplet_fill true cols rows ts = Ok m' ->
    forall r c, coeff m' c r = coeff m r c.
Proof.
  intros rows cols ts m m' F E E' r c.
  destruct (C36_build false rows cols ts F) as [m1 [A [_ V]]]. destruct (C36_build true rows cols ts F) as [m2 [A' [_ V']]].
  cbn in A, A'. rewrite E in A. rewrite E' in A'. injection A as <-. injection A' as <-.
  rewrite V, V'. reflexivity.
Qed.
Print Assumptions C36_transposed.

(** New positions in a refill of a compressed matrix: this fill is right, but see below for the
    next one. *)
Theorem C36_new_position_partial :
  forall grow (transposed : bool) rows cols m ts,
    compressed m -> m_rows m = (if transposed then cols else rows) ->
    length (m_cols m) = (if transposed then rows else cols) -> fits rows cols ts ->
    exists m', coeffref_fill grow transposed m ts = Ok m' /\
      forall r c, coeff m' r c = expected transposed ts r c.
Proof.
  intros grow tr rows cols m ts H H1 H2 F. destruct (fill_value grow tr m ts H) as [m' [A [_ [_ V]]]].
  - unfold fits_in. rewrite H1, H2. apply fits_actual. exact F.
  - exists m'. auto.
Qed.
Print Assumptions C36_new_position_partial.

(** After a new position has been inserted, the matrix has free slots, and the next handler does
    not reset all entries: it overwrites only as many slots as there are entries. *)
Theorem C36_leftover_refuted :
  exists first second third r c, fits 2 2 first /\ fits 2 2 second /\ fits 2 2 third /\
    forall grow, (2 <= length (grow 0%nat))%nat ->
      exists m0 m, triplet_fill false 2 2 first = Ok m0 /\
        refills grow false m0 [second; third] = Ok m /\ coeff m r c <> expected false third r c.
Proof.
  exists [put 0 0 1; put 1 1 1], [put 1 0 1; put 1 1 5], [], 1%nat, 1%nat.
  split; [repeat constructor|]. split; [repeat constructor|]. split; [constructor|].
  intros grow H. eexists. eexists. split; [reflexivity|]. split; [reflexivity|].
  cbn. destruct (grow 0%nat) as [|a [|b l]]; cbn in H; try lia. unfold total. cbn. lra.
Qed.
Print Assumptions C36_leftover_refuted.

(** The leftover does not occur for the networks: the positions a network reports do not depend
    on times, states and controls. *)
Theorem C36_network_positions :
  forall N t0 t1 last x c t0' t1' last' x' c' ts ts',
    (d_evaluate_d_new_state N t0 t1 last x c = Ok ts -> d_evaluate_d_new_state N t0' t1' last' x' c' = Ok ts' ->
     positions ts = positions ts') /\
    (d_evaluate_d_last_state N t0 t1 last x c = Ok ts -> d_evaluate_d_last_state N t0' t1' last' x' c' = Ok ts' ->
     positions ts = positions ts') /\
    (d_evaluate_d_control N t0 t1 last x c = Ok ts -> d_evaluate_d_control N t0' t1' last' x' c' = Ok ts' ->
     positions ts = positions ts').
Proof.
  intros. split; [|split]; intros E E'.
  - exact (new_positions N _ _ _ _ _ _ _ _ _ _ ts ts' E E').
  - exact (last_positions N _ _ _ _ _ _ _ _ _ _ ts ts' E E').
  - exact (control_positions N _ _ _ _ _ _ _ _ _ _ ts ts' E E').
Qed.
Print Assumptions C36_network_positions.

(** Five contributions, two of them to the same position, and two refills. *)
Example C36_case :
  let first := [put 0 1 1; put 1 0 2; put 0 1 3; put 2 2 4; put 1 1 0] in
  fits 3 3 first /\
  incl (positions [put 2 2 7; put 0 1 8; put 0 1 (-8)]) (positions first) /\
  exists m, triplet_fill false 3 3 first = Ok m /\ coeff m 0 1 = 4 /\ coeff m 2 2 = 4 /\ coeff m 2 0 = 0 /\ nonZeros m = 4%nat.
Proof.
  cbv zeta. split; [unfold fits; repeat constructor|]. split.
  - intros x [<-|[<-|[<-|[]]]]; cbn; auto 6.
  - eexists. split; [reflexivity|]. cbn. repeat split; lra.
Qed.
