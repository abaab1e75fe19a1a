(** * Continuous solutions of the time step equations are differentiable

    If the equations have the reported Jacobians along every pair of curves, the Jacobian with respect to the new
    state has a left inverse and the solution depends continuously on the parameter, then it depends
    differentiably on it. *)
From Coq Require Import List Arith Reals Lra Lia ConstructiveEpsilon IndefiniteDescription Classical.
From Coquelicot Require Import Coquelicot.
From Verif Require Import Base Interp_Model Interp_Spec Interp_Proofs2 Adjoint_Model Adjoint_Spec Adjoint_Proofs.
Import ListNotations.
Open Scope R_scope.

(** ** Subsequences *)
Lemma lim_subseq (u : nat -> R) (l : R) (phi : nat -> nat) : (forall m, (m <= phi m)%nat) -> is_lim_seq u l -> is_lim_seq (fun m => u (phi m)) l.
Proof.
  intros H L. apply is_lim_seq_spec in L. apply is_lim_seq_spec. intro e. destruct (L e) as [N HN]. exists N. intros m Hm. apply HN.
  specialize (H m). lia.
Qed.

Lemma bw1 (u : nat -> R) : (forall m, -1 <= u m <= 1) -> exists phi (l : R), (forall m, (m <= phi m)%nat) /\ is_lim_seq (fun m => u (phi m)) l.
Proof.
  intro B. destruct (Bolzano_Weierstrass u (fun c => -1 <= c <= 1) (compact_P3 (-1) 1) B) as [l V].
  assert (P : forall N : nat, exists p, (N <= p)%nat /\ Rabs (u p - l) < / (INR N + 1)).
  { intro N. assert (E : 0 < / (INR N + 1)) by (apply Rinv_0_lt_compat; pose proof (pos_INR N); lra).
    assert (Nb : neighbourhood (disc l (mkposreal _ E)) l) by (exists (mkposreal _ E); intros z Hz; exact Hz).
    destruct (V _ N Nb) as (p & H1 & H2). exists p. split; auto. }
  assert (D : forall N p, {(N <= p)%nat /\ Rabs (u p - l) < / (INR N + 1)} + {~ ((N <= p)%nat /\ Rabs (u p - l) < / (INR N + 1))}).
  { intros N p. destruct (le_dec N p); [|right; tauto]. destruct (Rlt_dec (Rabs (u p - l)) (/ (INR N + 1))); [left; auto|right; tauto]. }
  exists (fun N => proj1_sig (constructive_indefinite_ground_description_nat _ (D N) (P N))), l. split.
  - intro N. destruct (constructive_indefinite_ground_description_nat _ (D N) (P N)) as [p Hp]. apply Hp.
  - apply is_lim_seq_spec. intro e. destruct (archimed_cor1 e (cond_pos e)) as (M & H1 & H2). exists M. intros m Hm.
    destruct (constructive_indefinite_ground_description_nat _ (D m) (P m)) as [p Hp]. cbn. destruct Hp as [_ Hp].
    eapply Rlt_trans; [exact Hp|]. eapply Rlt_trans; [|exact H1].
    apply Rinv_lt_contravar; [apply Rmult_lt_0_compat; [apply lt_0_INR; lia|pose proof (pos_INR m); lra]|]. apply le_INR in Hm. lra.
Qed.

Lemma bw n (x : nat -> nat -> R) : (forall m k, (k < n)%nat -> -1 <= x m k <= 1) ->
  exists phi (l : nat -> R), (forall m, (m <= phi m)%nat) /\ forall k, (k < n)%nat -> is_lim_seq (fun m => x (phi m) k) (l k).
Proof.
  induction n as [|n IH]; intro B.
  - exists (fun m => m), (fun _ => 0). split; [auto|intros; lia].
  - destruct IH as (phi & l & H1 & H2); [intros; apply B; lia|].
    destruct (bw1 (fun m => x (phi m) n)) as (psi & c & H3 & H4); [intro; apply B; lia|].
    exists (fun m => phi (psi m)), (fun k => if (k =? n)%nat then c else l k). split.
    + intro m. eapply Nat.le_trans; [apply H3|apply H1].
    + intros k Hk. destruct (Nat.eqb_spec k n) as [->|N]; [exact H4|].
      apply (lim_subseq (fun m => x (phi m) k) (l k) psi H3). apply H2. lia.
Qed.

(** ** Curves through the members of a sequence *)
Section Through.
Variables (t : nat -> R) (y : nat -> vec) (base dir : vec) (n : nat).
Hypothesis Ht : forall m, t m <> 0.
Hypothesis Hlim : is_lim_seq t 0.
Hypothesis Hq : forall k, (k < n)%nat -> is_lim_seq (fun m => (y m k - base k) / t m) (dir k).

Lemma found_dec s : {m | s = t m} + {forall m, s <> t m}.
Proof.
  destruct (ClassicalDedekindReals.sig_forall_dec (fun m => s <> t m)) as [[m Hm]|H].
  - intro m. destruct (Req_EM_T s (t m)); [right|left]; auto.
  - left. exists m. destruct (Req_EM_T s (t m)); tauto.
  - right. exact H.
Qed.

Definition through (s : R) : vec :=
  match found_dec s with inleft f => y (proj1_sig f) | inright _ => fun k => base k + s * dir k end.

Lemma through_curve : curve_through n through base dir.
Proof.
  assert (Z : through 0 = base).
  { unfold through. destruct (found_dec 0) as [[m Hm]|_]; [exfalso; apply (Ht m); auto|].
    apply FunctionalExtensionality.functional_extensionality. intro k. lra. }
  split; auto. intros k Hk. apply is_derive_Reals. intros eps Heps.
  specialize (Hq k Hk). apply is_lim_seq_spec in Hq. destruct (Hq (mkposreal eps Heps)) as [M HM]. cbn in HM.
  assert (D : exists d : posreal, forall m, (m < M)%nat -> d <= Rabs (t m)).
  { clear - Ht. induction M as [|M (d & Hd)]; [exists (mkposreal 1 Rlt_0_1); intros; lia|].
    assert (P : 0 < Rmin d (Rabs (t M))) by (apply Rmin_pos; [apply cond_pos|apply Rabs_pos_lt, Ht]).
    exists (mkposreal _ P). cbn. intros m Hm. destruct (Nat.eq_dec m M) as [->|N]; [apply Rmin_r|].
    eapply Rle_trans; [apply Rmin_l|]. apply Hd. lia. }
  destruct D as [d Hd]. exists d. intros h Hh Hs. rewrite Rplus_0_l, Z.
  unfold through. destruct (found_dec h) as [[m Hm]|_]; cbn [proj1_sig].
  - assert (Lm : (M <= m)%nat) by (destruct (Nat.le_gt_cases M m) as [|G]; auto; specialize (Hd m G); subst h; lra).
    specialize (HM m Lm). subst h. exact HM.
  - replace ((base k + h * dir k - base k) / h - dir k) with 0 by (field; auto). rewrite Rabs_R0. exact Heps.
Qed.
End Through.

Lemma through_at t m : exists m', t m' = t m /\ forall y base dir, through t y base dir (t m) = y m'.
Proof. unfold through. destruct (found_dec t (t m)) as [[m' H]|H]; [exists m'; auto|]. exfalso. apply (H m). reflexivity. Qed.

(** ** Equations with Jacobians along curves *)
Section Implicit.
Variables (n mu : nat) (F : vec -> vec -> vec -> vec) (xl xn u : vec) (L A C : mat) (B : mat).
Hypothesis HJ : forall a b c a' b' c', curve_through n a xl a' -> curve_through n b xn b' -> curve_through mu c u c' ->
  forall e, (e < n)%nat -> is_derive (fun s => F (a s) (b s) (c s) e) 0 (inner n (L e) a' + inner n (A e) b' + inner mu (C e) c').
(** [B] is a left inverse of [A]. *)
Hypothesis HB : forall w k, (k < n)%nat -> Rsum n (fun e => B k e * inner n (A e) w) = w k.

Lemma sequential t ya yb yc (a' b' c' : vec) : (forall m, t m <> 0) -> is_lim_seq t 0 ->
  (forall k, (k < n)%nat -> is_lim_seq (fun m => (ya m k - xl k) / t m) (a' k)) ->
  (forall k, (k < n)%nat -> is_lim_seq (fun m => (yb m k - xn k) / t m) (b' k)) ->
  (forall k, (k < mu)%nat -> is_lim_seq (fun m => (yc m k - u k) / t m) (c' k)) ->
  (forall e, (e < n)%nat -> F xl xn u e = 0) ->
  (forall m e, (e < n)%nat -> F (ya m) (yb m) (yc m) e = 0) ->
  forall e, (e < n)%nat -> inner n (L e) a' + inner n (A e) b' + inner mu (C e) c' = 0.
Proof.
  intros Ht Hl Ha Hb Hc Z0 Z e He.
  pose proof (through_curve t ya xl a' n Ht Ha) as Ca. pose proof (through_curve t yb xn b' n Ht Hb) as Cb.
  pose proof (through_curve t yc u c' mu Ht Hc) as Cc.
  set (G := fun s => F (through t ya xl a' s) (through t yb xn b' s) (through t yc u c' s) e).
  assert (D : is_derive G 0 (inner n (L e) a' + inner n (A e) b' + inner mu (C e) c')) by exact (HJ _ _ _ _ _ _ Ca Cb Cc e He).
  assert (G0 : G 0 = 0) by (unfold G; rewrite (proj1 Ca), (proj1 Cb), (proj1 Cc); auto).
  assert (Gm : forall m, G (t m) = 0).
  { intro m. unfold G. destruct (through_at t m) as (m' & _ & E). rewrite !E. auto. }
  set (d := inner n (L e) a' + inner n (A e) b' + inner mu (C e) c') in *. clearbody d.
  destruct (Req_dec d 0) as [|N]; auto. exfalso. apply is_derive_Reals in D.
  destruct (D (Rabs d / 2)) as [delta Hd]; [pose proof (Rabs_pos_lt d N); lra|].
  apply is_lim_seq_spec in Hl. destruct (Hl delta) as [M HM]. specialize (HM M (Nat.le_refl _)). rewrite Rminus_0_r in HM.
  specialize (Hd (t M) (Ht M) HM). rewrite Rplus_0_l, Gm, G0 in Hd. unfold Rdiv in Hd. rewrite Rminus_0_r, Rmult_0_l, Rminus_0_l, Rabs_Ropp in Hd.
  pose proof (Rabs_pos_lt d N). lra.
Qed.

Variables (a b c : R -> vec) (a' c' : vec).
Hypothesis Ca : curve_through n a xl a'.
Hypothesis Cc : curve_through mu c u c'.
Hypothesis b0 : b 0 = xn.
Hypothesis bc : forall k, (k < n)%nat -> continuous (fun s => b s k) 0.
Hypothesis Hz : locally 0 (fun s => forall e, (e < n)%nat -> F (a s) (b s) (c s) e = 0).

(** The derivative, by Cramer's rule. *)
Definition vstar (k : nat) : R := Rsum n (fun e => B k e * - (inner n (L e) a' + inner mu (C e) c')).

Definition size1 (v : vec) : R := Rsum n (fun k => Rabs (v k)).

Lemma Rsum_nonneg m f : (forall i, (i < m)%nat -> 0 <= f i) -> 0 <= Rsum m f.
Proof. induction m as [|m IH]; intro H; cbn; [lra|]. specialize (H m (Nat.lt_succ_diag_r m)) as H'. assert (0 <= Rsum m f) by (apply IH; intros; apply H; lia). lra. Qed.
Lemma Rsum_term m f k : (forall i, (i < m)%nat -> 0 <= f i) -> (k < m)%nat -> f k <= Rsum m f.
Proof.
  induction m as [|m IH]; intros H Hk; [lia|]. cbn. destruct (Nat.eq_dec k m) as [->|N].
  - assert (0 <= Rsum m f) by (apply Rsum_nonneg; intros; apply H; lia). lra.
  - assert (f k <= Rsum m f) by (apply IH; [intros; apply H; lia|lia]). specialize (H m (Nat.lt_succ_diag_r m)). lra.
Qed.
Lemma lim_Rsum m (f : nat -> nat -> R) (l : nat -> R) : (forall k, (k < m)%nat -> is_lim_seq (fun j => f j k) (l k)) ->
  is_lim_seq (fun j => Rsum m (f j)) (Rsum m l).
Proof.
  induction m as [|m IH]; intro H; cbn; [apply is_lim_seq_const|].
  apply (is_lim_seq_plus' (fun j => Rsum m (f j)) (fun j => f j m)); [apply IH; intros; apply H; lia|apply H; lia].
Qed.

(** Quotients of a curve along a sequence. *)
Lemma curve_quotient d (g : R -> vec) g0 (g' : vec) s k : curve_through d g g0 g' -> (forall m, s m <> 0) -> is_lim_seq s 0 -> (k < d)%nat ->
  is_lim_seq (fun m => (g (s m) k - g0 k) / s m) (g' k).
Proof.
  intros [E D] Hs Hl Hk. specialize (D k Hk). apply is_derive_Reals in D. apply is_lim_seq_spec. intro eps.
  destruct (D eps (cond_pos eps)) as [delta Hd]. apply is_lim_seq_spec in Hl. destruct (Hl delta) as [M HM]. exists M. intros m Hm.
  specialize (HM m Hm). rewrite Rminus_0_r in HM. specialize (Hd (s m) (Hs m) HM). rewrite Rplus_0_l, E in Hd. exact Hd.
Qed.

Lemma subsequence_derivative s : (forall m, s m <> 0) -> is_lim_seq s 0 -> (forall m e, (e < n)%nat -> F (a (s m)) (b (s m)) (c (s m)) e = 0) ->
  exists phi, (forall m, (m <= phi m)%nat) /\ forall k, (k < n)%nat -> is_lim_seq (fun m => (b (s (phi m)) k - xn k) / s (phi m)) (vstar k).
Proof.
  intros Hs Hl Z.
  set (tau := fun m => Rabs (s m) + size1 (fun k => b (s m) k - xn k)).
  assert (Sp : forall v, 0 <= size1 v) by (intro v; apply Rsum_nonneg; intros; apply Rabs_pos).
  assert (Tp : forall m, 0 < tau m) by (intro m; unfold tau; pose proof (Rabs_pos_lt _ (Hs m)); pose proof (Sp (fun k => b (s m) k - xn k)); lra).
  assert (Bk : forall k, (k < n)%nat -> is_lim_seq (fun m => b (s m) k - xn k) 0).
  { intros k Hk. apply (is_lim_seq_ext (fun m => b (s m) k + - xn k)); [intro; lra|].
    replace (Finite 0) with (Finite (b 0 k + - xn k)) by (f_equal; rewrite b0; lra). apply is_lim_seq_plus'; [|apply is_lim_seq_const].
    apply (is_lim_seq_continuous (fun x => b x k) s 0); [|exact Hl]. apply continuity_pt_filterlim. apply bc. exact Hk. }
  assert (Tl : is_lim_seq tau 0).
  { unfold tau. replace (Finite 0) with (Finite (0 + 0)) by (f_equal; lra). apply is_lim_seq_plus'.
    - rewrite <- Rabs_R0. apply (is_lim_seq_abs s 0). exact Hl.
    - unfold size1. replace 0 with (Rsum n (fun _ => 0)) by (apply Rsum_zero; auto).
      apply (lim_Rsum n (fun m k => Rabs (b (s m) k - xn k)) (fun _ => 0)). intros k Hk. rewrite <- Rabs_R0. apply (is_lim_seq_abs _ 0). auto. }
  assert (T1 : forall m x, Rabs x <= tau m -> -1 <= x / tau m <= 1).
  { intros m x Hx. specialize (Tp m). apply Rabs_le_between in Hx. split.
    - apply Rmult_le_reg_r with (tau m); auto. unfold Rdiv. rewrite Rmult_assoc, Rinv_l by lra. lra.
    - apply Rmult_le_reg_r with (tau m); auto. unfold Rdiv. rewrite Rmult_assoc, Rinv_l by lra. lra. }
  (* component n is the parameter *)
  set (x := fun m k => if (k <? n)%nat then (b (s m) k - xn k) / tau m else s m / tau m).
  destruct (bw (S n) x) as (phi & l & P1 & P2).
  { intros m k _. unfold x. destruct (Nat.ltb_spec k n) as [Hk|]; apply T1; unfold tau.
    - pose proof (Rsum_term n (fun k => Rabs (b (s m) k - xn k)) k (fun i _ => Rabs_pos _) Hk). pose proof (Rabs_pos (s m)). unfold size1. lra.
    - pose proof (Sp (fun k => b (s m) k - xn k)). lra. }
  set (sg := l n).
  assert (Lsg : is_lim_seq (fun m => s (phi m) / tau (phi m)) sg).
  { specialize (P2 n (Nat.lt_succ_diag_r n)). unfold x in P2. rewrite Nat.ltb_irrefl in P2. exact P2. }
  assert (Lw : forall k, (k < n)%nat -> is_lim_seq (fun m => (b (s (phi m)) k - xn k) / tau (phi m)) (l k)).
  { intros k Hk. specialize (P2 k (Nat.lt_lt_succ_r _ _ Hk)). unfold x in P2. rewrite (proj2 (Nat.ltb_lt _ _) Hk) in P2. exact P2. }
  assert (Hs' : forall m, s (phi m) <> 0) by (intro; apply Hs).
  assert (Hl' : is_lim_seq (fun m => s (phi m)) 0) by (apply lim_subseq; auto).
  assert (Lq : forall d g g0 (g' : vec), curve_through d g g0 g' -> forall k, (k < d)%nat ->
     is_lim_seq (fun m => (g (s (phi m)) k - g0 k) / tau (phi m)) (sg * g' k)).
  { intros d g g0 g' Cg k Hk. apply (is_lim_seq_ext (fun m => s (phi m) / tau (phi m) * ((g (s (phi m)) k - g0 k) / s (phi m)))).
    - intro m. field. split; [apply Rgt_not_eq, Tp|apply Hs].
    - apply is_lim_seq_mult'; [exact Lsg|]. apply (curve_quotient d g g0 g' (fun m => s (phi m)) k Cg Hs' Hl' Hk). }
  assert (E : forall e, (e < n)%nat -> inner n (L e) (fun k => sg * a' k) + inner n (A e) l + inner mu (C e) (fun k => sg * c' k) = 0).
  { apply (sequential (fun m => tau (phi m)) (fun m => a (s (phi m))) (fun m => b (s (phi m))) (fun m => c (s (phi m)))).
    - intro m. apply Rgt_not_eq, Tp.
    - apply lim_subseq; auto.
    - apply (Lq n a xl a' Ca).
    - apply Lw.
    - apply (Lq mu c u c' Cc).
    - intros e He. destruct Hz as [dz Hdz]. specialize (Hdz 0 (ball_center _ _) e He). rewrite (proj1 Ca), b0, (proj1 Cc) in Hdz. exact Hdz.
    - intros m e He. apply Z. exact He. }
  assert (Is : forall d w v, inner d w (fun k => sg * v k) = sg * inner d w v).
  { intros d w v. unfold inner. rewrite <- Rsum_scal. apply Rsum_ext. intros. ring. }
  assert (W : forall k, (k < n)%nat -> l k = sg * vstar k).
  { intros k Hk. rewrite <- (HB l k Hk). unfold vstar. rewrite <- Rsum_scal. apply Rsum_ext. intros e He.
    specialize (E e He). rewrite !Is in E. replace (inner n (A e) l) with (- (sg * inner n (L e) a' + sg * inner mu (C e) c')) by lra. ring. }
  assert (Sg : sg <> 0).
  { intro S0. assert (One : Rabs sg + Rsum n (fun k => Rabs (l k)) = 1).
    { assert (Lim : is_lim_seq (fun _ : nat => 1) (Rabs sg + Rsum n (fun k => Rabs (l k)))).
      { apply (is_lim_seq_ext (fun m => Rabs (s (phi m) / tau (phi m)) + Rsum n (fun k => Rabs ((b (s (phi m)) k - xn k) / tau (phi m))))).
        - intro m. pose proof (Tp (phi m)) as T. unfold Rdiv. rewrite Rabs_mult, (Rabs_right (/ tau (phi m))) by (left; apply Rinv_0_lt_compat; auto).
          rewrite (Rsum_ext n _ (fun k => / tau (phi m) * Rabs (b (s (phi m)) k - xn k))).
          + rewrite Rsum_scal. fold (size1 (fun k => b (s (phi m)) k - xn k)).
            transitivity (/ tau (phi m) * tau (phi m)); [unfold tau at 4; ring|]. apply Rinv_l. lra.
          + intros k _. rewrite Rabs_mult, (Rabs_right (/ tau (phi m))) by (left; apply Rinv_0_lt_compat; auto). ring.
        - apply is_lim_seq_plus'; [apply (is_lim_seq_abs _ sg); exact Lsg|].
          apply (lim_Rsum n (fun m k => Rabs ((b (s (phi m)) k - xn k) / tau (phi m))) (fun k => Rabs (l k))).
          intros k Hk. apply (is_lim_seq_abs _ (l k)). apply Lw. exact Hk. }
      apply is_lim_seq_unique in Lim. rewrite Lim_seq_const in Lim. injection Lim as <-. reflexivity. }
    rewrite (Rsum_zero n) in One; [rewrite S0, Rabs_R0 in One; lra|].
    intros k Hk. rewrite (W k Hk), S0, Rmult_0_l, Rabs_R0. reflexivity. }
  exists phi. split; auto. intros k Hk.
  apply (is_lim_seq_ext (fun m => (b (s (phi m)) k - xn k) / tau (phi m) / (s (phi m) / tau (phi m)))).
  - intro m. field. split; [apply Hs|apply Rgt_not_eq, Tp].
  - replace (vstar k) with (l k / sg) by (rewrite (W k Hk); field; auto). apply is_lim_seq_div'; auto.
Qed.

Theorem implicit_derivative k : (k < n)%nat -> is_derive (fun s => b s k) 0 (vstar k).
Proof.
  intro Hk. apply is_derive_Reals. intros eps Heps. apply NNPP. intro N.
  assert (P : forall m : nat, exists h, h <> 0 /\ Rabs h < / (INR m + 1) /\ (forall e, (e < n)%nat -> F (a h) (b h) (c h) e = 0) /\
     ~ Rabs ((b (0 + h) k - b 0 k) / h - vstar k) < eps).
  { intro m. apply NNPP. intro Nm. apply N. destruct Hz as [dz Hdz].
    assert (E : 0 < / (INR m + 1)) by (apply Rinv_0_lt_compat; pose proof (pos_INR m); lra).
    assert (Pd : 0 < Rmin dz (/ (INR m + 1))) by (apply Rmin_pos; [apply cond_pos|exact E]).
    exists (mkposreal _ Pd). intros h Hh Hb. cbn in Hb. apply NNPP. intro Nh. apply Nm. exists h. split; auto.
    split; [eapply Rlt_le_trans; [exact Hb|apply Rmin_r]|]. split; auto.
    apply Hdz. unfold ball. cbn. unfold AbsRing_ball, abs, minus, plus, opp. cbn. replace (h + - 0) with h by lra.
    eapply Rlt_le_trans; [exact Hb|apply Rmin_l]. }
  destruct (functional_choice _ P) as [s Hs].
  assert (S0 : is_lim_seq s 0).
  { apply is_lim_seq_spec. intro e. destruct (archimed_cor1 e (cond_pos e)) as (M & H1 & H2). exists M. intros m Hm. rewrite Rminus_0_r.
    destruct (Hs m) as (_ & H & _). eapply Rlt_trans; [exact H|]. eapply Rlt_trans; [|exact H1].
    apply Rinv_lt_contravar; [apply Rmult_lt_0_compat; [apply lt_0_INR; lia|pose proof (pos_INR m); lra]|]. apply le_INR in Hm. lra. }
  destruct (subsequence_derivative s) as (phi & _ & Q); [intro; apply Hs|auto|intros m; apply Hs|].
  specialize (Q k Hk). apply is_lim_seq_spec in Q. destruct (Q (mkposreal eps Heps)) as [M HM]. specialize (HM M (Nat.le_refl _)). cbn in HM.
  destruct (Hs (phi M)) as (_ & _ & _ & H). apply H. rewrite Rplus_0_l, b0. exact HM.
Qed.
End Implicit.
