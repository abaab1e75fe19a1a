From Coq Require Import Reals Lra Lia List Arith Permutation.
From Coquelicot Require Import Coquelicot.
From Verif Require Import Base Interp_Model Calc Euler_Model Euler_Spec Euler_Proofs Euler_Proofs2
  Box_Model Box_Spec Box_Proofs Net_Model Net_Spec.
Import ListNotations.
Local Open Scope R_scope.

(** ** Executing writes *)
Definition wval (w : write) : R := match w with Assign _ r => r | AddTo _ r => r end.
Definition wsum (ws : list write) (r : nat) : R :=
  fold_right (fun w acc => (if Nat.eqb (write_index w) r then wval w else 0) + acc) 0 ws.

Lemma wsum_cons w ws r :
  wsum (w :: ws) r = (if Nat.eqb (write_index w) r then wval w else 0) + wsum ws r.
Proof. reflexivity. Qed.
Lemma wsum_app a b r : wsum (a ++ b) r = wsum a r + wsum b r.
Proof.
  induction a as [|w a IH]; [symmetry; apply Rplus_0_l|].
  rewrite <- app_comm_cons, !wsum_cons, IH. ring.
Qed.

(** Additions only to rows assigned before. *)
Fixpoint adds_ok (seen : list nat) (ws : list write) : Prop :=
  match ws with
  | [] => True
  | Assign i _ :: rest => adds_ok (i :: seen) rest
  | AddTo i _ :: rest => In i seen /\ adds_ok seen rest
  end.
Lemma adds_ok_incl ws : forall s s', (forall i, In i s -> In i s') -> adds_ok s ws -> adds_ok s' ws.
Proof.
  induction ws as [|[i r|i r] ws IH]; cbn; intros s s' H A; auto.
  - eapply IH; [|exact A]. intros k [->|K]; [left; auto|right; auto].
  - destruct A; split; eauto.
Qed.
Lemma adds_ok_app a b : forall s, adds_ok s a -> adds_ok [] b -> adds_ok s (a ++ b).
Proof.
  induction a as [|[i r|i r] a IH]; cbn; intros s A B; auto.
  - eapply adds_ok_incl; [|exact B]. intros i [].
  - destruct A; split; auto.
Qed.
Lemma adds_ok_app' a b : forall s, adds_ok s a -> adds_ok (rev (assigned a) ++ s) b -> adds_ok s (a ++ b).
Proof.
  induction a as [|[i r|i r] a IH]; cbn; intros s A B; auto.
  - apply IH; auto. rewrite <- app_assoc in B. exact B.
  - destruct A; split; auto.
Qed.
Lemma assigned_app a b : assigned (a ++ b) = assigned a ++ assigned b.
Proof. apply flat_map_app. Qed.

Lemma run_app a b v : run_writes (a ++ b) v = run_writes b (run_writes a v).
Proof. apply fold_left_app. Qed.

(** Rows that are not assigned keep their value; rows assigned once get the sum of the values. *)
Lemma run_spec ws : forall seen v r, adds_ok seen ws -> NoDup (assigned ws) ->
  (forall i, In i (assigned ws) -> ~ In i seen) ->
  (In r (assigned ws) -> run_writes ws v r = wsum ws r) /\
  (In r seen -> run_writes ws v r = v r + wsum ws r) /\
  (~ In r seen -> ~ In r (assigned ws) -> run_writes ws v r = v r /\ wsum ws r = 0).
Proof.
  induction ws as [|[i x|i x] ws IH]; intros seen v r A ND D.
  - cbn. repeat split; intros; try tauto; lra.
  - cbn [assigned flat_map app] in ND, D. fold (assigned ws) in ND, D.
    inversion ND as [|? ? Hi ND']; subst. cbn [adds_ok] in A.
    destruct (IH (i :: seen) (vset v i x) r A ND') as [H1 [H2 H3]].
    { intros k Hk [->|K]; [auto|]. apply (D k); [right; auto|auto]. }
    cbn [run_writes fold_left run_write]. fold (run_writes ws (vset v i x)).
    cbn [wsum fold_right write_index wval]. fold (wsum ws r).
    cbn [assigned flat_map app]. fold (assigned ws).
    split; [|split].
    + intros [->|K].
      * rewrite H2 by (left; auto). unfold vset. rewrite Nat.eqb_refl. reflexivity.
      * rewrite (H1 K). destruct (Nat.eqb_spec i r) as [->|Ne]; [tauto|ring].
    + intro K. assert (Ne : i <> r) by (intros ->; apply (D r); [left; auto|auto]).
      rewrite H2 by (right; auto). unfold vset.
      destruct (Nat.eqb_spec r i); [congruence|]. destruct (Nat.eqb_spec i r); [congruence|]. ring.
    + intros K1 K2. assert (Ne : i <> r) by (intros ->; apply K2; left; auto).
      destruct H3 as [E1 E2]; [intros [->|K]; auto|intro K; apply K2; right; auto|].
      rewrite E1, E2. unfold vset.
      destruct (Nat.eqb_spec r i); [congruence|]. destruct (Nat.eqb_spec i r); [congruence|]. split; [auto|ring].
  - cbn [assigned flat_map app] in ND, D. fold (assigned ws) in ND, D.
    cbn [adds_ok] in A. destruct A as [Ai A].
    destruct (IH seen (vset v i (v i + x)) r A ND D) as [H1 [H2 H3]].
    cbn [run_writes fold_left run_write]. fold (run_writes ws (vset v i (v i + x))).
    cbn [wsum fold_right write_index wval]. fold (wsum ws r).
    cbn [assigned flat_map app]. fold (assigned ws).
    split; [|split].
    + intro K. rewrite (H1 K). assert (Ne : i <> r) by (intros ->; apply (D r); auto).
      destruct (Nat.eqb_spec i r); [congruence|ring].
    + intro K. rewrite (H2 K). unfold vset.
      destruct (Nat.eqb_spec r i) as [->|Ne]; [rewrite Nat.eqb_refl; ring|].
      destruct (Nat.eqb_spec i r); [congruence|ring].
    + intros K1 K2. assert (Ne : i <> r) by (intros ->; auto).
      destruct (H3 K1 K2) as [E1 E2]. rewrite E1, E2. unfold vset.
      destruct (Nat.eqb_spec r i); [congruence|]. destruct (Nat.eqb_spec i r); [congruence|]. split; [auto|ring].
Qed.

Lemma run_assigned ws v r :
  adds_ok [] ws -> NoDup (assigned ws) -> In r (assigned ws) -> run_writes ws v r = wsum ws r.
Proof. intros A N H. apply (run_spec ws [] v r A N); auto. Qed.
Lemma run_other ws v r :
  adds_ok [] ws -> NoDup (assigned ws) -> ~ In r (assigned ws) -> run_writes ws v r = v r.
Proof. intros A N H. apply (run_spec ws [] v r A N); auto. Qed.
Lemma adds_ok_index ws : forall s w, adds_ok s ws -> In w ws ->
  In (write_index w) (assigned ws) \/ In (write_index w) s.
Proof.
  induction ws as [|[i x|i x] ws IH]; intros s w A K; [destruct K|destruct K as [E|K]|destruct K as [E|K]].
  - subst w. left. cbn. auto.
  - cbn [adds_ok] in A. destruct (IH _ w A K) as [H|[H|H]]; cbn.
    + left. right. exact H.
    + left. left. auto.
    + right. exact H.
  - subst w. right. cbn in *. tauto.
  - destruct A as [Ai A]. destruct (IH _ w A K) as [H|H]; cbn; auto.
Qed.

(** ** Sums of contributions *)
Definition tdot (ts : list entry) (r : nat) (dx : vec) : R :=
  fold_right (fun t acc => (if Nat.eqb (fst (fst t)) r then snd t * dx (snd (fst t)) else 0) + acc) 0 ts.
Definition cols_lt (n : nat) (ts : list entry) : Prop :=
  forall t, In t ts -> (snd (fst t) < n)%nat.
Lemma tdot_cons t ts r dx : tdot (t :: ts) r dx =
  (if Nat.eqb (fst (fst t)) r then snd t * dx (snd (fst t)) else 0) + tdot ts r dx.
Proof. reflexivity. Qed.
Lemma tdot_app a b r dx : tdot (a ++ b) r dx = tdot a r dx + tdot b r dx.
Proof.
  induction a as [|w a IH]; [symmetry; apply Rplus_0_l|].
  rewrite <- app_comm_cons, !tdot_cons, IH. ring.
Qed.
Lemma tdot_matrix n ts r dx :
  cols_lt n ts -> vsum n (fun c => matrix_of ts r c * dx c) = tdot ts r dx.
Proof.
  induction ts as [|[[r' c'] v] ts IH]; intro H; cbn [tdot fold_right fst snd].
  - rewrite (vsum_ext _ _ (fun _ => 0)); [apply vsum_zero|]. intros; cbn. ring.
  - fold (tdot ts r dx). rewrite <- IH by (intros t Ht; apply H; right; auto).
    assert (Hc : (c' < n)%nat) by (apply (H (r', c', v)); left; auto).
    rewrite (vsum_ext _ _ (fun c => (if Nat.eqb c c' then 1 else 0) * ((if Nat.eqb r' r then v else 0) * dx c)
                             + matrix_of ts r c * dx c)).
    + rewrite vsum_plus, vsum_delta by auto. f_equal. destruct (Nat.eqb r' r); ring.
    + intros c _. cbn [matrix_of fold_right fst snd]. fold (matrix_of ts r c).
      destruct (Nat.eqb_spec c c') as [->|Ne].
      * rewrite Nat.eqb_refl, Bool.andb_true_r. ring.
      * destruct (Nat.eqb_spec c' c); [congruence|]. rewrite Bool.andb_false_r. ring.
Qed.
Lemma gradient_entries n f u ts r :
  cols_lt n ts ->
  (forall x s dx, curve_at x s u dx -> is_derive (fun t => f (x t)) s (tdot ts r dx)) ->
  gradient n f u (matrix_of ts r).
Proof.
  intros Hc H x s dx Hx. eapply is_derive_value; [apply (H x s dx Hx)|].
  symmetry. apply tdot_matrix, Hc.
Qed.
Lemma cols_lt_app n a b : cols_lt n a -> cols_lt n b -> cols_lt n (a ++ b).
Proof. intros A B t Ht. apply in_app_iff in Ht. destruct Ht; auto. Qed.
Lemma cols_lt_nil n : cols_lt n [].
Proof. intros t []. Qed.
Lemma cols_lt_cons n r c v ts : (c < n)%nat -> cols_lt n ts -> cols_lt n ((r, c, v) :: ts).
Proof. intros H A t [<-|Ht]; auto. Qed.

(** ** A component whose Jacobian contributions are right *)
Definition near (d : R) (u x : vec) : Prop := forall k, Rabs (x k - u k) < d.
Definition jac_ok (n : nat) (rows : list nat) (ev : vec -> outcome (list write)) (u : vec)
    (dj : outcome (list entry)) : Prop :=
  exists W ts d, 0 < d /\ (forall x, near d u x -> ev x = Ok (W x)) /\
    dj = Ok ts /\ cols_lt n ts /\
    (forall x, assigned (W x) = rows /\ adds_ok [] (W x)) /\
    forall r x s dx, curve_at x s u dx -> is_derive (fun t => wsum (W (x t)) r) s (tdot ts r dx).

Lemma jac_ok_ext n rows ev ev' u dj :
  (forall x, ev' x = ev x) -> jac_ok n rows ev u dj -> jac_ok n rows ev' u dj.
Proof.
  intros E [W [ts [d [Hd [H1 H2]]]]]. exists W, ts, d. split; [auto|]. split; [|auto].
  intros x Hx. rewrite E. auto.
Qed.
Lemma jac_ok_rows n rows rows' ev u dj : rows = rows' -> jac_ok n rows ev u dj -> jac_ok n rows' ev u dj.
Proof. intros ->. auto. Qed.
(** A residual that does not depend on the argument needs no contributions. *)
Lemma jac_ok_const n rows ws u : assigned ws = rows -> adds_ok [] ws ->
  jac_ok n rows (fun _ => Ok ws) u (Ok []).
Proof.
  intros H1 H2. exists (fun _ => ws), [], 1. split; [lra|]. split; [auto|]. split; [auto|].
  split; [apply cols_lt_nil|]. split; [auto|]. intros r x s dx _. cbn. apply (is_derive_const (wsum ws r : R)).
Qed.
Lemma jac_ok_nil n u : jac_ok n [] (fun _ => Ok []) u (Ok []).
Proof. apply jac_ok_const; cbn; auto. Qed.
Lemma jac_ok_app n r1 r2 ev1 ev2 u dj1 dj2 :
  jac_ok n r1 ev1 u dj1 -> jac_ok n r2 ev2 u dj2 ->
  jac_ok n (r1 ++ r2) (fun x => oapp (ev1 x) (ev2 x)) u (oapp dj1 dj2).
Proof.
  intros [W1 [t1 [d1 [P1 [E1 [D1 [C1 [A1 G1]]]]]]]] [W2 [t2 [d2 [P2 [E2 [D2 [C2 [A2 G2]]]]]]]].
  exists (fun x => W1 x ++ W2 x), (t1 ++ t2), (Rmin d1 d2).
  split; [apply Rmin_glb_lt; auto|]. split.
  { intros x Hx. rewrite E1, E2; [reflexivity| |].
    - intro k. pose proof (Hx k). pose proof (Rmin_r d1 d2). lra.
    - intro k. pose proof (Hx k). pose proof (Rmin_l d1 d2). lra. }
  split; [rewrite D1, D2; reflexivity|]. split; [apply cols_lt_app; auto|]. split.
  { intro x. destruct (A1 x), (A2 x). split; [rewrite assigned_app; congruence|apply adds_ok_app; auto]. }
  intros r x s dx Hx. rewrite tdot_app.
  apply (is_derive_ext (fun t => wsum (W1 (x t)) r + wsum (W2 (x t)) r)).
  { intro t. cbn. symmetry. apply wsum_app. }
  apply (is_derive_plus (fun t => wsum (W1 (x t)) r) (fun t => wsum (W2 (x t)) r)); auto.
Qed.
Lemma jac_ok_concat n A (rows : A -> list nat) (f : A -> vec -> outcome (list write))
    (g : A -> outcome (list entry)) u l :
  (forall a, In a l -> jac_ok n (rows a) (f a) u (g a)) ->
  jac_ok n (flat_map rows l) (fun x => oconcat (map (fun a => f a x) l)) u (oconcat (map g l)).
Proof.
  induction l as [|a l IH]; intro H; cbn [map oconcat fold_right flat_map].
  - apply jac_ok_nil.
  - apply jac_ok_app; [apply H; left; auto|]. apply IH. intros; apply H; right; auto.
Qed.

(** ** Power nodes *)
Definition Pterm (VI PI : nat) (t : R * R * nat) (x : vec) : R :=
  match t with (G, B, k) =>
    x VI * x k * (G * cos (x PI - x (k + 1)%nat) + B * sin (x PI - x (k + 1)%nat)) end.
Definition Qterm (VI PI : nat) (t : R * R * nat) (x : vec) : R :=
  match t with (G, B, k) =>
    x VI * x k * (G * sin (x PI - x (k + 1)%nat) - B * cos (x PI - x (k + 1)%nat)) end.
Definition lines_known (ls : list (R * R * option nat)) (l : list (R * R * nat)) : Prop :=
  ls = map (fun t => (fst t, Some (snd t))) l.
Definition Pval (n : powernode) (l : list (R * R * nat)) (x : vec) : R :=
  pn_G n * x (pn_start n) * x (pn_start n) + rsum (fun t => Pterm (pn_start n) (pn_start n + 1) t x) l.
Definition Qval (n : powernode) (l : list (R * R * nat)) (x : vec) : R :=
  - (pn_B n * x (pn_start n) * x (pn_start n)) + rsum (fun t => Qterm (pn_start n) (pn_start n + 1) t x) l.

Lemma P_ok n l x : lines_known (pn_lines n) l -> P n x = Ok (Pval n l x).
Proof.
  unfold lines_known, P, Pval. intros ->.
  rewrite <- (Rplus_0_l (pn_G n * x (pn_start n) * x (pn_start n) +
    rsum (fun t => Pterm (pn_start n) (pn_start n + 1) t x) l)), <- Rplus_assoc.
  generalize (0 + pn_G n * x (pn_start n) * x (pn_start n)).
  induction l as [|[[G B] k] l IH]; intro a; cbn [map P_loop fst snd rsum].
  - rewrite Rplus_0_r. reflexivity.
  - cbn [other_start obind]. rewrite IH. f_equal. unfold Pterm at 2. ring.
Qed.
Lemma Q_ok n l x : lines_known (pn_lines n) l -> Q n x = Ok (Qval n l x).
Proof.
  unfold lines_known, Q, Qval. intros ->.
  replace (- (pn_B n * x (pn_start n) * x (pn_start n))) with (0 - pn_B n * x (pn_start n) * x (pn_start n)) by ring.
  generalize (0 - pn_B n * x (pn_start n) * x (pn_start n)).
  induction l as [|[[G B] k] l IH]; intro a; cbn [map Q_loop fst snd rsum].
  - rewrite Rplus_0_r. reflexivity.
  - cbn [other_start obind]. rewrite IH. f_equal. unfold Qterm at 2. ring.
Qed.

Definition Pline_entries (row VI PI : nat) (x : vec) (t : R * R * nat) : list entry :=
  match t with (G_ik, B_ik, k) =>
    let phi_ik := x PI - x (k + 1)%nat in
    [(row, VI, x k * (G_ik * cos phi_ik + B_ik * sin phi_ik));
     (row, PI, x VI * x k * (- G_ik * sin phi_ik + B_ik * cos phi_ik));
     (row, k, x VI * (G_ik * cos phi_ik + B_ik * sin phi_ik));
     (row, (k + 1)%nat, x VI * x k * (G_ik * sin phi_ik - B_ik * cos phi_ik))] end.
Definition Qline_entries (row VI PI : nat) (x : vec) (t : R * R * nat) : list entry :=
  match t with (G_ik, B_ik, k) =>
    let phi_ik := x PI - x (k + 1)%nat in
    [(row, VI, x k * (G_ik * sin phi_ik - B_ik * cos phi_ik));
     (row, PI, x VI * x k * (G_ik * cos phi_ik + B_ik * sin phi_ik));
     (row, k, x VI * (G_ik * sin phi_ik - B_ik * cos phi_ik));
     (row, (k + 1)%nat, x VI * x k * (- G_ik * cos phi_ik - B_ik * sin phi_ik))] end.
Definition P_entries (n : powernode) (l : list (R * R * nat)) (row : nat) (x : vec) : list entry :=
  [(row, pn_start n, 2 * pn_G n * x (pn_start n)); (row, (pn_start n + 1)%nat, 0)]
  ++ flat_map (Pline_entries row (pn_start n) (pn_start n + 1) x) l.
Definition Q_entries (n : powernode) (l : list (R * R * nat)) (row : nat) (x : vec) : list entry :=
  [(row, pn_start n, - 2 * pn_B n * x (pn_start n)); (row, (pn_start n + 1)%nat, 0)]
  ++ flat_map (Qline_entries row (pn_start n) (pn_start n + 1) x) l.

Lemma dP_ok n l row x : lines_known (pn_lines n) l ->
  evaluate_P_derivative n row x = Ok (P_entries n l row x).
Proof.
  unfold lines_known, evaluate_P_derivative, P_entries. intros ->. unfold oapp at 1. cbn [obind].
  match goal with |- obind ?a _ = _ => assert (E : a = Ok (flat_map (Pline_entries row (pn_start n) (pn_start n + 1) x) l)) end.
  { induction l as [|[[G B] k] l IH]; cbn [map oconcat fold_right fst snd flat_map].
    - reflexivity.
    - unfold oconcat in IH. rewrite IH. reflexivity. }
  rewrite E. reflexivity.
Qed.
Lemma dQ_ok n l row x : lines_known (pn_lines n) l ->
  evaluate_Q_derivative n row x = Ok (Q_entries n l row x).
Proof.
  unfold lines_known, evaluate_Q_derivative, Q_entries. intros ->. unfold oapp at 1. cbn [obind].
  match goal with |- obind ?a _ = _ => assert (E : a = Ok (flat_map (Qline_entries row (pn_start n) (pn_start n + 1) x) l)) end.
  { induction l as [|[[G B] k] l IH]; cbn [map oconcat fold_right fst snd flat_map].
    - reflexivity.
    - unfold oconcat in IH. rewrite IH. reflexivity. }
  rewrite E. reflexivity.
Qed.

(** Curves: rewriting the value of a curve at its base point. *)
Ltac at_point Hx := repeat rewrite ?(Hx _).


Lemma line_P_derive (f1 f2 f3 f4 : R -> R) G B s d1 d2 d3 d4 :
  is_derive f1 s d1 -> is_derive f2 s d2 -> is_derive f3 s d3 -> is_derive f4 s d4 ->
  is_derive (fun r => f1 r * f3 r * (G * cos (f2 r - f4 r) + B * sin (f2 r - f4 r))) s
   (f3 s * (G * cos (f2 s - f4 s) + B * sin (f2 s - f4 s)) * d1
    + (f1 s * f3 s * (- G * sin (f2 s - f4 s) + B * cos (f2 s - f4 s)) * d2
    + (f1 s * (G * cos (f2 s - f4 s) + B * sin (f2 s - f4 s)) * d3
    + (f1 s * f3 s * (G * sin (f2 s - f4 s) - B * cos (f2 s - f4 s)) * d4 + 0)))).
Proof.
  intros D1 D2 D3 D4. auto_derive; [repeat split; eexists; eauto|].
  replace (Derive (fun x : R => f1 x) s) with d1 by (symmetry; apply is_derive_unique; exact D1).
  replace (Derive (fun x : R => f2 x) s) with d2 by (symmetry; apply is_derive_unique; exact D2).
  replace (Derive (fun x : R => f3 x) s) with d3 by (symmetry; apply is_derive_unique; exact D3).
  replace (Derive (fun x : R => f4 x) s) with d4 by (symmetry; apply is_derive_unique; exact D4).
  unfold Rminus. ring.
Qed.
Lemma line_Q_derive (f1 f2 f3 f4 : R -> R) G B s d1 d2 d3 d4 :
  is_derive f1 s d1 -> is_derive f2 s d2 -> is_derive f3 s d3 -> is_derive f4 s d4 ->
  is_derive (fun r => f1 r * f3 r * (G * sin (f2 r - f4 r) - B * cos (f2 r - f4 r))) s
   (f3 s * (G * sin (f2 s - f4 s) - B * cos (f2 s - f4 s)) * d1
    + (f1 s * f3 s * (G * cos (f2 s - f4 s) + B * sin (f2 s - f4 s)) * d2
    + (f1 s * (G * sin (f2 s - f4 s) - B * cos (f2 s - f4 s)) * d3
    + (f1 s * f3 s * (- G * cos (f2 s - f4 s) - B * sin (f2 s - f4 s)) * d4 + 0)))).
Proof.
  intros D1 D2 D3 D4. auto_derive; [repeat split; eexists; eauto|].
  replace (Derive (fun x : R => f1 x) s) with d1 by (symmetry; apply is_derive_unique; exact D1).
  replace (Derive (fun x : R => f2 x) s) with d2 by (symmetry; apply is_derive_unique; exact D2).
  replace (Derive (fun x : R => f3 x) s) with d3 by (symmetry; apply is_derive_unique; exact D3).
  replace (Derive (fun x : R => f4 x) s) with d4 by (symmetry; apply is_derive_unique; exact D4).
  unfold Rminus. ring.
Qed.
Lemma Pline_derive VI PI t row x s u dx : curve_at x s u dx ->
  is_derive (fun r => Pterm VI PI t (x r)) s (tdot (Pline_entries row VI PI u t) row dx).
Proof.
  intros [Hx Hd]. destruct t as [[G B] k]. unfold Pterm, Pline_entries.
  cbn [tdot fold_right fst snd]. rewrite !Nat.eqb_refl. rewrite <- !Hx.
  apply (line_P_derive (fun r => x r VI) (fun r => x r PI) (fun r => x r k) (fun r => x r (k + 1)%nat)); apply Hd.
Qed.
Lemma Qline_derive VI PI t row x s u dx : curve_at x s u dx ->
  is_derive (fun r => Qterm VI PI t (x r)) s (tdot (Qline_entries row VI PI u t) row dx).
Proof.
  intros [Hx Hd]. destruct t as [[G B] k]. unfold Qterm, Qline_entries.
  cbn [tdot fold_right fst snd]. rewrite !Nat.eqb_refl. rewrite <- !Hx.
  apply (line_Q_derive (fun r => x r VI) (fun r => x r PI) (fun r => x r k) (fun r => x r (k + 1)%nat)); apply Hd.
Qed.

Lemma rsum_derive A (f : A -> vec -> R) (g : A -> list entry) row l x s dx :
  (forall a, In a l -> is_derive (fun r => f a (x r)) s (tdot (g a) row dx)) ->
  is_derive (fun r => rsum (fun a => f a (x r)) l) s (tdot (flat_map g l) row dx).
Proof.
  induction l as [|a l IH]; intro H; cbn [rsum flat_map].
  - apply (is_derive_const (0 : R)).
  - rewrite tdot_app.
    apply (is_derive_plus (fun r => f a (x r)) (fun r => rsum (fun a => f a (x r)) l)).
    + apply H; left; auto.
    + apply IH. intros; apply H; right; auto.
Qed.

Lemma square_derive_R (f : R -> R) c s d :
  is_derive f s d -> is_derive (fun r => c * f r * f r) s (2 * c * f s * d).
Proof.
  intro D. auto_derive; [repeat split; eexists; eauto|].
  replace (Derive (fun x : R => f x) s) with d by (symmetry; apply is_derive_unique; exact D).
  ring.
Qed.
Lemma square_derive c i (x : R -> vec) s u dx : curve_at x s u dx ->
  is_derive (fun r => c * x r i * x r i) s (2 * c * u i * dx i).
Proof.
  intros [Hx Hd]. rewrite <- Hx. apply (square_derive_R (fun r => x r i)). apply Hd.
Qed.

Lemma P_derive n l row x s u dx : curve_at x s u dx ->
  is_derive (fun r => Pval n l (x r)) s (tdot (P_entries n l row u) row dx).
Proof.
  intro Hx. unfold Pval, P_entries. rewrite tdot_app.
  eapply is_derive_value.
  { apply (is_derive_plus (fun r => pn_G n * x r (pn_start n) * x r (pn_start n))
     (fun r => rsum (fun t => Pterm (pn_start n) (pn_start n + 1) t (x r)) l)).
    - apply (square_derive (pn_G n) (pn_start n) x s u dx Hx).
    - apply (rsum_derive _ (Pterm (pn_start n) (pn_start n + 1))
             (Pline_entries row (pn_start n) (pn_start n + 1) u) row).
      intros a _. apply Pline_derive. exact Hx. }
  rewrite !tdot_cons. cbn [fst snd]. rewrite Nat.eqb_refl. change (tdot [] row dx) with 0.
  match goal with |- @eq _ (plus ?a ?b) ?c => change (@eq R (a + b) c) end. ring.
Qed.
Lemma Q_derive n l row x s u dx : curve_at x s u dx ->
  is_derive (fun r => Qval n l (x r)) s (tdot (Q_entries n l row u) row dx).
Proof.
  intro Hx. unfold Qval, Q_entries. rewrite tdot_app.
  apply (is_derive_ext (fun r => - pn_B n * x r (pn_start n) * x r (pn_start n) +
     rsum (fun t => Qterm (pn_start n) (pn_start n + 1) t (x r)) l)).
  { intro r. cbn. ring. }
  eapply is_derive_value.
  { apply (is_derive_plus (fun r => - pn_B n * x r (pn_start n) * x r (pn_start n))
     (fun r => rsum (fun t => Qterm (pn_start n) (pn_start n + 1) t (x r)) l)).
    - apply (square_derive (- pn_B n) (pn_start n) x s u dx Hx).
    - apply (rsum_derive _ (Qterm (pn_start n) (pn_start n + 1))
             (Qline_entries row (pn_start n) (pn_start n + 1) u) row).
      intros a _. apply Qline_derive. exact Hx. }
  rewrite !tdot_cons. cbn [fst snd]. rewrite Nat.eqb_refl. change (tdot [] row dx) with 0.
  match goal with |- @eq _ (plus ?a ?b) ?c => change (@eq R (a + b) c) end. ring.
Qed.

Definition rows_in (row : nat) (ts : list entry) : Prop := forall t, In t ts -> fst (fst t) = row.
Lemma tdot_other row ts r dx : rows_in row ts -> r <> row -> tdot ts r dx = 0.
Proof.
  intros H Ne. induction ts as [|t ts IH]; [reflexivity|]. rewrite tdot_cons.
  rewrite IH by (intros a Ha; apply H; right; auto).
  rewrite (H t) by (left; auto). destruct (Nat.eqb_spec row r); [congruence|ring].
Qed.
Lemma rows_in_app row a b : rows_in row a -> rows_in row b -> rows_in row (a ++ b).
Proof. intros A B t Ht. apply in_app_iff in Ht. destruct Ht; auto. Qed.
Lemma rows_in_nil row : rows_in row [].
Proof. intros t []. Qed.
Lemma rows_in_cons row c v ts : rows_in row ts -> rows_in row ((row, c, v) :: ts).
Proof. intros A t [<-|Ht]; auto. Qed.
Lemma rows_in_flat A (f : A -> list entry) l row : (forall a, In a l -> rows_in row (f a)) -> rows_in row (flat_map f l).
Proof. intros H t Ht. apply in_flat_map in Ht. destruct Ht as [a [Ha Ht]]. eapply H; eauto. Qed.
Lemma cols_lt_flat A (f : A -> list entry) l n : (forall a, In a l -> cols_lt n (f a)) -> cols_lt n (flat_map f l).
Proof. intros H t Ht. apply in_flat_map in Ht. destruct Ht as [a [Ha Ht]]. eapply H; eauto. Qed.
#[export] Hint Resolve rows_in_nil rows_in_cons rows_in_app cols_lt_nil cols_lt_cons cols_lt_app : net.

Definition known_in (n : nat) (l : list (R * R * nat)) : Prop := forall t, In t l -> (snd t + 2 <= n)%nat.
Lemma P_entries_rows n l row u : rows_in row (P_entries n l row u).
Proof.
  unfold P_entries. apply rows_in_app; [auto with net|]. apply rows_in_flat.
  intros [[G B] k] _. unfold Pline_entries. cbv zeta. auto 8 with net.
Qed.
Lemma Q_entries_rows n l row u : rows_in row (Q_entries n l row u).
Proof.
  unfold Q_entries. apply rows_in_app; [auto with net|]. apply rows_in_flat.
  intros [[G B] k] _. unfold Qline_entries. cbv zeta. auto 8 with net.
Qed.
Lemma P_entries_cols m n l row u :
  (pn_start n + 2 <= m)%nat -> known_in m l -> cols_lt m (P_entries n l row u).
Proof.
  intros H K. unfold P_entries. apply cols_lt_app.
  { repeat apply cols_lt_cons; auto with net; lia. }
  apply cols_lt_flat. intros [[G B] k] Hk. apply K in Hk. cbn [snd] in Hk.
  unfold Pline_entries. cbv zeta. repeat apply cols_lt_cons; auto with net; lia.
Qed.
Lemma Q_entries_cols m n l row u :
  (pn_start n + 2 <= m)%nat -> known_in m l -> cols_lt m (Q_entries n l row u).
Proof.
  intros H K. unfold Q_entries. apply cols_lt_app.
  { repeat apply cols_lt_cons; auto with net; lia. }
  apply cols_lt_flat. intros [[G B] k] Hk. apply K in Hk. cbn [snd] in Hk.
  unfold Qline_entries. cbv zeta. repeat apply cols_lt_cons; auto with net; lia.
Qed.

(** One row with all its contributions. *)
Lemma jac_row n row f u ts :
  rows_in row ts -> cols_lt n ts ->
  (forall x s dx, curve_at x s u dx -> is_derive (fun t => f (x t)) s (tdot ts row dx)) ->
  jac_ok n [row] (fun x => Ok [Assign row (f x)]) u (Ok ts).
Proof.
  intros HR HC HG. exists (fun x => [Assign row (f x)]), ts, 1.
  split; [lra|]. split; [auto|]. split; [auto|]. split; [auto|]. split; [cbn; auto|].
  intros r x s dx Hx. destruct (Nat.eq_dec r row) as [->|Ne].
  - apply (is_derive_ext (fun t => f (x t))).
    { intro t. cbn. rewrite Nat.eqb_refl. symmetry. apply Rplus_0_r. }
    apply HG. exact Hx.
  - rewrite (tdot_other row) by auto.
    apply (is_derive_ext (fun _ => 0)).
    { intro t. cbn. destruct (Nat.eqb_spec row r); [congruence|]. symmetry. apply Rplus_0_r. }
    apply (is_derive_const (0 : R)).
Qed.

Lemma derive_minus_const (f : R -> R) s a c : is_derive f s a -> is_derive (fun t => f t - c) s a.
Proof.
  intro H. eapply is_derive_value.
  { apply (is_derive_minus f (fun _ => c)); [exact H|apply (is_derive_const (c : R))]. }
  match goal with |- minus ?a zero = ?c => change (a - 0 = c) end. ring.
Qed.

Lemma power_jac m k n l b1 b2 u :
  lines_known (pn_lines n) l -> (pn_start n + 2 <= m)%nat -> known_in m l ->
  jac_ok m [pn_start n; (pn_start n + 1)%nat] (power_evaluate k n b1 b2) u (power_d_new_state k n u).
Proof.
  intros HL Hs HK.
  assert (JP : jac_ok m [pn_start n] (fun x => Ok [Assign (pn_start n) (Pval n l x - b1)]) u
                 (evaluate_P_derivative n (pn_start n) u)).
  { rewrite (dP_ok n l) by auto. apply (jac_row m (pn_start n)); auto with net.
    - apply P_entries_rows.
    - apply P_entries_cols; auto.
    - intros x s dx Hx. apply derive_minus_const, P_derive. auto. }
  assert (JC : forall row i b, (i < m)%nat -> jac_ok m [row] (fun x => Ok [Assign row (x i - b)]) u (Ok [(row, i, 1)])).
  { intros row i b Hi. apply (jac_row m row); auto with net.
    intros x s dx [Hx Hd]. apply derive_minus_const. eapply is_derive_value; [apply Hd|].
    cbn. rewrite Nat.eqb_refl. ring. }
  unfold power_evaluate, power_d_new_state. destruct k; cbv zeta.
  - apply (jac_ok_ext m [pn_start n; (pn_start n + 1)%nat] (fun x => oapp (Ok [Assign (pn_start n) (Pval n l x - b1)])
                                   (Ok [Assign (pn_start n + 1)%nat (Qval n l x - b2)]))).
    { intro x. rewrite (P_ok n l), (Q_ok n l) by auto. reflexivity. }
    apply (jac_ok_app m [pn_start n] [(pn_start n + 1)%nat]); [exact JP|].
    rewrite (dQ_ok n l) by auto.
    apply (jac_row m (pn_start n + 1)); auto with net.
    + apply Q_entries_rows.
    + apply Q_entries_cols; auto.
    + intros x s dx Hx. apply derive_minus_const, Q_derive. auto.
  - apply (jac_ok_ext m [pn_start n; (pn_start n + 1)%nat] (fun x => oapp (Ok [Assign (pn_start n) (Pval n l x - b1)])
                                   (Ok [Assign (pn_start n + 1)%nat (x (pn_start n) - b2)]))).
    { intro x. rewrite (P_ok n l) by auto. reflexivity. }
    apply (jac_ok_app m [pn_start n] [(pn_start n + 1)%nat]); [exact JP|]. apply JC. lia.
  - apply (jac_ok_app m [pn_start n] [(pn_start n + 1)%nat] (fun x => Ok [Assign (pn_start n) (x (pn_start n) - b1)])
             (fun x => Ok [Assign (pn_start n + 1)%nat (x (pn_start n + 1)%nat - b2)]) u
             (Ok [(pn_start n, pn_start n, 1)]) (Ok [((pn_start n + 1)%nat, (pn_start n + 1)%nat, 1)])).
    + apply JC. lia.
    + apply JC. lia.
Qed.
