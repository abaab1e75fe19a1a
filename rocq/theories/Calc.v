(** * Derivatives of vector functions, used by the specifications

    A vector is a function from indices to reals.  Derivatives are stated along arbitrary
    differentiable curves, which contains every directional derivative. *)
From Coq Require Import Reals Lra Lia.
From Coquelicot Require Import Coquelicot.
Local Open Scope R_scope.

Definition vec := nat -> R.
Definition mat := nat -> nat -> R.

Fixpoint vsum (n : nat) (f : nat -> R) : R :=
  match n with O => 0 | S n' => vsum n' f + f n' end.

(** [x] is a curve through [u] at parameter [s] with velocity [dx]. *)
Definition curve_at (x : R -> vec) (s : R) (u dx : vec) : Prop :=
  (forall k, x s k = u k) /\ forall k, is_derive (fun r => x r k) s (dx k).

(** [g] is the gradient of [f] at [u]; only the first [n] components of a vector matter. *)
Definition gradient (n : nat) (f : vec -> R) (u : vec) (g : vec) : Prop :=
  forall x s dx, curve_at x s u dx ->
    is_derive (fun r => f (x r)) s (vsum n (fun j => g j * dx j)).

(** [J] is the Jacobian of [f] at [u], with [m] rows and [n] columns. *)
Definition jacobian (m n : nat) (f : vec -> vec) (u : vec) (J : mat) : Prop :=
  forall i, (i < m)%nat -> gradient n (fun x => f x i) u (J i).

Lemma vsum_ext n f g : (forall k, (k < n)%nat -> f k = g k) -> vsum n f = vsum n g.
Proof. induction n; simpl; intros H; [auto|]. rewrite IHn, H; auto. Qed.
Lemma vsum_plus n f g : vsum n (fun k => f k + g k) = vsum n f + vsum n g.
Proof. induction n; simpl; [ring|]. rewrite IHn. ring. Qed.
Lemma vsum_scal n c f : vsum n (fun k => c * f k) = c * vsum n f.
Proof. induction n; simpl; [ring|]. rewrite IHn. ring. Qed.
Lemma vsum_zero n : vsum n (fun _ => 0) = 0.
Proof. induction n; simpl; [auto|]. rewrite IHn; ring. Qed.
Lemma vsum_delta n i c : (i < n)%nat -> vsum n (fun k => (if Nat.eqb k i then 1 else 0) * c k) = c i.
Proof.
  induction n; simpl; intros H; [lia|].
  destruct (Nat.eqb_spec n i) as [->|N].
  - rewrite (vsum_ext i _ (fun _ => 0)).
    + rewrite vsum_zero. ring.
    + intros k Hk. destruct (Nat.eqb_spec k i); [lia|ring].
  - rewrite IHn by lia. ring.
Qed.

Lemma is_derive_value (f : R -> R) (x l l' : R) : is_derive f x l -> @eq R l l' -> is_derive f x l'.
Proof. intros H <-; exact H. Qed.

(** Two differentiable pieces with the same value and derivative at the seam. *)
Lemma is_derive_glue (f g1 g2 : R -> R) c d l :
  0 < d ->
  (forall x, c - d < x <= c -> f x = g1 x) ->
  (forall x, c <= x < c + d -> f x = g2 x) ->
  is_derive g1 c l -> is_derive g2 c l -> is_derive f c l.
Proof.
  intros Hd H1 H2 D1 D2. apply is_derive_Reals. apply is_derive_Reals in D1, D2.
  intros e He. destruct (D1 e He) as [d1 K1], (D2 e He) as [d2 K2].
  set (m := Rmin d (Rmin d1 d2)).
  assert (Hm : 0 < m).
  { unfold m. apply Rmin_glb_lt; [auto|]. apply Rmin_glb_lt; [apply d1|apply d2]. }
  exists (mkposreal m Hm). intros h Hh0 Hh. cbn in Hh.
  assert (m <= d /\ m <= d1 /\ m <= d2) as [M1 [M2 M3]].
  { unfold m. pose proof (Rmin_l d (Rmin d1 d2)). pose proof (Rmin_r d (Rmin d1 d2)).
    pose proof (Rmin_l d1 d2). pose proof (Rmin_r d1 d2). lra. }
  destruct (Rle_dec h 0) as [N|N].
  - rewrite (H1 (c + h)), (H1 c) by (rewrite Rabs_left1 in Hh; lra).
    apply K1; [auto|lra].
  - rewrite (H2 (c + h)), (H2 c) by (rewrite Rabs_pos_eq in Hh; lra).
    apply K2; [auto|lra].
Qed.

Lemma continuous_glue (f g1 g2 : R -> R) c d :
  0 < d ->
  (forall x, c - d < x <= c -> f x = g1 x) ->
  (forall x, c <= x < c + d -> f x = g2 x) ->
  continuous g1 c -> continuous g2 c -> continuous f c.
Proof.
  intros Hd H1 H2 D1 D2.
  apply continuity_pt_filterlim. apply continuity_pt_filterlim in D1, D2.
  intros e He. destruct (D1 e He) as [d1 [P1 K1]], (D2 e He) as [d2 [P2 K2]].
  exists (Rmin d (Rmin d1 d2)).
  assert (Hm : 0 < Rmin d (Rmin d1 d2)).
  { apply Rmin_glb_lt; [auto|]. apply Rmin_glb_lt; auto. }
  split; [exact Hm|]. intros x [Hx Hh].
  pose proof (Rmin_l d (Rmin d1 d2)). pose proof (Rmin_r d (Rmin d1 d2)).
  pose proof (Rmin_l d1 d2). pose proof (Rmin_r d1 d2).
  cbn in *. unfold R_dist in *.
  destruct (Rle_dec x c) as [N|N].
  - assert (c - d < x) by (apply Rabs_def2 in Hh; lra).
    rewrite (H1 x), (H1 c) by lra. apply K1. split; [auto|lra].
  - assert (x < c + d) by (apply Rabs_def2 in Hh; lra).
    rewrite (H2 x), (H2 c) by lra. apply K2. split; [auto|lra].
Qed.

Lemma is_derive_ext_near (f g : R -> R) x d l :
  0 < d -> (forall y, x - d < y < x + d -> g y = f y) -> is_derive g x l -> is_derive f x l.
Proof.
  intros Hd H. apply is_derive_ext_loc. exists (mkposreal d Hd). intros y Hy.
  apply H. cbn in Hy. unfold ball in Hy; cbn in Hy. unfold AbsRing_ball, abs, minus, plus, opp in Hy; cbn in Hy.
  apply Rabs_def2 in Hy. lra.
Qed.

Lemma continuous_ext_near (f g : R -> R) x d :
  0 < d -> (forall y, x - d < y < x + d -> g y = f y) -> continuous g x -> continuous f x.
Proof.
  intros Hd H. apply continuous_ext_loc. exists (mkposreal d Hd). intros y Hy.
  apply H. cbn in Hy. unfold ball in Hy; cbn in Hy. unfold AbsRing_ball, abs, minus, plus, opp in Hy; cbn in Hy.
  apply Rabs_def2 in Hy. lra.
Qed.

Lemma is_derive_continuous (f : R -> R) x l : is_derive f x l -> continuous f x.
Proof. intro H. apply (ex_derive_continuous f x). exists l. exact H. Qed.

(** A gradient contains the partial derivatives. *)
Definition vset (u : vec) (i : nat) (r : R) : vec := fun k => if Nat.eqb k i then r else u k.
Lemma curve_vset u i : curve_at (vset u i) (u i) u (fun k => if Nat.eqb k i then 1 else 0).
Proof.
  split; intro k; unfold vset; destruct (Nat.eqb_spec k i) as [->|N]; auto.
  - auto_derive; auto.
  - auto_derive; auto.
Qed.
Lemma gradient_partial n f u g i :
  gradient n f u g -> (i < n)%nat -> is_derive (fun r => f (vset u i r)) (u i) (g i).
Proof.
  intros H Hi. eapply is_derive_value; [apply (H _ _ _ (curve_vset u i))|].
  rewrite (vsum_ext _ _ (fun k => (if Nat.eqb k i then 1 else 0) * g k)) by (intros; ring).
  apply vsum_delta. exact Hi.
Qed.
