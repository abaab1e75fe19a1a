(** * Convergence of the Newton solver: matrices that differ from the derivative *)
From Coq Require Import Reals ZArith List Arith Bool Lra Lia FunctionalExtensionality.
From Coquelicot Require Import Coquelicot.
From Verif Require Import Base Interp_Model Interp_Proofs Calc Newton_Model Net_Model Converge_Spec Converge_Proofs Converge_Proofs2.
Local Open Scope R_scope.

Section System.
Context {LU : Type}.
Variables (n : nat) (F : vec -> vec) (D M : vec -> mat) (factor : vec -> option LU) (linsolve : LU -> vec -> vec).
Notation N := (vector_system n F factor linsolve).
Variables (x0 : vec) (radius L beta delta : R) (full : bool).
Hypothesis smooth : smooth_in_ball n F D x0 radius L.
Hypothesis close : forall x v, distance n x x0 <= radius -> distance n (times n (D x) v) (times n (M x) v) <= delta * length_of n v.
Hypothesis L0 : 0 <= L.
Hypothesis B0 : 0 <= beta.
Hypothesis D0 : 0 <= delta.
Variable lu0 : LU.
Hypothesis first : factor x0 = Some lu0.
Hypothesis factors : forall x, distance n x x0 <= radius -> exists lu, factor x = Some lu /\ solves n (M x) beta (linsolve lu).
Notation eta := (length_of n (linsolve lu0 (F x0))).
Hypothesis small : beta * (delta + 2 * L * eta) <= 1 / 2.
Hypothesis room : 2 * eta <= radius.
Notation step_of := (step_of F linsolve).
Notation next := (next F linsolve).

Lemma inexact_residual lu A x e : solves n A beta (linsolve lu) ->
  (forall v, distance n (times n (D x) v) (times n A v) <= e * length_of n v) ->
  distance n x x0 + length_of n (step_of lu x) <= radius ->
  length_of n (F (next lu x)) <= (e + L * length_of n (step_of lu x) / 2) * length_of n (step_of lu x).
Proof.
  intros S Ha Bx. destruct smooth as [Df Lip]. set (h := step_of lu x). set (r := length_of n h).
  assert (R0 : 0 <= r) by apply length_pos.
  assert (In : forall t, 0 <= t <= 1 -> distance n (fun k => x k + t * h k) x0 <= radius).
  { intros t T. eapply Rle_trans; [apply (distance_triangle n _ x)|]. unfold h. rewrite segment_distance by lra. fold h. fold h in Bx. fold r in Bx |- *. nra. }
  assert (Bx0 : distance n x x0 <= radius) by (fold h in Bx; fold r in Bx; lra).
  assert (Hs : has_size n h) by (intros k K; unfold h, Converge_Proofs2.step_of; rewrite (proj1 (S (F x)) k K); ring).
  pose proof (approximation n F (fun t => D (fun k => x k + t * h k)) A x h (e * r) (L * r * r) Hs) as Ap.
  assert (E : forall i, (i < n)%nat -> times n A h i = - F x i).
  { intros i I. destruct (S (F x)) as (_ & S2 & _). rewrite <- (S2 i I). unfold times, h, Converge_Proofs2.step_of.
    rewrite (vsum_ext n _ (fun k => -1 * (A i k * linsolve lu (F x) k))) by (intros; ring). rewrite vsum_scal. ring. }
  assert (Q : length_of n (F (next lu x)) = length_of n (fun i => F (fun k => x k + h k) i - F x i - times n A h i)).
  { apply length_ext. intros i I. rewrite (E i I). replace (next lu x) with (fun k => x k + h k) by (extensionality k; unfold Converge_Proofs2.next, h; ring). ring. }
  rewrite Q. eapply Rle_trans; [apply Ap|].
  - intros t T. apply Df, In, T.
  - intros t T. eapply Rle_trans; [apply (distance_triangle n _ (times n (D x) h))|].
    rewrite Rplus_comm. apply Rplus_le_compat; [apply Ha|]. eapply Rle_trans; [apply (Lip _ x h (In t T) Bx0)|].
    unfold h at 1. rewrite segment_distance by lra. fold h r. lra.
  - fold r. lra.
Qed.

Definition close_by (j : nat) (x : vec) : Prop := exists lu A,
  (if full then factor x else Some lu0) = Some lu /\ solves n A beta (linsolve lu) /\
  (forall v, distance n (times n (D x) v) (times n A v) <= (delta + L * distance n x x0) * length_of n v) /\
  length_of n (step_of lu x) <= eta / 2 ^ j /\ distance n x x0 <= 2 * eta - 2 * (eta / 2 ^ j).

Lemma halved j : 0 <= eta / 2 ^ j <= eta.
Proof.
  pose proof (length_pos n (linsolve lu0 (F x0))) as P. assert (Q : 1 <= 2 ^ j) by (apply pow_R1_Rle; lra).
  assert (I : 0 < / 2 ^ j <= 1). { split; [apply Rinv_0_lt_compat; lra|]. rewrite <- Rinv_1. apply Rinv_le_contravar; lra. }
  unfold Rdiv. split; nra.
Qed.

(** The matrix used at a point of the ball. *)
Lemma used_matrix x : distance n x x0 <= radius -> exists lu A, (if full then factor x else Some lu0) = Some lu /\ solves n A beta (linsolve lu) /\
  (forall v, distance n (times n (D x) v) (times n A v) <= (delta + L * distance n x x0) * length_of n v).
Proof.
  intro H. assert (P : 0 <= distance n x x0) by apply length_pos. destruct full.
  - destruct (factors x H) as (lu & E & S). exists lu, (M x). split; [exact E|]. split; [exact S|]. intro v.
    eapply Rle_trans; [apply close, H|]. pose proof (length_pos n v). assert (0 <= L * distance n x x0) by (apply Rmult_le_pos; assumption). nra.
  - pose proof (halved 0) as Hb.
    assert (Hx0 : distance n x0 x0 <= radius) by (rewrite distance_refl; lra).
    destruct (factors x0 Hx0) as (lu & E & S). assert (lu = lu0) by congruence. subst lu. exists lu0, (M x0). split; [reflexivity|]. split; [exact S|].
    intro v. eapply Rle_trans; [apply (distance_triangle n _ (times n (D x0) v))|]. pose proof (proj2 smooth x x0 v H Hx0) as Lp. pose proof (close x0 v Hx0). lra.
Qed.

Lemma close_next fuel j x : close_by j x -> exists x', newton_step N fuel full (Some lu0) x (F x) = Some (Ok (x', F x')) /\
  close_by (S j) x' /\ length_of n (F x') <= (delta + 2 * L * eta) * (eta / 2 ^ j).
Proof.
  intros (lu & A & El & S & Ha & Hs & Hd). pose proof (halved j) as Hb. pose proof (length_pos n (step_of lu x)) as P.
  assert (Pd : 0 <= distance n x x0) by apply length_pos.
  pose proof (inexact_residual lu A x _ S Ha ltac:(lra)) as Rs.
  set (c := delta + L * distance n x x0 + L * length_of n (step_of lu x) / 2) in *.
  assert (Cb : c <= delta + 2 * L * eta) by (unfold c; nra). assert (C0 : 0 <= c) by (unfold c; pose proof (Rmult_le_pos _ _ L0 Pd); pose proof (Rmult_le_pos _ _ L0 P); lra).
  assert (Bc : beta * c <= 1 / 2).
  { assert (beta * c <= beta * (delta + 2 * L * eta)) by (apply Rmult_le_compat_l; assumption). lra. }
  assert (E : eta / 2 ^ Datatypes.S j = eta / 2 ^ j / 2) by (cbn [pow]; field; apply pow_nonzero; lra).
  assert (Bd : distance n (next lu x) x0 <= 2 * eta - 2 * (eta / 2 ^ Datatypes.S j)).
  { rewrite E. pose proof (distance_triangle n (next lu x) x x0) as T. rewrite next_distance in T. lra. }
  exists (next lu x). split; [eapply undamped; [exact B0|exact El|exact S|exact Rs|exact Bc]|]. split.
  - pose proof (halved (Datatypes.S j)) as Hb'. destruct (used_matrix (next lu x) ltac:(lra)) as (lu' & A' & El' & S' & Ha'). exists lu', A'.
    split; [exact El'|]. split; [exact S'|]. split; [exact Ha'|]. split; [|exact Bd].
    rewrite E, step_length. destruct (S' (F (next lu x))) as (_ & _ & Bd').
    assert (beta * length_of n (F (next lu x)) <= beta * (c * length_of n (step_of lu x))) by (apply Rmult_le_compat_l; assumption). nra.
  - eapply Rle_trans; [exact Rs|]. apply Rmult_le_compat; assumption || lra.
Qed.

Lemma close_first : close_by 0 x0.
Proof.
  pose proof (halved 0) as Hb. destruct (used_matrix x0) as (lu & A & E & S & Ha); [rewrite distance_refl; lra|].
  assert (lu = lu0) by (destruct full; congruence). subst lu. exists lu0, A. split; [exact E|]. split; [exact S|]. split; [exact Ha|].
  rewrite step_length, distance_refl. cbn [pow]. lra.
Qed.

Lemma inexact_loop fuel tol k : (delta + 2 * L * eta) * (eta / 2 ^ k) <= tol ->
  forall left j x sol, close_by j x -> (j <= S k)%nat -> (S k <= j + left)%nat ->
    (j = S k -> length_of n (F x) <= tol) -> residual sol = Fin (length_of n (F x)) ->
    exists x' sol', newton_loop N fuel tol full (Some lu0) left x (F x) sol = Some (Ok (x', sol')) /\
      length_of n (F x') <= tol /\ residual sol' = Fin (length_of n (F x')) /\
      (used_iterations sol' <= used_iterations sol + Z.of_nat (S k - j))%Z /\ distance n x' x0 <= 2 * eta.
Proof.
  intro Hk. induction left as [|left IH]; intros j x sol Hr Hj Hl He Hs; pose proof (halved j) as Hb.
  - cbn [newton_loop]. exists x, sol. split; [reflexivity|]. split; [apply He; lia|]. split; [exact Hs|]. split; [lia|].
    destruct Hr as (? & ? & _ & _ & _ & _ & Hr). lra.
  - cbn [newton_loop ns_norm vector_system]. destruct (xgtb (Fin (length_of n (F x))) (Fin tol)) eqn:T.
    + unfold xgtb, xltb in T. apply Rltb_true in T. assert (j <> S k) by (intro Q; specialize (He Q); lra).
      destruct (close_next fuel j x Hr) as (x' & E & R & Sq). rewrite E.
      destruct (IH (S j) x' {| success := success sol; residual := Fin (length_of n (F x')); used_iterations := (used_iterations sol + 1)%Z |})
        as (y & sol' & A & B & C & G & H'); [exact R|lia|lia| | |].
      * intro Q. injection Q as Q. subst j. lra.
      * reflexivity.
      * exists y, sol'. split; [exact A|]. split; [exact B|]. split; [exact C|]. split; [|exact H']. cbn [used_iterations] in G. lia.
    + unfold xgtb, xltb in T. apply Rltb_false in T.
      exists x, sol. split; [reflexivity|]. split; [assumption|]. split; [exact Hs|]. split; [lia|]. destruct Hr as (? & ? & _ & _ & _ & _ & Hr). lra.
Qed.

Lemma inexact_newton fuel cfg (k : nat) : (Z.of_nat (S k) <= maximal_iterations cfg)%Z -> (delta + 2 * L * eta) * (eta / 2 ^ k) <= tolerance cfg ->
  exists x' sol, solve N fuel cfg full x0 = Some (Ok (x', sol)) /\ success sol = true /\
    length_of n (F x') <= tolerance cfg /\ (used_iterations sol <= Z.of_nat (S k))%Z /\ distance n x' x0 <= 2 * eta.
Proof.
  intros Hm Hk. unfold solve. cbv zeta. cbn [ns_norm ns_eval vector_system]. pose proof (length_pos n (linsolve lu0 (F x0))) as P.
  destruct (xleb (Fin (length_of n (F x0))) (Fin (tolerance cfg))) eqn:T.
  - unfold xleb in T. apply Rleb_true in T. eexists; eexists. split; [reflexivity|]. cbn [success used_iterations]. split; [reflexivity|]. split; [exact T|]. split; [lia|]. rewrite distance_refl. lra.
  - unfold xleb in T. apply Rleb_false in T. cbn [ns_factor vector_system].
    assert (Gt : xgtb (Fin (length_of n (F x0))) (Fin (tolerance cfg)) = true) by (unfold xgtb, xltb; apply Rltb_true; exact T).
    assert (Em : exists m, Z.to_nat (maximal_iterations cfg) = S m /\ (k <= m)%nat) by (exists (Nat.pred (Z.to_nat (maximal_iterations cfg))); lia).
    destruct Em as (m & Em & Km). rewrite Em, first.
    destruct (close_next fuel 0 x0 close_first) as (x1 & E1 & R1 & S1).
    destruct (inexact_loop fuel (tolerance cfg) k Hk m 1%nat x1 {| success := success default_solution; residual := Fin (length_of n (F x1)); used_iterations := (used_iterations default_solution + 1)%Z |})
      as (y & sol & A & B & C & G & H'); [exact R1|lia|lia| | |].
    + intro Q. assert (k = 0)%nat by lia. subst k. lra.
    + reflexivity.
    + assert (Lp : newton_loop N fuel (tolerance cfg) full (Some lu0) (S m) x0 (F x0) default_solution = Some (Ok (y, sol))).
      { cbn [newton_loop ns_norm vector_system]. rewrite Gt, E1. exact A. }
      exists y, {| success := true; residual := residual sol; used_iterations := used_iterations sol |}.
      assert (X : xgtb (Fin (length_of n (F y))) (Fin (tolerance cfg)) = false) by (unfold xgtb, xltb; apply Rltb_false; exact B).
      split; [|split; [reflexivity|split; [exact B|split; [cbn [used_iterations default_solution] in *; lia|exact H']]]].
      destruct full; (match goal with |- context [newton_loop ?a ?b ?c ?d ?e ?f ?g ?h ?i] => replace (newton_loop a b c d e f g h i) with (Some (Ok (y, sol))) by (symmetry; exact Lp) end);
        rewrite C, X, andb_false_r; reflexivity.
Qed.

End System.
