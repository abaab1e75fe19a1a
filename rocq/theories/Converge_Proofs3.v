(** * Convergence of the Newton solver: steps with the matrix of the start *)
From Coq Require Import Reals ZArith List Arith Bool Lra Lia FunctionalExtensionality.
From Coquelicot Require Import Coquelicot.
From Verif Require Import Base Interp_Model Interp_Proofs Calc Newton_Model Net_Model Converge_Spec Converge_Proofs Converge_Proofs2.
Local Open Scope R_scope.

Section System.
Context {LU : Type}.
Variables (n : nat) (F : vec -> vec) (J : vec -> mat) (factor : vec -> option LU) (linsolve : LU -> vec -> vec).
Notation N := (vector_system n F factor linsolve).
Variables (x0 : vec) (radius L beta : R).
Hypothesis smooth : smooth_in_ball n F J x0 radius L.
Hypothesis L0 : 0 <= L.
Hypothesis B0 : 0 <= beta.
Variable lu : LU.
Hypothesis first : factor x0 = Some lu.
Hypothesis solved : solves n (J x0) beta (linsolve lu).
Notation eta := (length_of n (linsolve lu (F x0))).
Hypothesis small : beta * L * eta <= 1 / 4.
Hypothesis room : 2 * eta <= radius.
Notation step_of := (step_of F linsolve).
Notation next := (next F linsolve).

Definition near (j : nat) (x : vec) : Prop :=
  length_of n (step_of lu x) <= eta / 2 ^ j /\ distance n x x0 <= 2 * eta - 2 * (eta / 2 ^ j).

Lemma halves_bounds j : 0 <= eta / 2 ^ j <= eta.
Proof.
  pose proof (length_pos n (linsolve lu (F x0))) as P. assert (Q : 1 <= 2 ^ j) by (apply pow_R1_Rle; lra).
  assert (I : 0 < / 2 ^ j <= 1). { split; [apply Rinv_0_lt_compat; lra|]. rewrite <- Rinv_1. apply Rinv_le_contravar; lra. }
  unfold Rdiv. split; nra.
Qed.

Lemma near_next fuel j x : near j x -> newton_step N fuel false (Some lu) x (F x) = Some (Ok (next lu x, F (next lu x))) /\
  near (S j) (next lu x) /\ length_of n (F (next lu x)) <= 2 * L * eta * (eta / 2 ^ j).
Proof.
  intros [Hs Hd]. pose proof (halves_bounds j) as Hb. pose proof (length_pos n (step_of lu x)) as P.
  assert (Pd : 0 <= distance n x x0) by apply length_pos.
  pose proof (step_residual n F J linsolve x0 radius L beta smooth L0 lu x x0 solved ltac:(rewrite distance_refl; lra) ltac:(lra)) as Rs.
  set (c := L * (distance n x x0 + length_of n (step_of lu x) / 2)) in *.
  assert (Cb : c <= 2 * L * eta) by (unfold c; nra). assert (C0 : 0 <= c) by (unfold c; apply Rmult_le_pos; lra).
  assert (Bc : beta * c <= 1 / 2).
  { assert (beta * c <= beta * (2 * L * eta)) by (apply Rmult_le_compat_l; assumption). lra. }
  split; [eapply undamped; [exact B0|reflexivity|exact solved|exact Rs|exact Bc]|].
  split.
  - assert (E : eta / 2 ^ S j = eta / 2 ^ j / 2) by (cbn [pow]; field; apply pow_nonzero; lra). split.
    + rewrite E, step_length. destruct (solved (F (next lu x))) as (_ & _ & Bd).
      assert (beta * length_of n (F (next lu x)) <= beta * (c * length_of n (step_of lu x))) by (apply Rmult_le_compat_l; assumption). nra.
    + rewrite E. pose proof (distance_triangle n (next lu x) x x0) as T. rewrite next_distance in T. lra.
  - eapply Rle_trans; [exact Rs|]. apply Rmult_le_compat; assumption || lra.
Qed.

Lemma near_first : near 0 x0.
Proof. split; [rewrite step_length|rewrite distance_refl]; cbn [pow]; lra. Qed.

Lemma simplified_loop fuel tol k : 2 * L * eta * (eta / 2 ^ k) <= tol ->
  forall left j x sol, near j x -> (j <= S k)%nat -> (S k <= j + left)%nat ->
    (j = S k -> length_of n (F x) <= tol) -> residual sol = Fin (length_of n (F x)) ->
    exists x' sol', newton_loop N fuel tol false (Some lu) left x (F x) sol = Some (Ok (x', sol')) /\
      length_of n (F x') <= tol /\ residual sol' = Fin (length_of n (F x')) /\
      (used_iterations sol' <= used_iterations sol + Z.of_nat (S k - j))%Z /\ distance n x' x0 <= 2 * eta.
Proof.
  intro Hk. induction left as [|left IH]; intros j x sol Hr Hj Hl He Hs; pose proof (halves_bounds j) as Hb.
  - cbn [newton_loop]. exists x, sol. split; [reflexivity|]. split; [apply He; lia|]. split; [exact Hs|]. split; [lia|].
    destruct Hr. lra.
  - cbn [newton_loop ns_norm vector_system]. destruct (xgtb (Fin (length_of n (F x))) (Fin tol)) eqn:T.
    + unfold xgtb, xltb in T. apply Rltb_true in T. assert (j <> S k) by (intro Q; specialize (He Q); lra).
      destruct (near_next fuel j x Hr) as (E & R & Sq). rewrite E.
      destruct (IH (S j) (next lu x) {| success := success sol; residual := Fin (length_of n (F (next lu x))); used_iterations := (used_iterations sol + 1)%Z |})
        as (y & sol' & A & B & C & D & G); [exact R|lia|lia| | |].
      * intro Q. injection Q as Q. subst j. lra.
      * reflexivity.
      * exists y, sol'. split; [exact A|]. split; [exact B|]. split; [exact C|]. split; [|exact G]. cbn [used_iterations] in D. lia.
    + unfold xgtb, xltb in T. apply Rltb_false in T.
      exists x, sol. split; [reflexivity|]. split; [assumption|]. split; [exact Hs|]. split; [lia|]. destruct Hr. lra.
Qed.

Lemma simplified_newton fuel cfg (k : nat) : (Z.of_nat (S k) <= maximal_iterations cfg)%Z -> 2 * L * eta * (eta / 2 ^ k) <= tolerance cfg ->
  exists x' sol, solve N fuel cfg false x0 = Some (Ok (x', sol)) /\ success sol = true /\
    length_of n (F x') <= tolerance cfg /\ (used_iterations sol <= Z.of_nat (S k))%Z /\ distance n x' x0 <= 2 * eta.
Proof.
  intros Hm Hk. unfold solve. cbv zeta. cbn [ns_norm ns_eval vector_system]. pose proof (length_pos n (linsolve lu (F x0))) as P.
  destruct (xleb (Fin (length_of n (F x0))) (Fin (tolerance cfg))) eqn:T.
  - unfold xleb in T. apply Rleb_true in T. eexists; eexists. split; [reflexivity|]. cbn [success used_iterations]. split; [reflexivity|]. split; [exact T|]. split; [lia|]. rewrite distance_refl. lra.
  - unfold xleb in T. apply Rleb_false in T. cbn [ns_factor vector_system].
    assert (Gt : xgtb (Fin (length_of n (F x0))) (Fin (tolerance cfg)) = true) by (unfold xgtb, xltb; apply Rltb_true; exact T).
    assert (Em : exists m, Z.to_nat (maximal_iterations cfg) = S m /\ (k <= m)%nat) by (exists (Nat.pred (Z.to_nat (maximal_iterations cfg))); lia).
    destruct Em as (m & Em & Km). rewrite Em, first. cbn [newton_loop ns_norm vector_system]. rewrite Gt.
    destruct (near_next fuel 0 x0 near_first) as (E1 & R1 & S1). rewrite E1.
    destruct (simplified_loop fuel (tolerance cfg) k Hk m 1%nat (next lu x0) {| success := success default_solution; residual := Fin (length_of n (F (next lu x0))); used_iterations := (used_iterations default_solution + 1)%Z |})
      as (y & sol & A & B & C & D & G); [exact R1|lia|lia| | |].
    + intro Q. assert (k = 0)%nat by lia. subst k. lra.
    + reflexivity.
    + match goal with |- context [newton_loop ?a ?b ?c ?d ?e ?f ?g ?h ?i] => replace (newton_loop a b c d e f g h i) with (Some (Ok (y, sol))) by (symmetry; exact A) end.
      eexists; eexists. split; [reflexivity|]. cbn [success used_iterations]. rewrite C.
      assert (X : xgtb (Fin (length_of n (F y))) (Fin (tolerance cfg)) = false) by (unfold xgtb, xltb; apply Rltb_false; exact B).
      rewrite X, andb_false_r. split; [reflexivity|]. split; [exact B|]. split; [|exact G]. cbn [used_iterations default_solution] in D. lia.
Qed.

End System.
