(** * Convergence of the Newton solver: the iteration *)
From Coq Require Import Reals ZArith List Arith Bool Lra Lia FunctionalExtensionality.
From Coquelicot Require Import Coquelicot.
From Verif Require Import Base Interp_Model Interp_Proofs Calc Newton_Model Net_Model Converge_Spec Converge_Proofs.
Local Open Scope R_scope.

Section System.
Context {LU : Type}.
Variables (n : nat) (F : vec -> vec) (J : vec -> mat) (factor : vec -> option LU) (linsolve : LU -> vec -> vec).
Notation N := (vector_system n F factor linsolve).
Variables (x0 : vec) (radius L beta : R).
Hypothesis smooth : smooth_in_ball n F J x0 radius L.
Hypothesis L0 : 0 <= L.
Hypothesis B0 : 0 <= beta.

Definition step_of (lu : LU) (x : vec) : vec := fun k => - linsolve lu (F x) k.
Definition next (lu : LU) (x : vec) : vec := fun k => x k + 1 * step_of lu x k.

Lemma step_length lu x : length_of n (step_of lu x) = length_of n (linsolve lu (F x)).
Proof. apply length_opp. Qed.
Lemma next_distance lu x : distance n (next lu x) x = length_of n (step_of lu x).
Proof. apply length_ext. intros. unfold next. ring. Qed.

Lemma segment_distance lu x t : 0 <= t -> distance n (fun k => x k + t * step_of lu x k) x = t * length_of n (step_of lu x).
Proof.
  intro T. unfold distance. rewrite (length_ext n _ (fun k => t * step_of lu x k)) by (intros; ring).
  rewrite length_scal, Rabs_pos_eq by exact T. reflexivity.
Qed.

(** The residual after a step with the factorisation of [J y]. *)
Lemma step_residual lu x y : solves n (J y) beta (linsolve lu) -> distance n y x0 <= radius ->
  distance n x x0 + length_of n (step_of lu x) <= radius ->
  length_of n (F (next lu x)) <= L * (distance n x y + length_of n (step_of lu x) / 2) * length_of n (step_of lu x).
Proof.
  intros S By Bx. destruct smooth as [Df Lip]. set (h := step_of lu x). set (r := length_of n h).
  assert (R0 : 0 <= r) by apply length_pos.
  assert (In : forall t, 0 <= t <= 1 -> distance n (fun k => x k + t * h k) x0 <= radius).
  { intros t T. eapply Rle_trans; [apply (distance_triangle n _ x)|]. unfold h. rewrite segment_distance by lra. fold h. fold h in Bx. fold r in Bx |- *. nra. }
  assert (Hs : has_size n h) by (intros k K; unfold h, step_of; rewrite (proj1 (S (F x)) k K); ring).
  pose proof (approximation n F (fun t => J (fun k => x k + t * h k)) (J y) x h (L * distance n x y * r) (L * r * r) Hs) as A.
  assert (E : forall i, (i < n)%nat -> times n (J y) h i = - F x i).
  { intros i I. destruct (S (F x)) as (_ & S2 & _). rewrite <- (S2 i I). unfold times, h, step_of.
    rewrite (vsum_ext n _ (fun k => -1 * (J y i k * linsolve lu (F x) k))) by (intros; ring). rewrite vsum_scal. ring. }
  assert (Q : length_of n (F (next lu x)) = length_of n (fun i => F (fun k => x k + h k) i - F x i - times n (J y) h i)).
  { apply length_ext. intros i I. rewrite (E i I). replace (next lu x) with (fun k => x k + h k) by (extensionality k; unfold next, h; ring). ring. }
  rewrite Q. eapply Rle_trans; [apply A|].
  - intros t T. apply Df, In, T.
  - intros t T. eapply Rle_trans; [apply (Lip _ y h (In t T) By)|].
    fold r. replace (L * distance n x y * r + L * r * r * t) with (L * (distance n x y + t * r) * r) by ring.
    apply Rmult_le_compat_r; [exact R0|]. apply Rmult_le_compat_l; [exact L0|].
    eapply Rle_trans; [apply (distance_triangle n _ x)|]. unfold h. rewrite segment_distance by lra. fold h r. lra.
  - fold r. lra.
Qed.

(** A step whose residual is small is taken without damping. *)
Lemma undamped (fuel : nat) (full : bool) (lu0 : option LU) lu A x c : (if full then factor x else lu0) = Some lu -> solves n A beta (linsolve lu) ->
  length_of n (F (next lu x)) <= c * length_of n (step_of lu x) -> beta * c <= 1 / 2 ->
  newton_step N fuel full lu0 x (F x) = Some (Ok (next lu x, F (next lu x))).
Proof.
  intros E S C H. unfold newton_step. cbn [ns_factor vector_system].
  match goal with |- match ?a with _ => _ end = _ => replace a with (@Some (ns_lu N) lu) by (symmetry; exact E) end. cbv beta iota zeta. cbn [ns_neg ns_move ns_linsolve ns_eval ns_norm vector_system].
  fold (step_of lu x). change (fun k => x k + 1 * step_of lu x k) with (next lu x).
  assert (D : forall fuel, damp N fuel lu x (step_of lu x) (Fin (length_of n (step_of lu x))) 1 (next lu x) (F (next lu x))
     (Fin (length_of n (fun k => - linsolve lu (F (next lu x)) k))) = Some (Ok (1, next lu x, F (next lu x)))).
  { intro f. assert (T : xgtb (Fin (length_of n (fun k => - linsolve lu (F (next lu x)) k))) (xscale (1 - / 2 * 1) (Fin (length_of n (step_of lu x)))) = false).
    { unfold xgtb, xscale, xltb. destruct (Rltb _ _) eqn:Q; [|reflexivity]. apply Rltb_true in Q. exfalso.
      rewrite length_opp in Q. destruct (S (F (next lu x))) as (_ & _ & B). pose proof (length_pos n (step_of lu x)) as P.
      assert (beta * length_of n (F (next lu x)) <= beta * (c * length_of n (step_of lu x))) by (apply Rmult_le_compat_l; assumption).
      nra. }
    destruct f; cbn [damp]; rewrite T; reflexivity. }
  match goal with |- match ?a with _ => _ end = _ => replace a with (@Some (outcome (R * ns_vec N * ns_vec N)) (Ok (1, next lu x, F (next lu x)))) by (symmetry; exact (D fuel)) end.
  reflexivity.
Qed.

(** ** Full Newton steps *)

Hypothesis factors : forall x, distance n x x0 <= radius -> exists lu, factor x = Some lu /\ solves n (J x) beta (linsolve lu).

Variable lu_first : LU.
Hypothesis first : factor x0 = Some lu_first.
Notation eta := (length_of n (linsolve lu_first (F x0))).
Notation q := (beta * L * eta / 2).
Definition step_bound (j : nat) : R := eta * q ^ (2 ^ j - 1).

Hypothesis small : beta * L * eta <= 1.
Hypothesis room : 2 * eta <= radius.

Lemma q_bounds : 0 <= q <= / 2.
Proof. pose proof (length_pos n (linsolve lu_first (F x0))). split; [|lra]. assert (0 <= beta * L * eta) by (repeat apply Rmult_le_pos; assumption). lra. Qed.
Lemma step_bound_next j : beta * L / 2 * step_bound j ^ 2 = step_bound (S j).
Proof.
  unfold step_bound. assert (E : (2 ^ S j - 1 = (2 ^ j - 1) + (2 ^ j - 1) + 1)%nat).
  { cbn [Nat.pow]. assert (2 ^ j <> 0)%nat by (apply Nat.pow_nonzero; lia). lia. }
  rewrite E, !pow_add. set (p := q ^ (2 ^ j - 1)). clearbody p. field.
Qed.
Lemma step_bound_halves j : 0 <= step_bound j /\ step_bound (S j) <= step_bound j / 2.
Proof.
  pose proof (length_pos n (linsolve lu_first (F x0))) as P. pose proof q_bounds as Q.
  assert (Z : 0 <= step_bound j) by (apply Rmult_le_pos; [exact P|apply pow_le; lra]). split; [exact Z|].
  unfold step_bound in *. assert (E : (2 ^ S j - 1 = (2 ^ j - 1) + S (2 ^ j - 1))%nat).
  { cbn [Nat.pow]. assert (2 ^ j <> 0)%nat by (apply Nat.pow_nonzero; lia). lia. }
  rewrite E, pow_add, <- Rmult_assoc. assert (q ^ S (2 ^ j - 1) <= / 2); [|nra].
  cbn [pow]. assert (q ^ (2 ^ j - 1) <= 1) by (rewrite <- (pow1 (2 ^ j - 1)); apply pow_incr; lra).
  assert (0 <= q ^ (2 ^ j - 1)) by (apply pow_le; lra). nra.
Qed.
Lemma step_bound_le j : step_bound j <= eta.
Proof.
  induction j as [|j IH]; [unfold step_bound; cbn; lra|]. destruct (step_bound_halves j). lra.
Qed.

(** What holds after [j] steps. *)
Definition reached (j : nat) (x : vec) : Prop :=
  exists lu, factor x = Some lu /\ solves n (J x) beta (linsolve lu) /\
    length_of n (step_of lu x) <= step_bound j /\ distance n x x0 + 2 * step_bound j <= 2 * eta.

Lemma reached_first : reached 0 x0.
Proof.
  destruct (factors x0) as (lu & E & S). { rewrite distance_refl. pose proof (length_pos n (linsolve lu_first (F x0))). lra. }
  assert (lu = lu_first) by congruence. subst lu. exists lu_first. split; [exact E|]. split; [exact S|].
  rewrite step_length, distance_refl. unfold step_bound. cbn. lra.
Qed.

Lemma reached_next fuel lu0 j x : reached j x -> exists x', newton_step N fuel true lu0 x (F x) = Some (Ok (x', F x')) /\
  reached (S j) x' /\ length_of n (F x') <= L / 2 * step_bound j ^ 2.
Proof.
  intros (lu & E & S & Hs & Hd). destruct (step_bound_halves j) as [Z Hv]. pose proof (length_pos n (step_of lu x)) as P. pose proof (length_pos n (fun k => x k - x0 k)) as Pd. fold (distance n x x0) in Pd.
  pose proof (step_bound_le j) as Le.
  pose proof (step_residual lu x x S ltac:(lra) ltac:(lra)) as Rs. rewrite distance_refl, Rplus_0_l in Rs.
  assert (Sq : length_of n (F (next lu x)) <= L / 2 * step_bound j ^ 2).
  { eapply Rle_trans; [exact Rs|]. replace (L * (length_of n (step_of lu x) / 2) * length_of n (step_of lu x)) with (L / 2 * length_of n (step_of lu x) ^ 2) by field.
    apply Rmult_le_compat_l; [lra|]. apply pow_incr. lra. }
  exists (next lu x). split; [|split; [|exact Sq]].
  - eapply undamped with (c := L * (length_of n (step_of lu x) / 2)); [exact E|exact S|lra|].
    assert (beta * L * length_of n (step_of lu x) <= beta * L * eta) by (apply Rmult_le_compat_l; [apply Rmult_le_pos; assumption|lra]). lra.
  - assert (Bn : distance n (next lu x) x0 + step_bound j <= 2 * eta).
    { pose proof (distance_triangle n (next lu x) x x0) as T. rewrite next_distance in T. lra. }
    destruct (factors (next lu x) ltac:(lra)) as (lu' & E' & S'). exists lu'. split; [exact E'|]. split; [exact S'|]. split; [|lra].
    rewrite step_length. destruct (S' (F (next lu x))) as (_ & _ & Bd). rewrite <- step_bound_next.
    eapply Rle_trans; [exact Bd|]. replace (beta * L / 2 * step_bound j ^ 2) with (beta * (L / 2 * step_bound j ^ 2)) by field.
    apply Rmult_le_compat_l; assumption.
Qed.

Lemma loop_converges fuel tol lu0 k : L / 2 * step_bound k ^ 2 <= tol ->
  forall left j x sol, reached j x -> (j <= S k)%nat -> (S k <= j + left)%nat ->
    (j = S k -> length_of n (F x) <= tol) -> residual sol = Fin (length_of n (F x)) ->
    exists x' sol', newton_loop N fuel tol true lu0 left x (F x) sol = Some (Ok (x', sol')) /\
      length_of n (F x') <= tol /\ residual sol' = Fin (length_of n (F x')) /\
      (used_iterations sol' <= used_iterations sol + Z.of_nat (S k - j))%Z /\ distance n x' x0 <= 2 * eta.
Proof.
  intro Hk. induction left as [|left IH]; intros j x sol Hr Hj Hl He Hs.
  - cbn [newton_loop]. exists x, sol. split; [reflexivity|]. split; [apply He; lia|]. split; [exact Hs|]. split; [lia|].
    destruct Hr as (lu & _ & _ & _ & D). destruct (step_bound_halves j). lra.
  - cbn [newton_loop ns_norm vector_system]. destruct (xgtb (Fin (length_of n (F x))) (Fin tol)) eqn:T.
    + unfold xgtb, xltb in T. apply Rltb_true in T. assert (j <> S k) by (intro Q; specialize (He Q); lra).
      destruct (reached_next fuel lu0 j x Hr) as (x' & E & R & Sq). rewrite E.
      destruct (IH (S j) x' {| success := success sol; residual := Fin (length_of n (F x')); used_iterations := (used_iterations sol + 1)%Z |}) as (y & sol' & A & B & C & D & G); [exact R|lia|lia| | |].
      * intro Q. injection Q as Q. subst j. lra.
      * reflexivity.
      * exists y, sol'. split; [exact A|]. split; [exact B|]. split; [exact C|]. split; [|exact G]. cbn [used_iterations] in D. lia.
    + unfold xgtb, xltb in T. assert (length_of n (F x) <= tol). { destruct (Rle_lt_dec (length_of n (F x)) tol) as [Q|Q]; [exact Q|]. apply Rltb_true in Q. congruence. }
      exists x, sol. split; [reflexivity|]. split; [assumption|]. split; [exact Hs|]. split; [lia|].
      destruct Hr as (lu & _ & _ & _ & D). destruct (step_bound_halves j). lra.
Qed.

Lemma full_newton fuel cfg (k : nat) : (Z.of_nat (S k) <= maximal_iterations cfg)%Z -> L / 2 * step_bound k ^ 2 <= tolerance cfg ->
  exists x' sol, solve N fuel cfg true x0 = Some (Ok (x', sol)) /\ success sol = true /\
    length_of n (F x') <= tolerance cfg /\ (used_iterations sol <= Z.of_nat (S k))%Z /\ distance n x' x0 <= 2 * eta.
Proof.
  intros Hm Hk. unfold solve. cbv zeta. cbn [ns_norm ns_eval vector_system]. pose proof (length_pos n (linsolve lu_first (F x0))) as P.
  destruct (xleb (Fin (length_of n (F x0))) (Fin (tolerance cfg))) eqn:T.
  - unfold xleb in T. apply Rleb_true in T. eexists; eexists. split; [reflexivity|]. cbn [success used_iterations]. split; [reflexivity|]. split; [exact T|]. split; [lia|]. rewrite distance_refl. lra.
  - unfold xleb in T. cbn [ns_factor vector_system].
    assert (Gt : xgtb (Fin (length_of n (F x0))) (Fin (tolerance cfg)) = true).
    { unfold xgtb, xltb. apply Rltb_true. destruct (Rle_lt_dec (length_of n (F x0)) (tolerance cfg)) as [Q|Q]; [|exact Q]. apply Rleb_true in Q. congruence. }
    assert (Em : exists m, Z.to_nat (maximal_iterations cfg) = S m /\ (k <= m)%nat) by (exists (Nat.pred (Z.to_nat (maximal_iterations cfg))); lia).
    destruct Em as (m & Em & Km). rewrite Em. cbn [newton_loop ns_norm vector_system]. rewrite Gt.
    destruct (reached_next fuel (factor x0) 0 x0 reached_first) as (x1 & E1 & R1 & S1). rewrite E1.
    destruct (loop_converges fuel (tolerance cfg) (factor x0) k Hk m 1%nat x1 {| success := success default_solution; residual := Fin (length_of n (F x1)); used_iterations := (used_iterations default_solution + 1)%Z |}) as (y & sol & A & B & C & D & G); [exact R1|lia|lia| | |].
    + intro Q. assert (k = 0)%nat by lia. subst k. lra.
    + reflexivity.
    + match goal with |- context [newton_loop ?a ?b ?c ?d ?e ?f ?g ?h ?i] => replace (newton_loop a b c d e f g h i) with (Some (Ok (y, sol))) by (symmetry; exact A) end.
      eexists; eexists. split; [reflexivity|]. cbn [success used_iterations]. rewrite C.
      assert (X : xgtb (Fin (length_of n (F y))) (Fin (tolerance cfg)) = false).
      { unfold xgtb, xltb. destruct (Rltb _ _) eqn:Q; [|reflexivity]. apply Rltb_true in Q. lra. }
      rewrite X, andb_false_r. split; [reflexivity|]. split; [exact B|]. split; [|exact G]. cbn [used_iterations default_solution] in D. lia.
Qed.

End System.
