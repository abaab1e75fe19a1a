(** * Proofs about the Newton solver *)
From Coq Require Import Reals ZArith List Bool Lia Lra.
From Verif Require Import Base Interp_Model Interp_Proofs Newton_Model Newton_Spec.
Import ListNotations.
Local Open Scope R_scope.

Lemma xgtb_above a b : xgtb a b = true <-> above a b.
Proof.
  unfold xgtb, above; destruct a, b; simpl; try (split; [discriminate|tauto]); try tauto.
  split; [apply Rltb_true | intro; apply Rltb_true; auto].
Qed.

Lemma xgtb_not_above a b : xgtb a b = false <-> ~ above a b.
Proof.
  rewrite <- xgtb_above. destruct (xgtb a b); split; congruence.
Qed.

Lemma xleb_at_most a b : xleb a (Fin b) = true <-> at_most a b.
Proof.
  unfold at_most; destruct a; simpl; try (split; [discriminate|tauto]); try tauto.
  split; [apply Rleb_true | intro; apply Rleb_true; auto].
Qed.

Lemma not_above_at_most a b : a <> NaN -> ~ above a (Fin b) -> at_most a b.
Proof. destruct a; simpl; intros; try tauto; lra. Qed.

Lemma stepsize_0 : stepsize 0 = 1.
Proof. reflexivity. Qed.

Lemma halve_stepsize k : halve (stepsize k) = stepsize (S k).
Proof.
  unfold halve, stepsize.
  destruct (Nat.leb_spec k 1074) as [H|H]; destruct (Nat.leb_spec (S k) 1074) as [H'|H']; try lia.
  - replace (Rleb ((/ 2) ^ k) (/ 2 ^ 1074)) with false.
    + rewrite <- tech_pow_Rmult. lra.
    + symmetry. apply Rleb_false. rewrite pow_inv. apply Rinv_lt_contravar.
      * apply Rmult_lt_0_compat; apply pow_lt; lra.
      * apply Rlt_pow; [lra|lia].
  - assert (k = 1074%nat) as -> by lia.
    replace (Rleb ((/ 2) ^ 1074) (/ 2 ^ 1074)) with true; [reflexivity|].
    symmetry. apply Rleb_true. rewrite pow_inv. apply Rle_refl.
  - replace (Rleb 0 (/ 2 ^ 1074)) with true; [reflexivity|].
    symmetry. apply Rleb_true. left. apply Rinv_0_lt_compat, pow_lt. lra.
Qed.

Lemma halve_1 : halve 1 = 1 * / 2.
Proof.
  rewrite <- stepsize_0, halve_stepsize, stepsize_0. unfold stepsize. cbn [Nat.leb pow]. ring.
Qed.

Section Solve.
Variable N : nsystem.
Notation V := (ns_vec N).

Lemma damp_spec : forall fuel lu x k l y v,
  damp N fuel lu x (correction N lu x) (correction_norm N lu x) (stepsize k)
       (trial N lu x k) (ns_eval N (trial N lu x k)) (correction_norm N lu (trial N lu x k))
    = Some (Ok (l, y, v)) ->
  exists m, (k <= m)%nat /\ y = trial N lu x m /\ v = ns_eval N y /\ l = stepsize m /\
    ~ too_long N lu x m /\ forall j, (k <= j < m)%nat -> too_long N lu x j.
Proof.
  induction fuel as [|fuel IH]; intros lu x k l y v H; simpl in H;
    destruct (xgtb _ _) eqn:E in H; try discriminate.
  - injection H as <- <- <-. exists k. apply xgtb_not_above in E.
    repeat split; auto. intros; lia.
  - destruct (xltb _ _) in H; [discriminate|].
    assert (EL : halve (stepsize k) = stepsize (S k)) by apply halve_stepsize.
    rewrite EL in H.
    change (ns_move N x (stepsize (S k)) (correction N lu x)) with (trial N lu x (S k)) in H.
    apply IH in H. destruct H as [m [? [? [? [? [? Hj]]]]]].
    exists m. repeat split; auto; [lia|].
    intros j Hm. destruct (Nat.eq_dec j k) as [->|]; [apply xgtb_above; exact E|].
    apply Hj; lia.
  - injection H as <- <- <-. exists k. apply xgtb_not_above in E.
    repeat split; auto. intros; lia.
Qed.

Lemma damp_not_ub : forall fuel lu x s t l c v n, damp N fuel lu x s t l c v n <> Some UB.
Proof.
  induction fuel; intros; simpl; destruct (xgtb _ _); try discriminate.
  destruct (xltb _ _); try discriminate. apply IHfuel.
Qed.

Lemma damp_terminates : forall fuel lu x k,
  (exists m, (k <= m <= k + fuel)%nat /\ ~ too_long N lu x m) ->
  damp N fuel lu x (correction N lu x) (correction_norm N lu x) (stepsize k)
       (trial N lu x k) (ns_eval N (trial N lu x k)) (correction_norm N lu (trial N lu x k))
    <> None.
Proof.
  induction fuel as [|fuel IH]; intros lu x k [m [Hm Ht]]; simpl;
    destruct (xgtb _ _) eqn:E; try discriminate.
  - assert (m = k) by lia. subst. apply xgtb_above in E. contradiction.
  - destruct (xltb _ _); [discriminate|].
    assert (EL : halve (stepsize k) = stepsize (S k)) by apply halve_stepsize.
    rewrite EL.
    apply (IH lu x (S k)). exists m. split; [|auto].
    assert (m <> k) by (intros ->; apply xgtb_above in E; contradiction). lia.
Qed.

Lemma newton_step_spec fuel full lu0 x y v :
  newton_step N fuel full lu0 x (ns_eval N x) = Some (Ok (y, v)) ->
  v = ns_eval N y /\
  exists lu, (if full then ns_factor N x else lu0) = Some lu /\ damped_step N lu x y.
Proof.
  unfold newton_step. destruct (if full then _ else _) as [lu|] eqn:E; [|discriminate].
  destruct (damp _ _ _ _ _ _ _ _ _ _) as [[[[l y'] v']| |]|] eqn:D; try discriminate.
  intro H; injection H as -> ->.
  apply (damp_spec fuel lu x 0) in D.
  destruct D as [m [? [? [? [? [? Hj]]]]]].
  split; [auto|]. exists lu. split; [auto|]. exists m. repeat split; auto.
  intros; apply Hj; lia.
Qed.

(** The states from the current one on. *)
Lemma loop_spec fuel tol full lu0 : forall left x sol y sol',
  newton_loop N fuel tol full lu0 left x (ns_eval N x) sol = Some (Ok (y, sol')) ->
  exists states,
    nth_error states 0 = Some x /\
    nth_error states (length states - 1) = Some y /\
    (length states <= S left)%nat /\
    used_iterations sol' = (used_iterations sol + Z.of_nat (length states - 1))%Z /\
    ((length states = 1%nat /\ sol' = sol /\ x = y) \/
     ((1 < length states)%nat /\ residual sol' = ns_norm N (ns_eval N y))) /\
    (length states = S left \/ ~ above (ns_norm N (ns_eval N y)) (Fin tol)) /\
    forall i a b, nth_error states i = Some a -> nth_error states (S i) = Some b ->
      above (ns_norm N (ns_eval N a)) (Fin tol) /\
      exists lu, (if full then ns_factor N a else lu0) = Some lu /\ damped_step N lu a b.
Proof.
  assert (Stop : forall left x sol (y : V) sol',
    left = 0%nat \/ ~ above (ns_norm N (ns_eval N x)) (Fin tol) ->
    x = y -> sol' = sol ->
    exists states,
    nth_error states 0 = Some x /\
    nth_error states (length states - 1) = Some y /\
    (length states <= S left)%nat /\
    used_iterations sol' = (used_iterations sol + Z.of_nat (length states - 1))%Z /\
    ((length states = 1%nat /\ sol' = sol /\ x = y) \/
     ((1 < length states)%nat /\ residual sol' = ns_norm N (ns_eval N y))) /\
    (length states = S left \/ ~ above (ns_norm N (ns_eval N y)) (Fin tol)) /\
    forall i a b, nth_error states i = Some a -> nth_error states (S i) = Some b ->
      above (ns_norm N (ns_eval N a)) (Fin tol) /\
      exists lu, (if full then ns_factor N a else lu0) = Some lu /\ damped_step N lu a b).
  { intros left x sol y sol' Hs -> ->. exists [y]. cbn [length nth_error Nat.sub].
    split; [auto|]. split; [auto|]. split; [lia|]. split; [lia|]. split; [auto|].
    split; [destruct Hs; [left; lia|right; auto]|].
    intros [|i] a b; simpl; [discriminate| destruct i; discriminate]. }
  induction left as [|left IH]; intros x sol y sol' H; cbn [newton_loop] in H.
  - injection H as <- <-. apply Stop; auto.
  - destruct (xgtb _ _) eqn:E in H.
    2:{ injection H as <- <-. apply xgtb_not_above in E. apply Stop; auto. }
    destruct (newton_step _ _ _ _ _ _) as [[[x' v']| |]|] eqn:S1; try discriminate.
    apply newton_step_spec in S1. destruct S1 as [-> S1].
    apply IH in H. destruct H as [st [H0 [H1 [H2 [H3 [H4 [H5 H6]]]]]]].
    exists (x :: st).
    assert (L : (0 < length st)%nat) by (destruct st; [discriminate|simpl; lia]).
    cbn [length]. replace (S (length st) - 1)%nat with (S (length st - 1)) by lia.
    cbn [nth_error]. split; [auto|]. split; [auto|]. split; [lia|].
    split. { rewrite H3. cbn [used_iterations]. lia. }
    split. { right. split; [lia|]. destruct H4 as [[_ [-> ->]]|[_ ->]]; auto. }
    split. { destruct H5; [left; lia|right; auto]. }
    intros [|i] a b Ha Hb; cbn [nth_error] in *.
    + injection Ha as <-. rewrite H0 in Hb. injection Hb as <-.
      apply xgtb_above in E. auto.
    + eapply H6; eauto.
Qed.

Theorem solve_converged fuel cfg full x :
  at_most (ns_norm N (ns_eval N x)) (tolerance cfg) ->
  solve N fuel cfg full x
  = Some (Ok (x, {| success := true; residual := ns_norm N (ns_eval N x);
                    used_iterations := 0 |})).
Proof. intro H. unfold solve. apply xleb_at_most in H. rewrite H. reflexivity. Qed.

Theorem solve_spec fuel cfg full x y sol :
  solve N fuel cfg full x = Some (Ok (y, sol)) ->
  exists states,
    newton_iteration N full (tolerance cfg) states /\
    nth_error states 0 = Some x /\
    nth_error states (length states - 1) = Some y /\
    used_iterations sol = Z.of_nat (length states - 1) /\
    (used_iterations sol <= Z.max 0 (maximal_iterations cfg))%Z /\
    ((0 < used_iterations sol)%Z \/ at_most (ns_norm N (ns_eval N x)) (tolerance cfg) ->
     residual sol = ns_norm N (ns_eval N y)) /\
    ((0 <= maximal_iterations cfg)%Z ->
     tolerance cfg < 1000000 ->
     success sol = true -> ~ above (ns_norm N (ns_eval N y)) (Fin (tolerance cfg))) /\
    (success sol = false ->
     used_iterations sol = maximal_iterations cfg /\ above (residual sol) (Fin (tolerance cfg))).
Proof.
  unfold solve. destruct (xleb _ _) eqn:E.
  { intro H; injection H as <- <-. exists [x]. cbn.
    split. { exists x; split; [auto|]. intros [|i] a b; simpl; [discriminate|destruct i; discriminate]. }
    split; [auto|]. split; [auto|]. split; [auto|]. split; [lia|]. split; [auto|].
    split; [|discriminate]. intros _ _ _. apply xleb_at_most in E.
    destruct (ns_norm N (ns_eval N x)); simpl in *; auto; lra. }
  assert (NC : ~ at_most (ns_norm N (ns_eval N x)) (tolerance cfg))
    by (rewrite <- xleb_at_most; congruence).
  intro H.
  assert (FL : full = true \/ exists lu, ns_factor N x = Some lu).
  { destruct full; auto. destruct (ns_factor N x); [eauto|discriminate]. }
  assert (H' : match newton_loop N fuel (tolerance cfg) full (ns_factor N x)
                (Z.to_nat (maximal_iterations cfg)) x (ns_eval N x) default_solution with
        | Some (Ok (x', sol)) =>
            let failed := ((used_iterations sol =? maximal_iterations cfg)%Z
                           && xgtb (residual sol) (Fin (tolerance cfg)))%bool in
            Some (Ok (x', {| success := negb failed; residual := residual sol;
                             used_iterations := used_iterations sol |}))
        | r => r end = Some (Ok (y, sol))).
  { destruct full; auto. destruct (ns_factor N x); [auto|discriminate]. }
  clear H. rename H' into H.
  destruct (newton_loop _ _ _ _ _ _ _ _ _) as [[[y' s']| |]|] eqn:L; try discriminate.
  cbv zeta in H.
  assert (Ey : y' = y) by congruence.
  assert (Es : sol = {| success := negb ((used_iterations s' =? maximal_iterations cfg)%Z
                           && xgtb (residual s') (Fin (tolerance cfg)))%bool;
                        residual := residual s'; used_iterations := used_iterations s' |})
    by congruence.
  clear H. subst y' sol. apply loop_spec in L.
  destruct L as [st [H0 [H1 [H2 [H3 [H4 [H5 H6]]]]]]].
  change (used_iterations default_solution) with 0%Z in H3. rewrite Z.add_0_l in H3.
  exists st. cbn [success residual used_iterations].
  split.
  { exists x. split; [auto|]. intros i a b Ha Hb. destruct (H6 i a b Ha Hb) as [? [lu [Hlu ?]]].
    split; [auto|]. exists lu. split; [|auto]. destruct full; auto. }
  split; [auto|]. split; [auto|]. split; [auto|]. split; [lia|].
  split.
  { intros [P|P]; [|contradiction]. destruct H4 as [[? [-> ?]]|[? ?]]; [|auto].
    simpl in P. lia. }
  split.
  { intros Hmax Htol Hs Ha.
    destruct H5 as [H5|H5]; [|contradiction].
    destruct H4 as [[H4 [-> ->]]|[H4 H4']].
    - rewrite negb_true_iff, andb_false_iff in Hs. destruct Hs as [Hs|Hs].
      + change (used_iterations default_solution) with 0%Z in Hs. apply Z.eqb_neq in Hs. lia.
      + rewrite xgtb_not_above in Hs. simpl in Hs. lra.
    - rewrite H4' in Hs. rewrite negb_true_iff, andb_false_iff in Hs. destruct Hs as [Hs|Hs].
      + apply Z.eqb_neq in Hs. lia.
      + apply xgtb_not_above in Hs. contradiction. }
  intro Hs. apply negb_false_iff, andb_true_iff in Hs. destruct Hs as [Hs Hr].
  apply Z.eqb_eq in Hs. apply xgtb_above in Hr. auto.
Qed.

Theorem solve_success_partial fuel cfg full x y sol :
  residual_never_nan N -> (0 <= maximal_iterations cfg)%Z -> tolerance cfg < 1000000 ->
  solve N fuel cfg full x = Some (Ok (y, sol)) -> success sol = true ->
  at_most (residual sol) (tolerance cfg) /\ residual sol = ns_norm N (ns_eval N y).
Proof.
  intros NN Hm Ht Hr Hs. destruct (solve_spec _ _ _ _ _ _ Hr)
    as [st [_ [S0 [S1 [Hu [_ [Hres [Hsucc _]]]]]]]].
  specialize (Hsucc Hm Ht Hs). specialize (NN y) as NNy.
  apply not_above_at_most in Hsucc; [|auto].
  assert (E : residual sol = ns_norm N (ns_eval N y)).
  { destruct (Z.eq_dec (used_iterations sol) 0) as [E|E].
    - apply Hres. right. assert (length st - 1 = 0)%nat as L by lia. rewrite L in S1. congruence.
    - apply Hres. left. lia. }
  rewrite E. auto.
Qed.

Theorem solve_terminates K cfg full x :
  (forall lu z, exists m, (m <= K)%nat /\ ~ too_long N lu z m) ->
  solve N K cfg full x <> None /\ solve N K cfg full x <> Some UB.
Proof.
  intro HK.
  assert (S1 : forall lu0 z, newton_step N K full lu0 z (ns_eval N z) <> None /\
                             newton_step N K full lu0 z (ns_eval N z) <> Some UB).
  { intros lu0 z. unfold newton_step. destruct (if full then _ else _) as [lu|]; [|split; discriminate].
    assert (T : damp N K lu z (correction N lu z) (correction_norm N lu z) (stepsize 0)
       (trial N lu z 0) (ns_eval N (trial N lu z 0)) (correction_norm N lu (trial N lu z 0)) <> None).
    { apply damp_terminates. destruct (HK lu z) as [m [? ?]]. exists m. split; [lia|auto]. }
    pose proof (damp_not_ub K lu z (correction N lu z) (correction_norm N lu z) (stepsize 0)
       (trial N lu z 0) (ns_eval N (trial N lu z 0)) (correction_norm N lu (trial N lu z 0))) as U.
    unfold correction_norm, trial, correction in T, U. rewrite stepsize_0 in T, U.
    destruct (damp _ _ _ _ _ _ _ _ _ _) as [[[[? ?] ?]| |]|]; split; congruence. }
  assert (LT : forall lu0 left z s, newton_loop N K (tolerance cfg) full lu0 left z (ns_eval N z) s <> None
     /\ newton_loop N K (tolerance cfg) full lu0 left z (ns_eval N z) s <> Some UB).
  { intros lu0; induction left as [|left IH]; intros z s; cbn [newton_loop]; [split; discriminate|].
    destruct (xgtb _ _); [|split; discriminate].
    destruct (S1 lu0 z) as [A B].
    destruct (newton_step _ _ _ _ _ _) as [[[z' v']| |]|] eqn:E; try (split; congruence).
    apply newton_step_spec in E. destruct E as [-> _]. apply IH. }
  unfold solve. destruct (xleb _ _); [split; discriminate|].
  destruct (LT (ns_factor N x) (Z.to_nat (maximal_iterations cfg)) x default_solution) as [A B].
  destruct full, (ns_factor N x); try (split; discriminate);
   destruct (newton_loop _ _ _ _ _ _ _ _ _) as [[[? ?]| |]|]; split; congruence.
Qed.

(** The step of size zero leads back to the state itself and is therefore not too long. *)
Theorem solve_terminates_always cfg full x :
  (forall lu z, ns_move N z 0 (correction N lu z) = z \/
                correction_norm N lu (ns_move N z 0 (correction N lu z)) = NaN) ->
  solve N 1075 cfg full x <> None /\ solve N 1075 cfg full x <> Some UB.
Proof.
  intro H. apply solve_terminates. intros lu z. exists 1075%nat. split; [apply le_n|].
  unfold too_long, trial. replace (stepsize 1075) with 0 by reflexivity.
  destruct (H lu z) as [E|E]; rewrite E.
  - destruct (correction_norm N lu z) as [r| | |]; cbn [above xscale]; try tauto.
    replace ((1 - / 2 * 0) * r) with r by ring. apply Rlt_irrefl.
  - destruct (correction_norm N lu z); cbn [above xscale]; tauto.
Qed.

End Solve.

(** ** One-dimensional systems, for the examples and counterexamples *)

(** Residual [f], derivative 1 everywhere. *)
Definition xneg (a : xdouble) : xdouble :=
  match a with Fin x => Fin (- x) | PInf => NInf | NInf => PInf | NaN => NaN end.
Definition xabs (a : xdouble) : xdouble :=
  match a with Fin x => Fin (Rabs x) | PInf | NInf => PInf | NaN => NaN end.
Definition line (f : R -> xdouble) : nsystem := {|
  ns_vec := xdouble; ns_lu := unit;
  ns_eval := fun x => match x with Fin r => f r | _ => NaN end;
  ns_norm := xabs;
  ns_move := fun x l s => match x, s with Fin a, Fin b => Fin (a + l * b) | _, _ => NaN end;
  ns_neg := xneg;
  ns_factor := fun _ => Some tt;
  ns_linsolve := fun _ v => v |}.

(** A residual like log: defined on the positive numbers only. *)
Definition half_line (r : R) : xdouble := if Rltb 0 r then Fin 2 else NaN.

Lemma nan_success :
  solve (line half_line) 0 {| tolerance := / 2; maximal_iterations := 10 |} true (Fin 1)
  = Some (Ok (Fin (1 + 1 * - (2)), {| success := true; residual := NaN; used_iterations := 1 |})).
Proof.
  unfold solve. cbn [line ns_eval ns_norm tolerance maximal_iterations ns_factor].
  unfold half_line.
  replace (Rltb 0 1) with true by (symmetry; apply Rltb_true; lra).
  cbn [xabs xleb]. rewrite Rabs_pos_eq by lra.
  replace (Rleb 2 (/ 2)) with false by (symmetry; apply Rleb_false; lra).
  change (Z.to_nat 10) with 10%nat.
  cbn [newton_loop]. unfold xgtb.
  cbn [line ns_norm xabs xltb]. rewrite Rabs_pos_eq by lra.
  replace (Rltb (/ 2) 2) with true by (symmetry; apply Rltb_true; lra).
  unfold newton_step.
  cbn [line ns_eval ns_norm tolerance maximal_iterations ns_factor ns_linsolve ns_neg ns_move xneg].
  replace (Rltb 0 (1 + 1 * - (2))) with false by (symmetry; apply Rltb_false; lra).
  cbn [damp line ns_eval ns_norm tolerance maximal_iterations ns_factor ns_linsolve ns_neg ns_move xneg xabs xgtb xltb].
  unfold xgtb. cbn [xscale xltb]. cbn [newton_loop].
  cbn [line ns_norm xabs]. unfold xgtb. cbn [xltb]. reflexivity.
Qed.

(** With a negative iteration limit the solver reports success for any start value. *)
Lemma negative_limit N fuel cfg full x lu :
  (maximal_iterations cfg < 0)%Z ->
  ns_factor N x = Some lu ->
  ~ at_most (ns_norm N (ns_eval N x)) (tolerance cfg) ->
  solve N fuel cfg full x
  = Some (Ok (x, {| success := true; residual := Fin 1000000; used_iterations := 0 |})).
Proof.
  intros Hm Hf Hn. unfold solve.
  destruct (xleb _ _) eqn:E; [apply xleb_at_most in E; contradiction|].
  rewrite Hf. replace (Z.to_nat (maximal_iterations cfg)) with 0%nat by lia.
  cbn [newton_loop]. cbv zeta.
  change (used_iterations default_solution) with 0%Z.
  replace (0 =? maximal_iterations cfg)%Z with false by (symmetry; apply Z.eqb_neq; lia).
  destruct full; reflexivity.
Qed.

(** A system whose full Newton step is too long. *)
Definition real_line (f : R -> R) : nsystem := {|
  ns_vec := R; ns_lu := unit;
  ns_eval := f;
  ns_norm := fun v => Fin (Rabs v);
  ns_move := fun x l s => x + l * s;
  ns_neg := Ropp;
  ns_factor := fun _ => Some tt;
  ns_linsolve := fun _ v => v |}.
Definition overshoot (r : R) : R := if Rltb r 2 then 8 else r.

Lemma real_line_not_nan f : residual_never_nan (real_line f).
Proof. intros x; discriminate. Qed.

Ltac decide_bools :=
  repeat match goal with
  | |- context [Rltb ?a ?b] =>
      first [ replace (Rltb a b) with true by (symmetry; apply Rltb_true; lra)
            | replace (Rltb a b) with false by (symmetry; apply Rltb_false; lra) ]
  | |- context [Rleb ?a ?b] =>
      first [ replace (Rleb a b) with true by (symmetry; apply Rleb_true; lra)
            | replace (Rleb a b) with false by (symmetry; apply Rleb_false; lra) ]
  | |- context [Rabs ?a] =>
      first [ rewrite (Rabs_pos_eq a) by lra | rewrite (Rabs_left1 a) by lra ]
  end.

Lemma overshoot_run :
  solve (real_line overshoot) 5 {| tolerance := 2; maximal_iterations := 10 |} false 4
  = Some (Ok (4 + 1 * / 2 * - (4),
       {| success := true; residual := Fin (4 + 1 * / 2 * - (4)); used_iterations := 1 |})).
Proof.
  assert (M : minimal_stepsize < 1).
  { unfold minimal_stepsize. rewrite <- Rinv_1. apply Rinv_lt_contravar; simpl; lra. }
  unfold solve. change (Z.to_nat (maximal_iterations {| tolerance := 2; maximal_iterations := 10 |})) with 10%nat.
  unfold overshoot.
  repeat (progress (cbn -[Rltb Rleb Rabs IZR Rmult Rplus Ropp Rinv Rminus minimal_stepsize Z.eqb halve];
                    try rewrite halve_1;
                    decide_bools)).
  reflexivity.
Qed.
