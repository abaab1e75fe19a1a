(** * Saved values of stochastic nodes *)
From Coq Require Import Reals ZArith List Bool Lia Lra.
From Verif Require Import Base Interp_Model Interp_Proofs Newton_Model Newton_Spec Newton_Proofs
  Evolve_Model Evolve_Spec Evolve_Proofs.
Import ListNotations.
Local Open Scope R_scope.

Lemma nth_map_combine {A B S} (f : A -> B -> S) : forall (p : list A) (r : list B) i s,
  nth_error (map (fun '(t, x) => f t x) (combine p r)) i = Some s ->
  exists t x, nth_error p i = Some t /\ nth_error r i = Some x /\ s = f t x.
Proof.
  induction p as [|a p IH]; intros [|b r] [|i] s E; try discriminate; cbn in *.
  - injection E as <-. eauto.
  - eauto.
Qed.

Lemma saved_are_last (N : stochastic_network) fuel sfuel cfg controls points x e rows e' saved :
  let P := stochastic_problem N in
  simulate P fuel sfuel cfg controls points x e = (Some (Ok rows), e') ->
  save_all P (fun s t x => stochastic_save s t x) points
    (simulate P fuel sfuel cfg controls points x e) = Some (Ok saved) ->
  length saved = length points /\
  (forall i t p, nth_error saved i = Some (t, p) ->
     nth_error points i = Some t /\ p = current_P e') /\
  (forall i t0 t1 u v, consecutive P points rows i t0 t1 u v -> S (S i) = length points ->
     accepted P (newton cfg) fuel controls t0 t1 u v e').
Proof.
  intros P H Hs. rewrite H in Hs. cbn in Hs. injection Hs as <-.
  apply simulate_ok in H. destruct H as [L [L2 [H0 K]]].
  split. { rewrite map_length, combine_length. etransitivity; [|apply Nat.min_id]. f_equal. exact L. }
  split.
  - intros i t p Hi. apply nth_map_combine in Hi. destruct Hi as [t' [x' [A [B C]]]].
    injection C as -> ->. auto.
  - intros i t0 t1 u v Hc Hi. destruct (K i t0 t1 u v Hc) as [e1 [A B]].
    rewrite <- (B Hi). exact A.
Qed.

(** One node, state = its power, noise 1 in every step. *)
Definition walk : stochastic_network := {|
  sn_vec := xdouble; sn_lu := unit; sn_gen := unit;
  sn_draw := fun g last mean dt => (match last with Fin l => Fin (l + 1) | y => y end, g);
  sn_mean := fun _ => 0;
  sn_power := fun x => x;
  sn_assemble := fun _ _ _ _ _ r => r;
  sn_factor := fun _ _ _ _ _ => Some tt;
  sn_norm := xabs;
  sn_move := fun x l s => match x, s with Fin a, Fin b => Fin (a + l * b) | _, _ => NaN end;
  sn_neg := xneg;
  sn_linsolve := fun _ v => v |}.
Definition walk_settings : tsettings :=
  {| newton := {| tolerance := / 2; maximal_iterations := 5 |}; retries := 1;
     use_simplified_newton := false |}.
Definition no_controls : ivec := mk_ivec [0; 2] 0 [].
Definition walk_start : stochastic_state unit := {| current_P := NaN; generator := tt |}.

Lemma walk_step e t0 t1 a : exists s,
  time_step (stochastic_problem walk) 3 5 walk_settings t0 t1 (Fin a) (Fin a) [] e
  = (Some (Ok (Fin (a + 1 * - (a - (a + 1))), s)),
     {| current_P := Fin (a + 1); generator := tt |},
     [{| at_env := {| current_P := Fin (a + 1); generator := tt |}; at_full := true;
         at_start := Fin a; at_result := Some (Ok (Fin (a + 1 * - (a - (a + 1))), s)) |}])
  /\ success s = true.
Proof.
  unfold time_step, make_one_step. cbn [attempts walk_settings use_simplified_newton retries newton].
  cbn [stochastic_problem pr_prepare walk sn_draw sn_mean sn_power stochastic_prepare].
  unfold stochastic_prepare. cbn [generator].
  destruct e as [cur []]. cbn [generator].
  match goal with |- context [solve ?S ?f ?c ?b ?x] => set (SS := solve S f c b x) end.
  assert (Q : exists s, SS = Some (Ok (Fin (a + 1 * - (a - (a + 1))), s)) /\ success s = true).
  { unfold SS, solve. change (Z.to_nat (maximal_iterations {| tolerance := / 2; maximal_iterations := 5 |})) with 5%nat.
    assert (D : (a - (a + 1)) = -1) by ring.
    assert (D2 : (a + 1 * - (a - (a + 1)) - (a + 1)) = 0) by ring.
    unfold system_of, stochastic_problem, walk, stochastic_residual.
    repeat (progress (cbn -[Rltb Rleb Rabs IZR Rmult Rplus Ropp Rinv Rminus minimal_stepsize Z.eqb];
                      unfold stochastic_residual;
                      decide_bools)).
    eexists. split; [reflexivity|]. cbn [success residual used_iterations]. reflexivity. }
  destruct Q as [s [Q1 Q2]]. exists s. split; [|exact Q2].
  rewrite Q1. rewrite Q2. reflexivity.
Qed.

Lemma walk_simulation : exists a b,
  simulate (stochastic_problem walk) 3 5 walk_settings no_controls [0; 1; 2] (Fin 0) walk_start
  = (Some (Ok [Fin 0; Fin a; Fin b]), {| current_P := Fin (a + 1); generator := tt |})
  /\ a = 1 /\ b = 2.
Proof.
  exists (0 + 1 * - (0 - (0 + 1))).
  exists (0 + 1 * - (0 - (0 + 1)) + 1 * - ((0 + 1 * - (0 - (0 + 1))) - ((0 + 1 * - (0 - (0 + 1))) + 1))).
  split; [|split; ring].
  unfold simulate. cbn [current_controls no_controls iinner Nat.ltb Nat.leb simulate_loop].
  destruct (walk_step walk_start 0 1 0) as [s1 [E1 S1]].
  rewrite E1, S1.
  destruct (walk_step {| current_P := Fin (0 + 1); generator := tt |} 1 2
              (0 + 1 * - (0 - (0 + 1)))) as [s2 [E2 S2]].
  rewrite E2, S2. reflexivity.
Qed.

Lemma walk_zero_step :
  zero_step_ends (stochastic_problem walk) /\
  (attempt_bound (use_simplified_newton walk_settings) (retries walk_settings) <= Z.of_nat 5)%Z.
Proof.
  split; [|vm_compute; discriminate].
  intros e t0 t1 x c lu z. unfold correction_norm, correction, system_of.
  cbn [stochastic_problem walk pr_move pr_norm pr_neg pr_linsolve pr_eval ns_vec ns_norm ns_neg ns_linsolve ns_eval
       sn_move sn_norm sn_neg sn_linsolve sn_assemble sn_power].
  unfold stochastic_residual.
  destruct z as [a| | |]; [|right|right|right]; try reflexivity.
  destruct (current_P e) as [b| | |]; cbn [xsub xneg xabs]; [left; f_equal; ring| | |]; right; reflexivity.
Qed.
