(** * Proofs about retries and simulation *)
From Coq Require Import Reals ZArith List Bool Lia Lra.
From Verif Require Import Base Interp_Model Interp_Proofs Newton_Model Newton_Spec Newton_Proofs
  Evolve_Model Evolve_Spec.
Import ListNotations.
Local Open Scope R_scope.

Section Retries.
Context {V E : Type}.
Variable prepare : E -> outcome E.
Variable solver : E -> bool -> V -> nresult (V * solution).
Notation attempts := (@attempts V E prepare solver).

Definition tail_bound (cfg : tsettings) (retry : Z) : Z :=
  Z.max 1 (2 * retries cfg + 2 - retry).
Definition flag (cfg : tsettings) (retry : Z) (full : bool) (i : nat) : bool :=
  (full || (use_simplified_newton cfg && (retry <=? retries cfg)%Z
            && (retries cfg <? retry + Z.of_nat i)%Z))%bool.

Lemma attempts_spec cfg x : forall fuel retry full e r e' log,
  attempts fuel cfg x retry full e = (r, e', log) ->
  (Z.of_nat (length log) <= tail_bound cfg retry)%Z /\
  (forall a, nth_error log 0 = Some a -> prepare e = Ok (at_env a)) /\
  (forall i a b, nth_error log i = Some a -> nth_error log (S i) = Some b ->
    prepare (at_env a) = Ok (at_env b) /\ failed (at_result a)) /\
  (forall i a, nth_error log i = Some a ->
    at_start a = x /\ at_full a = flag cfg retry full i /\
    at_result a = solver (at_env a) (at_full a) x) /\
  (forall y sol, r = Some (Ok (y, sol)) -> success sol = true /\
    exists a, nth_error log (length log - 1) = Some a /\ at_env a = e' /\ at_result a = r) /\
  (r = Some Exc ->
    (exists a, nth_error log (length log - 1) = Some a /\ at_result a = Some Exc) \/
    (exists e1, prepare e1 = Exc) \/
    (Z.of_nat (length log) = tail_bound cfg retry /\
     forall i a, nth_error log i = Some a -> failed (at_result a))).
Proof.
  induction fuel as [|fuel IH]; intros retry full e r e' log H; cbn [Evolve_Model.attempts] in H.
  { injection H as <- <- <-. cbn [length]. unfold tail_bound.
    split; [lia|]. split; [intros; discriminate|]. split; [intros [|] ? ?; discriminate|].
    split; [intros [|] ?; discriminate|]. split; intros; discriminate. }
  destruct (prepare e) as [e1| |] eqn:Ep.
  2:{ injection H as <- <- <-. cbn [length]. unfold tail_bound.
    split; [lia|]. split; [intros; discriminate|]. split; [intros [|] ? ?; discriminate|].
    split; [intros [|] ?; discriminate|]. split; [intros; discriminate|].
    intros _. right; left. eauto. }
  2:{ injection H as <- <- <-. cbn [length]. unfold tail_bound.
    split; [lia|]. split; [intros; discriminate|]. split; [intros [|] ? ?; discriminate|].
    split; [intros [|] ?; discriminate|]. split; intros; discriminate. }
  assert (F0 : flag cfg retry full 0 = full).
  { unfold flag. destruct full; [auto|]. simpl.
    destruct (use_simplified_newton cfg); [|auto]. simpl.
    destruct (Z.leb_spec retry (retries cfg)); [|auto]. simpl. apply Z.ltb_ge. lia. }
  set (entry := {| at_env := e1; at_full := full; at_start := x; at_result := solver e1 full x |}) in H.
  assert (One : forall r0, (r0, e1, [entry]) = (r, e', log) ->
     (forall y sol, r0 = Some (Ok (y, sol)) -> success sol = true /\ solver e1 full x = r0) ->
     (r0 = Some Exc -> solver e1 full x = Some Exc \/
        (tail_bound cfg retry = 1%Z /\ failed (solver e1 full x))) ->
  (Z.of_nat (length log) <= tail_bound cfg retry)%Z /\
  (forall a, nth_error log 0 = Some a -> Ok e1 = Ok (at_env a)) /\
  (forall i a b, nth_error log i = Some a -> nth_error log (S i) = Some b ->
    prepare (at_env a) = Ok (at_env b) /\ failed (at_result a)) /\
  (forall i a, nth_error log i = Some a ->
    at_start a = x /\ at_full a = flag cfg retry full i /\
    at_result a = solver (at_env a) (at_full a) x) /\
  (forall y sol, r = Some (Ok (y, sol)) -> success sol = true /\
    exists a, nth_error log (length log - 1) = Some a /\ at_env a = e' /\ at_result a = r) /\
  (r = Some Exc ->
    (exists a, nth_error log (length log - 1) = Some a /\ at_result a = Some Exc) \/
    (exists e1, prepare e1 = Exc) \/
    (Z.of_nat (length log) = tail_bound cfg retry /\
     forall i a, nth_error log i = Some a -> failed (at_result a)))).
  { intros r0 Hr Hok Hexc.
    assert (r0 = r) by congruence. assert (e1 = e') by congruence. assert ([entry] = log) by congruence.
    clear Hr. subst r e' log. cbn [length]. change (1 - 1)%nat with 0%nat.
    split; [unfold tail_bound; lia|].
    split; [intros a Ha; injection Ha as <-; reflexivity|].
    split; [intros [|i] a b Ha Hb; [discriminate|destruct i; discriminate]|].
    split. { intros [|i] a Ha; [|destruct i; discriminate]. injection Ha as <-. unfold entry; cbn.
      split; [auto|]. split; [auto|]. auto. }
    split. { intros y sol Hr. destruct (Hok y sol Hr). split; [auto|]. exists entry.
      split; [auto|]. split; [auto|]. unfold entry; cbn. auto. }
    intro Hr. destruct (Hexc Hr) as [Hx|[Hb Hf]].
    - left. exists entry. split; auto.
    - right; right. split; [lia|]. intros [|i] a Ha; [|destruct i; discriminate].
      injection Ha as <-. exact Hf. }
  cbv zeta in H. destruct (solver e1 full x) as [[[y sol]| |]|] eqn:Es.
  - destruct (success sol) eqn:Su.
    { eapply One; [exact H| |].
      - intros y0 s0 Hy. injection Hy as <- <-. auto.
      - discriminate. }
    destruct (2 * retries cfg <? retry)%Z eqn:El.
    { eapply One; [exact H| |].
      - intros; discriminate.
      - intros _. right. split; [apply Z.ltb_lt in El; unfold tail_bound; lia|].
        exists y, sol. auto. }
    apply Z.ltb_ge in El.
    destruct (attempts fuel cfg x (retry + 1)%Z _ e1) as [[r1 e2] log1] eqn:Ea.
    assert (r1 = r) by congruence. assert (e2 = e') by congruence.
    assert (entry :: log1 = log) by congruence. clear H One. subst r1 e2 log.
    apply IH in Ea. destruct Ea as [A1 [A2 [A3 [A4 [A5 A6]]]]].
    assert (TB : tail_bound cfg retry = (tail_bound cfg (retry + 1) + 1)%Z \/
                 retry = (2 * retries cfg + 1)%Z).
    { unfold tail_bound. lia. }
    assert (TB' : tail_bound cfg retry = (1 + tail_bound cfg (retry + 1))%Z)
      by (unfold tail_bound; lia).
    cbn [length].
    split; [lia|].
    split; [intros a Ha; cbn in Ha; injection Ha as <-; reflexivity|].
    split.
    { intros [|i] a b Ha Hb.
      - cbn in Ha, Hb. injection Ha as <-. split; [apply A2; exact Hb|].
        exists y, sol. split; [reflexivity|auto].
      - cbn in Ha, Hb. eapply A3; eauto. }
    split.
    { intros [|i] a Ha.
      - cbn in Ha. injection Ha as <-. unfold entry; cbn. split; [auto|]. split; [auto|]. auto.
      - cbn in Ha. destruct (A4 i a Ha) as [B1 [B2 B3]]. split; [auto|]. split; [|auto].
        rewrite B2. unfold flag.
        destruct full, (use_simplified_newton cfg); cbn [andb orb].
        + destruct (retry =? retries cfg)%Z; reflexivity.
        + reflexivity.
        + destruct (Z.eqb_spec retry (retries cfg)).
          * cbn [orb]. symmetry. apply andb_true_iff. split; [apply Z.leb_le; lia|apply Z.ltb_lt; lia].
          * cbn [orb].
            replace (retry + Z.of_nat (S i))%Z with (retry + 1 + Z.of_nat i)%Z by lia.
            destruct (Z.leb_spec retry (retries cfg)), (Z.leb_spec (retry + 1) (retries cfg));
              try lia; reflexivity.
        + reflexivity. }
    assert (Hl : forall a, nth_error log1 (length log1 - 1) = Some a ->
                 nth_error (entry :: log1) (S (length log1) - 1) = Some a).
    { intros a Ha. destruct log1 as [|b log1]; [discriminate|].
      cbn [length] in *. replace (S (S (length log1)) - 1)%nat with (S (length log1)) by lia.
      cbn [nth_error]. replace (S (length log1) - 1)%nat with (length log1) in Ha by lia. exact Ha. }
    split.
    { intros y0 s0 Hr. destruct (A5 y0 s0 Hr) as [B1 [a [B2 [B3 B4]]]]. split; [auto|].
      exists a. auto. }
    intro Hr. destruct (A6 Hr) as [[a [B1 B2]]|[B|[B1 B2]]].
    + left. exists a. auto.
    + right; left; auto.
    + right; right. split; [lia|]. intros [|i] a Ha; cbn in Ha.
      * injection Ha as <-. exists y, sol. split; [reflexivity|auto].
      * eapply B2; eauto.
  - eapply One; [exact H| |]; [intros; discriminate|auto].
  - eapply One; [exact H| |]; intros; discriminate.
  - eapply One; [exact H| |]; intros; discriminate.
Qed.

Lemma attempts_terminate cfg x :
  (forall e full y, solver e full y <> None) ->
  forall fuel retry full e,
  (tail_bound cfg retry <= Z.of_nat fuel)%Z ->
  fst (fst (attempts fuel cfg x retry full e)) <> None.
Proof.
  intro Hs. induction fuel as [|fuel IH]; intros retry full e Hb.
  { unfold tail_bound in Hb. lia. }
  cbn [Evolve_Model.attempts]. destruct (prepare e) as [e1| |]; try discriminate.
  cbv zeta. specialize (Hs e1 full x).
  destruct (solver e1 full x) as [[[y sol]| |]|] eqn:Es; try discriminate; [|congruence].
  destruct (success sol); [discriminate|].
  destruct (2 * retries cfg <? retry)%Z eqn:El; [discriminate|].
  apply Z.ltb_ge in El.
  specialize (IH (retry + 1)%Z (if (use_simplified_newton cfg && (retry =? retries cfg)%Z)%bool then true else full) e1).
  destruct (attempts fuel cfg x (retry + 1)%Z _ e1) as [[r1 e2] log1].
  cbn [fst] in *. apply IH. unfold tail_bound in *. lia.
Qed.

Lemma bound_start cfg :
  attempt_bound (use_simplified_newton cfg) (retries cfg)
  = tail_bound cfg (if use_simplified_newton cfg then 0 else retries cfg)%Z.
Proof.
  unfold attempt_bound, tail_bound. destruct (Z.ltb_spec (retries cfg) 0), (use_simplified_newton cfg); lia.
Qed.

Lemma flag_start cfg i :
  flag cfg (if use_simplified_newton cfg then 0 else retries cfg)%Z
    (negb (use_simplified_newton cfg)) i
  = uses_full (use_simplified_newton cfg) (retries cfg) i.
Proof. unfold flag, uses_full. destruct (use_simplified_newton cfg); reflexivity. Qed.

Theorem make_one_step_spec fuel cfg x e r e' log :
  make_one_step prepare solver fuel cfg x e = (r, e', log) ->
  well_behaved prepare solver (use_simplified_newton cfg) (retries cfg) x e log /\
  (forall y sol, r = Some (Ok (y, sol)) -> success sol = true /\
    exists a, nth_error log (length log - 1) = Some a /\ at_env a = e' /\ at_result a = r) /\
  (r = Some Exc ->
    (exists a, nth_error log (length log - 1) = Some a /\ at_result a = Some Exc) \/
    (exists e1, prepare e1 = Exc) \/
    (Z.of_nat (length log) = attempt_bound (use_simplified_newton cfg) (retries cfg) /\
     forall i a, nth_error log i = Some a -> failed (at_result a))).
Proof.
  intro H. apply attempts_spec in H. destruct H as [A1 [A2 [A3 [A4 [A5 A6]]]]].
  rewrite <- bound_start in A1, A6.
  split; [constructor; auto|split; auto].
  intros i a Ha. rewrite <- flag_start. auto.
Qed.

Theorem make_one_step_terminates fuel cfg x e :
  (forall e full y, solver e full y <> None) ->
  (attempt_bound (use_simplified_newton cfg) (retries cfg) <= Z.of_nat fuel)%Z ->
  fst (fst (make_one_step prepare solver fuel cfg x e)) <> None.
Proof. intros Hs Hb. apply attempts_terminate; auto. rewrite <- bound_start. auto. Qed.

End Retries.

(** ** Simulation *)
Section Simulation.
Variable P : problem.
Notation V := (pr_vec P).
Notation E := (pr_env P).
Variables fuel sfuel : nat.
Variable cfg : tsettings.
Variable controls : ivec.

Lemma time_step_ok t0 t1 x c e y sol e' log :
  time_step P fuel sfuel cfg t0 t1 x x c e = (Some (Ok (y, sol)), e', log) ->
  current_controls controls t1 = Ok c ->
  accepted P (newton cfg) fuel controls t0 t1 x y e'.
Proof.
  intros H Hc. unfold time_step in H. apply make_one_step_spec in H.
  destruct H as [W [H _]]. destruct (H y sol eq_refl) as [Hs [a [Ha [Hb Hr]]]].
  destruct (wb_start _ _ _ _ _ _ _ W _ _ Ha) as [_ [_ Hsol]].
  assert (Hp : exists e0, pr_prepare P e0 t0 t1 x c = Ok (at_env a)).
  { destruct (length log - 1)%nat as [|k] eqn:El.
    - exists e. apply (wb_first _ _ _ _ _ _ _ W a Ha).
    - destruct (nth_error log k) as [b|] eqn:Eb.
      + exists (at_env b). apply (wb_next _ _ _ _ _ _ _ W k b a Eb Ha).
      + apply nth_error_None in Eb. assert (nth_error log (S k) <> None) as Hn by congruence.
        apply nth_error_Some in Hn. lia. }
  destruct Hp as [e0 Hp]. subst e'.
  exists c, e0, (at_full a), sol. split.
  { unfold current_controls in Hc. destruct (Nat.ltb_spec 0 (iinner controls)).
    - right. auto. - left. split; [lia|congruence]. }
  split; [auto|]. split; [|auto]. rewrite Hr in Hsol. symmetry. exact Hsol.
Qed.

Lemma loop_ok : forall times t0 x e rows e',
  simulate_loop P fuel sfuel cfg controls times t0 x x e = (Some (Ok rows), e') ->
  length rows = length times /\
  (forall i a b u v, consecutive P (t0 :: times) (x :: rows) i a b u v ->
    exists e1, accepted P (newton cfg) fuel controls a b u v e1 /\
      (S (S i) = length (t0 :: times) -> e1 = e')).
Proof.
  induction times as [|t1 times IH]; intros t0 x e rows e' H; cbn [simulate_loop] in H.
  { injection H as <- <-. split; [reflexivity|].
    intros [|i] a b u v [_ [Hb _]]; [discriminate|destruct i; discriminate]. }
  destruct (current_controls controls t1) as [c| |] eqn:Ec; try discriminate.
  destruct (time_step P fuel sfuel cfg t0 t1 x x c e) as [[[[[y sol]| |]|] e1] log] eqn:Et;
    try discriminate.
  destruct (success sol); [|discriminate].
  destruct (simulate_loop P fuel sfuel cfg controls times t1 y y e1) as [[[rows1| |]|] e2] eqn:El;
    try discriminate.
  injection H as <- <-.
  pose proof El as El'. apply IH in El'. destruct El' as [L K].
  split; [cbn; congruence|].
  intros [|i] a b u v [Ha [Hb [Hu Hv]]].
  - cbn in Ha, Hb, Hu, Hv. injection Ha as <-. injection Hb as <-. injection Hu as <-. injection Hv as <-.
    exists e1. split; [eapply time_step_ok; eauto|].
    cbn [length]. intro Hl. assert (times = []) as -> by (destruct times; [auto|discriminate]).
    cbn in El. congruence.
  - destruct (K i a b u v) as [e3 [K1 K2]]; [repeat split; auto|].
    exists e3. split; [auto|]. intro Hl. apply K2. cbn [length] in *. lia.
Qed.

Theorem simulate_ok points x e rows e' :
  simulate P fuel sfuel cfg controls points x e = (Some (Ok rows), e') ->
  length rows = length points /\ (2 <= length points)%nat /\
  nth_error rows 0 = Some x /\
  forall i t0 t1 u v, consecutive P points rows i t0 t1 u v ->
    exists e1, accepted P (newton cfg) fuel controls t0 t1 u v e1 /\
      (S (S i) = length points -> e1 = e').
Proof.
  unfold simulate. destruct points as [|t0 [|t1 rest]]; try discriminate.
  destruct (current_controls controls t1); try discriminate.
  destruct (simulate_loop P fuel sfuel cfg controls (t1 :: rest) t0 x x e) as [[[rows1| |]|] e2] eqn:El;
    try discriminate.
  intro H; injection H as <- <-. apply loop_ok in El. destruct El as [L K].
  split; [cbn [length] in *; congruence|]. split; [cbn; lia|]. split; [reflexivity|].
  exact K.
Qed.

Theorem accepted_equations t0 t1 x y e :
  never_nan P -> (0 <= maximal_iterations (newton cfg))%Z -> tolerance (newton cfg) < 1000000 ->
  accepted P (newton cfg) fuel controls t0 t1 x y e ->
  equations_hold P (tolerance (newton cfg)) controls t0 t1 x y e.
Proof.
  intros NN Hm Ht [c [e0 [full [sol [Hc [Hp [Hs Hsu]]]]]]].
  exists c. split; [auto|].
  destruct (solve_success_partial (system_of P e t0 t1 x c) fuel (newton cfg) full x y sol)
    as [A B]; auto.
  { intro z. apply NN. }
  rewrite B in A. exact A.
Qed.

(** The first step that does not succeed ends the simulation. *)
Lemma loop_exc : forall times t0 x e e',
  simulate_loop P fuel sfuel cfg controls times t0 x x e = (Some Exc, e') ->
  exists before t1 after rows tl xl el,
    times = before ++ t1 :: after /\
    simulate_loop P fuel sfuel cfg controls before t0 x x e = (Some (Ok rows), el) /\
    nth_error (t0 :: before) (length before) = Some tl /\
    nth_error (x :: rows) (length before) = Some xl /\
    (current_controls controls t1 = Exc \/
     exists c log, current_controls controls t1 = Ok c /\
       time_step P fuel sfuel cfg tl t1 xl xl c el = (Some Exc, e', log)).
Proof.
  induction times as [|t1 times IH]; intros t0 x e e' H; cbn [simulate_loop] in H; [discriminate|].
  destruct (current_controls controls t1) as [c| |] eqn:Ec; try discriminate.
  2:{ exists [], t1, times, [], t0, x, e. cbn. repeat split; auto. }
  destruct (time_step P fuel sfuel cfg t0 t1 x x c e) as [[[[[y sol]| |]|] e1] log] eqn:Et;
    try discriminate.
  2:{ injection H as <-. exists [], t1, times, [], t0, x, e. cbn. repeat split; auto.
      right. eauto. }
  assert (Hs : success sol = true).
  { unfold time_step in Et. apply make_one_step_spec in Et. destruct Et as [_ [Et _]].
    apply (Et y sol eq_refl). }
  rewrite Hs in H.
  destruct (simulate_loop P fuel sfuel cfg controls times t1 y y e1) as [[[rows1| |]|] e2] eqn:El;
    try discriminate.
  injection H as <-. apply IH in El.
  destruct El as [bef [t2 [aft [rows [tl [xl [el [K1 [K2 [K3 [K4 K5]]]]]]]]]]].
  exists (t1 :: bef), t2, aft, (y :: rows), tl, xl, el.
  split; [cbn; congruence|]. split.
  { cbn [simulate_loop]. rewrite Ec, Et, Hs, K2. reflexivity. }
  split; [exact K3|]. split; [exact K4|]. exact K5.
Qed.

Theorem simulate_exc points x e e' :
  simulate P fuel sfuel cfg controls points x e = (Some Exc, e') ->
  exists k tk t1,
    nth_error points k = Some tk /\ nth_error points (S k) = Some t1 /\
    (current_controls controls t1 = Exc \/
     exists rows xk ek c log,
       (k = 0%nat /\ rows = [x] /\ ek = e \/
        (0 < k)%nat /\
        simulate P fuel sfuel cfg controls (firstn (S k) points) x e = (Some (Ok rows), ek)) /\
       nth_error rows k = Some xk /\
       current_controls controls t1 = Ok c /\
       time_step P fuel sfuel cfg tk t1 xk xk c ek = (Some Exc, e', log)).
Proof.
  unfold simulate. destruct points as [|t0 [|t1 rest]]; try discriminate.
  destruct (current_controls controls t1) as [c1| |] eqn:Ec; try discriminate.
  2:{ intros _. exists 0%nat, t0, t1. cbn. auto. }
  destruct (simulate_loop P fuel sfuel cfg controls (t1 :: rest) t0 x x e) as [[[rows1| |]|] e2] eqn:El;
    try discriminate.
  intro H; injection H as <-. apply loop_exc in El.
  destruct El as [bef [t2 [aft [rows [tl [xl [el [K1 [K2 [K3 [K4 K5]]]]]]]]]]].
  exists (length bef), tl, t2.
  split. { rewrite K1. change (t0 :: bef ++ t2 :: aft) with ((t0 :: bef) ++ t2 :: aft).
           rewrite nth_error_app1; [auto|cbn; lia]. }
  split. { rewrite K1. cbn [nth_error]. rewrite nth_error_app2, Nat.sub_diag by lia. reflexivity. }
  destruct K5 as [K5|[c [log [K5 K6]]]]; [left; auto|].
  right. exists (x :: rows), xl, el, c, log.
  split; [|auto].
  destruct bef as [|b0 bef].
  - left. cbn in K2. injection K2 as <- <-. auto.
  - right. split; [cbn; lia|].
    assert (t1 = b0) as <- by (cbn in K1; congruence).
    assert (F : firstn (S (length (t1 :: bef))) (t0 :: t1 :: rest) = t0 :: t1 :: bef).
    { cbn [length firstn app] in *. injection K1 as ->.
      rewrite firstn_app, Nat.sub_diag, firstn_all. cbn. rewrite app_nil_r. reflexivity. }
    rewrite F, Ec, K2. reflexivity.
Qed.
End Simulation.

(** ** Termination of a simulation *)
Lemma simulate_loop_terminates P sfuel cfg controls :
  zero_step_ends P ->
  (attempt_bound (use_simplified_newton cfg) (retries cfg) <= Z.of_nat sfuel)%Z ->
  forall times t0 x y e, fst (simulate_loop P 1075 sfuel cfg controls times t0 x y e) <> None.
Proof.
  intros Z B. induction times as [|t1 times IH]; intros t0 x y e; cbn [simulate_loop]; [discriminate|].
  destruct (current_controls controls t1) as [c| |]; try discriminate.
  assert (T : fst (fst (time_step P 1075 sfuel cfg t0 t1 x y c e)) <> None).
  { unfold time_step. apply make_one_step_terminates; [|exact B].
    intros e1 full z. apply (solve_terminates_always (system_of P e1 t0 t1 x c)). exact (Z e1 t0 t1 x c). }
  destruct (time_step P 1075 sfuel cfg t0 t1 x y c e) as [[[[[z sol]| |]|] e'] log]; cbn [fst] in T |- *;
    try discriminate; [|congruence].
  destruct (success sol); [|discriminate].
  specialize (IH t1 z z e'). destruct (simulate_loop P 1075 sfuel cfg controls times t1 z z e') as [[[rows| |]|] e''];
    cbn [fst] in *; congruence.
Qed.

Theorem simulate_terminates P sfuel cfg controls points x e :
  zero_step_ends P ->
  (attempt_bound (use_simplified_newton cfg) (retries cfg) <= Z.of_nat sfuel)%Z ->
  fst (simulate P 1075 sfuel cfg controls points x e) <> None.
Proof.
  intros Z B. unfold simulate. destruct points as [|t0 [|t1 rest]]; try discriminate.
  destruct (current_controls controls t1) as [c| |]; try discriminate.
  pose proof (simulate_loop_terminates P sfuel cfg controls Z B (t1 :: rest) t0 x x e) as H.
  destruct (simulate_loop P 1075 sfuel cfg controls (t1 :: rest) t0 x x e) as [[[rows| |]|] e']; cbn [fst] in *; congruence.
Qed.
