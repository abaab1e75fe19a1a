(** * The simulations behind the answers of the callbacks, and the order in which they ran *)
From Coq Require Import Reals List Arith Lia Bool.
From Verif Require Import Base Interp_Model Newton_Model.
From Verif Require Evolve_Model Optim_Model Optim_Spec Optim_Proofs.
Import ListNotations.

(** A simulation, successful or not, respects what every preparation of a step respects. *)
Section Grows.
Import Evolve_Model.
Variable P : problem.
Variables (fuel sfuel : nat) (cfg : tsettings) (controls : ivec) (le : pr_env P -> pr_env P -> Prop).
Hypothesis le_refl : forall e, le e e.
Hypothesis le_trans : forall a b c, le a b -> le b c -> le a c.
Hypothesis le_prepare : forall e t0 t1 x c e', pr_prepare P e t0 t1 x c = Ok e' -> le e e'.
Lemma attempts_grow t0 t1 last c : forall f backup retry full e r e' log,
  attempts (fun e => pr_prepare P e t0 t1 last c) (fun e full x => solve (system_of P e t0 t1 last c) fuel (newton cfg) full x) f cfg backup retry full e = (r, e', log) -> le e e'.
Proof.
  induction f as [|f IH]; intros backup retry full e r e' log H; cbn [attempts] in H; [injection H as _ <- _; apply le_refl|].
  destruct (pr_prepare P e t0 t1 last c) as [e1| |] eqn:Ep; [|injection H as _ <- _; apply le_refl|injection H as _ <- _; apply le_refl].
  assert (L : le e e1) by (eapply le_prepare, Ep).
  destruct (solve (system_of P e1 t0 t1 last c) fuel (newton cfg) full backup) as [[[y sol]| |]|]; try (injection H as _ <- _; exact L).
  destruct (success sol); [injection H as _ <- _; exact L|]. destruct (2 * retries cfg <? retry)%Z; [injection H as _ <- _; exact L|].
  destruct (attempts _ _ f cfg backup (retry + 1) _ e1) as [[r1 e2] log1] eqn:Ea in H. injection H as _ <- _.
  eapply le_trans; [exact L|]. eapply IH, Ea.
Qed.
Lemma loop_grows : forall times t0 x y e r e', simulate_loop P fuel sfuel cfg controls times t0 x y e = (r, e') -> le e e'.
Proof.
  induction times as [|t1 times IH]; intros t0 x y e r e' H; cbn [simulate_loop] in H; [injection H as _ <-; apply le_refl|].
  destruct (current_controls controls t1) as [c| |]; [|injection H as _ <-; apply le_refl|injection H as _ <-; apply le_refl].
  destruct (time_step P fuel sfuel cfg t0 t1 x y c e) as [[r1 e1] log] eqn:Et.
  assert (L : le e e1) by (eapply attempts_grow, Et).
  destruct r1 as [[[z sol]| |]|]; try (injection H as _ <-; exact L). destruct (success sol); [|injection H as _ <-; exact L].
  destruct (simulate_loop P fuel sfuel cfg controls times t1 z z e1) as [r2 e2] eqn:El.
  assert (Q : e' = e2) by (destruct r2 as [[?| |]|]; injection H; congruence). subst e'.
  eapply le_trans; [exact L|]. eapply IH, El.
Qed.
Lemma simulate_grows points x e r e' : simulate P fuel sfuel cfg controls points x e = (r, e') -> le e e'.
Proof.
  unfold simulate. destruct points as [|t0 [|t1 rest]]; try (intro H; injection H as _ <-; apply le_refl).
  destruct (current_controls controls t1); try (intro H; injection H as _ <-; apply le_refl).
  destruct (simulate_loop P fuel sfuel cfg controls (t1 :: rest) t0 x x e) as [r2 e2] eqn:El.
  intro H. assert (Q : e' = e2) by (destruct r2 as [[?| |]|]; injection H; congruence). subst e'. eapply loop_grows, El.
Qed.
End Grows.

Section Sources.
Import Optim_Model Optim_Spec Optim_Proofs.
Variable B : backend.
Variable le : Env B -> Env B -> Prop.
Hypothesis le_refl : forall e, le e e.
Hypothesis le_trans : forall a b c, le a b -> le b c -> le a c.
Hypothesis le_simulate : forall e c e' r, simulate B e c = (e', r) -> le e e'.
Hypothesis le_derive : forall e c s e' r, derive B e c s = (e', r) -> le e e'.

(** The simulation the states of the optimizer come from: its controls and the mutable parts before
    and after it. *)
Definition origin : Type := (Ctl B * Env B * Env B)%type.
Definition before (s : origin) : Env B := snd (fst s).
Definition behind (s : origin) : Env B := snd s.
Definition source (o : opt B) (s : origin) (cb : callback B) : origin :=
  match asks B cb with
  | Some (c, new) => if states_up_to_date (announce new o) then s else (c, env o, fst (simulate B (env o) c))
  | None => s
  end.
Fixpoint sources (o : opt B) (s : origin) (h : list (callback B)) : list origin :=
  match h with
  | [] => []
  | cb :: h' => let s' := source o s cb in s' :: sources (fst (handle o cb)) s' h'
  end.
Definition comes_from (cur : option (Ctl B)) (s : origin) (o : opt B) : Prop :=
  states_up_to_date o = true -> cur = Some (fst (fst s)) /\ simulate B (before s) (fst (fst s)) = (behind s, Some (cached_states o)) /\ le (behind s) (env o).

Lemma refresh_source o c cur s : comes_from cur s o -> (states_up_to_date o = true -> cur = Some c) ->
  let '(o1, ok) := refresh o c in
  comes_from (Some c) (if states_up_to_date o then s else (c, env o, fst (simulate B (env o) c))) o1 /\ le (env o) (env o1).
Proof.
  intros H Hc. unfold refresh. destruct (states_up_to_date o) eqn:Es.
  - split; [|apply le_refl]. intros _. destruct (H Es) as (E & F). specialize (Hc eq_refl). split; [congruence|exact F].
  - destruct (simulate B (env o) c) as [e [x|]] eqn:E; cbn [env]; split; try (eapply le_simulate, E); intro Q; [|discriminate].
    cbn. split; [reflexivity|]. split; [exact E|apply le_refl].
Qed.
Lemma compute_source o c cur s : comes_from cur s o -> comes_from cur s (fst (compute_derivatives o c)) /\ le (env o) (env (fst (compute_derivatives o c))).
Proof.
  intro H. unfold compute_derivatives. destruct (derive B (env o) c (cached_states o)) as [e [ok d]] eqn:E. cbn [fst env].
  assert (L : le (env o) e) by (eapply le_derive, E). split; [|exact L]. intro Q. cbn [states_up_to_date] in Q. destruct (H Q) as (H1 & H2 & H3).
  split; [exact H1|]. split; [exact H2|]. cbn [env]. eapply le_trans; [exact H3|exact L].
Qed.
Lemma provide_source o c cur s : inv B (Some c) o -> comes_from cur s o -> (states_up_to_date o = true -> cur = Some c) ->
  comes_from (Some c) (if states_up_to_date o then s else (c, env o, fst (simulate B (env o) c))) (fst (provide_derivatives o c)) /\ le (env o) (env (fst (provide_derivatives o c))).
Proof.
  intros HI H Hc. unfold provide_derivatives. destruct (derivatives_up_to_date o) eqn:Ed.
  - destruct HI as [_ HI]. destruct (HI Ed) as [Es _]. rewrite Es. cbn [fst]. split; [|apply le_refl]. intros _. destruct (H Es) as (E & F). specialize (Hc Es). split; [congruence|exact F].
  - pose proof (refresh_source o c cur s H Hc) as R. destruct (refresh o c) as [o1 ok]. destruct R as [R1 R2]. destruct ok; [|cbn [fst]; auto].
    pose proof (compute_source o1 c _ _ R1) as C. destruct (compute_derivatives o1 c) as [o2 ok2]. cbn [fst] in C. destruct ok2; cbn [fst]; destruct C as [C1 C2]; split; auto; eapply le_trans; eauto.
Qed.

Lemma handle_source cur cb o s : inv B cur o -> comes_from cur s o ->
  match asks B cb with None => True | Some (c, new) => new = true \/ cur = None \/ cur = Some c end ->
  comes_from (match asks B cb with Some (c, _) => Some c | None => cur end) (source o s cb) (fst (handle o cb)) /\ le (env o) (env (fst (handle o cb))).
Proof.
  intros HI H Ha. unfold source.
  assert (Hann : forall c new, asks B cb = Some (c, new) -> inv B (Some c) (announce new o) /\ comes_from cur s (announce new o) /\
     (states_up_to_date (announce new o) = true -> cur = Some c) /\ env (announce new o) = env o).
  { intros c new E. rewrite E in Ha. split; [apply (inv_announce B cur); auto|]. destruct new; cbn [announce].
    - split; [intro Q; discriminate|]. split; [discriminate|reflexivity].
    - split; [exact H|]. split; [|reflexivity]. intro Q. destruct Ha as [Ha|[Ha|Ha]]; [discriminate| |exact Ha]. destruct (H Q) as (Z & _). congruence. }
  destruct cb as [c new|c new|c new|c new|new]; cbn [asks] in *; cbn [handle].
  - destruct (Hann c new eq_refl) as (H0 & H1 & H2 & H3). rewrite <- H3. set (o0 := announce new o) in *. clearbody o0.
    unfold evaluate_objective, evaluate_cost, evaluate_penalty.
    pose proof (refresh_source o0 c cur s H1 H2) as R. pose proof (refresh_inv B c o0 H0) as HR. destruct (refresh o0 c) as [o1 ok].
    destruct HR as (_ & S1 & _). destruct ok; cbn [fst]; [|exact R]. rewrite (refresh_again B c o1 S1). exact R.
  - destruct (Hann c new eq_refl) as (H0 & H1 & H2 & H3). rewrite <- H3. set (o0 := announce new o) in *. clearbody o0.
    unfold evaluate_objective_gradient. pose proof (provide_source o0 c cur s H0 H1 H2) as R. destruct (provide_derivatives o0 c). exact R.
  - destruct (Hann c new eq_refl) as (H0 & H1 & H2 & H3). rewrite <- H3. set (o0 := announce new o) in *. clearbody o0.
    unfold evaluate_constraints. pose proof (refresh_source o0 c cur s H1 H2) as R. destruct (refresh o0 c) as [o1 ok]. destruct ok; exact R.
  - destruct (Hann c new eq_refl) as (H0 & H1 & H2 & H3). rewrite <- H3. set (o0 := announce new o) in *. clearbody o0.
    unfold evaluate_constraint_jacobian. pose proof (provide_source o0 c cur s H0 H1 H2) as R. destruct (provide_derivatives o0 c). exact R.
  - split; [exact H|apply le_refl].
Qed.

Lemma sources_length h : forall o s, List.length (sources o s h) = List.length h.
Proof. induction h as [|cb h IH]; intros o s; cbn; [reflexivity|]. rewrite IH. reflexivity. Qed.


(** Every answer comes from its source. *)
Lemma source_right h : forall cur o s, inv B cur o -> comes_from cur s o -> announced B cur h ->
  forall i cb c new o' r x, nth_error h i = Some cb -> asks B cb = Some (c, new) -> nth_error (run o h) i = Some (o', Some r) -> nth_error (sources o s h) i = Some x ->
  fst (fst x) = c /\ simulate B (before x) c = (behind x, Some (cached_states o')).
Proof.
  induction h as [|cb0 h IH]; intros cur o s HI HC Han i cb c new o' r x Hi Hk Hr Hx; [destruct i; discriminate|].
  cbn [run announced sources] in *.
  assert (Hpre : match asks B cb0 with None => True | Some (c, new) => new = true \/ cur = None \/ cur = Some c end)
    by (destruct (asks B cb0) as [[? ?]|]; [apply Han|exact Logic.I]).
  pose proof (handle_inv B cur cb0 o HI Hpre) as HH. pose proof (handle_source cur cb0 o s HI HC Hpre) as HS.
  assert (Han' : announced B (match asks B cb0 with Some (c, _) => Some c | None => cur end) h)
    by (destruct (asks B cb0) as [[? ?]|]; apply Han).
  destruct (handle o cb0) as [o1 r1]. cbn [fst] in HS, Hx. destruct HH as (I1 & _ & U1 & _). destruct HS as [C1 _]. destruct i as [|i]; cbn in Hi, Hr, Hx.
  - injection Hi as <-. injection Hr as <- ->. injection Hx as <-. rewrite Hk in C1.
    destruct (C1 (U1 c new Hk ltac:(discriminate))) as (E1 & E2 & _). injection E1 as E1. split; [congruence|]. rewrite E1. exact E2.
  - apply (IH _ o1 _ I1 C1 Han' i cb c new o' r x Hi Hk Hr Hx).
Qed.
(** A later source is the present one or begins later; it begins later if a point was announced. *)
Lemma source_later h : forall cur o s, inv B cur o -> comes_from cur s o -> announced B cur h ->
  forall j x, nth_error (sources o s h) j = Some x ->
  (x = s \/ le (env o) (before x)) /\
  (forall k cb c, (k <= j)%nat -> nth_error h k = Some cb -> asks B cb = Some (c, true) -> le (env o) (before x)) /\
  (states_up_to_date o = true -> (forall k cb c, (k <= j)%nat -> nth_error h k = Some cb -> asks B cb <> Some (c, true)) -> x = s).
Proof.
  induction h as [|cb0 h IH]; intros cur o s HI HC Han j x Hx; [destruct j; discriminate|].
  cbn [announced sources] in *.
  assert (Hpre : match asks B cb0 with None => True | Some (c, new) => new = true \/ cur = None \/ cur = Some c end)
    by (destruct (asks B cb0) as [[? ?]|]; [apply Han|exact Logic.I]).
  pose proof (handle_inv B cur cb0 o HI Hpre) as HH. pose proof (handle_source cur cb0 o s HI HC Hpre) as HS.
  assert (Han' : announced B (match asks B cb0 with Some (c, _) => Some c | None => cur end) h)
    by (destruct (asks B cb0) as [[? ?]|]; apply Han).
  destruct (handle o cb0) as [o1 r1] eqn:Eh. cbn [fst] in HS, Hx. destruct HH as (I1 & _ & _ & K1). destruct HS as [C1 L1].
  assert (S1 : source o s cb0 = s \/ le (env o) (before (source o s cb0))).
  { unfold source. destruct (asks B cb0) as [[c new]|]; [|auto]. destruct (states_up_to_date (announce new o)); [auto|]. right. apply le_refl. }
  assert (S2 : forall c, asks B cb0 = Some (c, true) -> le (env o) (before (source o s cb0))).
  { intros c E. unfold source. rewrite E. cbn. apply le_refl. }
  assert (S3 : states_up_to_date o = true -> (forall c, asks B cb0 <> Some (c, true)) -> source o s cb0 = s).
  { intros Q Hn. unfold source. destruct (asks B cb0) as [[c new]|] eqn:E; [|reflexivity]. destruct new; [exfalso; apply (Hn c eq_refl)|]. cbn [announce]. rewrite Q. reflexivity. }
  destruct j as [|j].
  - cbn in Hx. injection Hx as <-. split; [exact S1|]. split.
    + intros k cb c Lk Hk. assert (k = 0)%nat by lia. subst k. cbn in Hk. injection Hk as <-. apply S2.
    + intros Q Hn. apply S3; [exact Q|]. intro c. apply (Hn 0%nat cb0 c (le_n 0) eq_refl).
  - cbn in Hx. destruct (IH _ o1 _ I1 C1 Han' j x Hx) as (A1 & A2 & A3). split; [|split].
    + destruct A1 as [->|A1]; [exact S1|]. right. eapply le_trans; eauto.
    + intros k cb c Lk Hk E. destruct k as [|k].
      * cbn in Hk. injection Hk as ->. destruct A1 as [->|A1]; [apply (S2 c E)|]. eapply le_trans; eauto.
      * eapply le_trans; [exact L1|]. apply (A2 k cb c); [lia|exact Hk|exact E].
    + intros Q Hn. rewrite <- (S3 Q) by (intro c; apply (Hn 0%nat cb0 c); [lia|reflexivity]).
      apply A3; [apply (K1 Q); intro c; apply (Hn 0%nat cb0 c); [lia|reflexivity]|]. intros k cb c Lk. apply (Hn (S k) cb c). lia.
Qed.
Lemma source_order h : forall cur o s, inv B cur o -> comes_from cur s o -> announced B cur h ->
  forall i j cb c new oi r x y, (i < j)%nat -> nth_error h i = Some cb -> asks B cb = Some (c, new) -> nth_error (run o h) i = Some (oi, Some r) ->
  nth_error (sources o s h) i = Some x -> nth_error (sources o s h) j = Some y ->
  (y = x \/ le (behind x) (before y)) /\
  (forall k cb c, (i < k <= j)%nat -> nth_error h k = Some cb -> asks B cb = Some (c, true) -> le (behind x) (before y)) /\
  ((forall k cb c, (i < k <= j)%nat -> nth_error h k = Some cb -> asks B cb <> Some (c, true)) -> y = x).
Proof.
  induction h as [|cb0 h IH]; intros cur o s HI HC Han i j cb c new oi r x y Lt Hi Hk Hr Hx Hy; [destruct i; discriminate|].
  cbn [run announced sources] in *.
  assert (Hpre : match asks B cb0 with None => True | Some (c, new) => new = true \/ cur = None \/ cur = Some c end)
    by (destruct (asks B cb0) as [[? ?]|]; [apply Han|exact Logic.I]).
  pose proof (handle_inv B cur cb0 o HI Hpre) as HH. pose proof (handle_source cur cb0 o s HI HC Hpre) as HS.
  assert (Han' : announced B (match asks B cb0 with Some (c, _) => Some c | None => cur end) h)
    by (destruct (asks B cb0) as [[? ?]|]; apply Han).
  destruct (handle o cb0) as [o1 r1] eqn:Eh. cbn [fst] in HS, Hx, Hy. destruct HH as (I1 & _ & U1 & _). destruct HS as [C1 L1].
  destruct j as [|j]; [lia|]. cbn in Hy. destruct i as [|i]; cbn in Hi, Hr, Hx.
  - injection Hi as ->. injection Hr as -> ->. injection Hx as <-. pose proof (U1 c new Hk ltac:(discriminate)) as Up.
    destruct (C1 Up) as (_ & _ & L2). destruct (source_later h _ oi _ I1 C1 Han' j y Hy) as (A1 & A2 & A3). split; [|split].
    + destruct A1 as [A1|A1]; [auto|]. right. eapply le_trans; eauto.
    + intros k cb1 c1 Lk Hk1 E. destruct k as [|k]; [lia|]. eapply le_trans; [exact L2|]. apply (A2 k cb1 c1); [lia|exact Hk1|exact E].
    + intros Hn. apply A3; [exact Up|]. intros k cb1 c1 Lk. apply (Hn (S k) cb1 c1). lia.
  - destruct (IH _ o1 _ I1 C1 Han' i j cb c new oi r x y ltac:(lia) Hi Hk Hr Hx Hy) as (A1 & A2 & A3). split; [exact A1|]. split.
    + intros k cb1 c1 Lk Hk1 E. destruct k as [|k]; [lia|]. apply (A2 k cb1 c1); [lia|exact Hk1|exact E].
    + intros Hn. apply A3. intros k cb1 c1 Lk. apply (Hn (S k) cb1 c1). lia.
Qed.
End Sources.
