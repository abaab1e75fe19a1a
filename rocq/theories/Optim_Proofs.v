From Coq Require Import List Arith Reals Bool Lra Lia.
From Verif Require Import Base Interp_Model Interp_Proofs Optim_Model Optim_Spec.
Import ListNotations.
Open Scope R_scope.

Section Freshness.
Variable B : backend.

(** Invariant: [cur] is the point the flags refer to. *)
Definition inv (cur : option (Ctl B)) (o : opt B) : Prop :=
  (states_up_to_date o = true -> exists c, cur = Some c /\ simulation_of B c (cached_states o)) /\
  (derivatives_up_to_date o = true -> states_up_to_date o = true /\
     exists c, cur = Some c /\ derivatives_at B c (cached_states o) (stored o)).

Lemma inv_none cur o : states_up_to_date o = false -> derivatives_up_to_date o = false -> inv cur o.
Proof. intros H1 H2. split; intro; congruence. Qed.

Lemma inv_announce cur c new o : inv cur o -> (new = true \/ cur = None \/ cur = Some c) ->
  inv (Some c) (announce new o).
Proof.
  intros H Ha. destruct new; [apply inv_none; reflexivity|]. cbn [announce].
  destruct Ha as [Ha|[Ha|Ha]]; [discriminate| |subst; auto].
  destruct H as [H1 H2]. subst cur. split; intro E.
  - destruct (H1 E) as (c' & Z & _). discriminate.
  - destruct (H2 E) as (_ & c' & Z & _). discriminate.
Qed.

Definition fails_at (c : Ctl B) : Prop :=
  (exists e e', simulate B e c = (e', None)) \/
  (exists st e e' d, simulation_of B c st /\ derive B e c st = (e', (false, d))).

Lemma refresh_inv c o : inv (Some c) o ->
  let '(o1, ok) := refresh o c in
  inv (Some c) o1 /\ states_up_to_date o1 = ok /\ derivatives_up_to_date o1 = derivatives_up_to_date o /\
  (ok = true -> simulation_of B c (cached_states o1)) /\
  (ok = false -> exists e e', simulate B e c = (e', None)) /\
  (states_up_to_date o = true -> o1 = o).
Proof.
  intros H. unfold refresh. destruct (states_up_to_date o) eqn:Es.
  - split; [auto|]. split; [auto|]. split; [auto|]. split.
    + intros _. destruct H as [H1 _]. destruct (H1 Es) as (c' & Z & Hs). congruence.
    + split; [discriminate|auto].
  - assert (Hd : derivatives_up_to_date o = false).
    { destruct (derivatives_up_to_date o) eqn:Ed; [|auto]. destruct H as [_ H2]. destruct (H2 Ed) as [Z _]. congruence. }
    destruct (simulate B (env o) c) as [e [st|]] eqn:Esim; cbn.
    + split.
      * split; cbn; [|congruence]. intros _. exists c. split; [auto|]. exists (env o), e. auto.
      * split; [auto|]. split; [auto|]. split; [intros _; exists (env o), e; auto|]. split; [discriminate|discriminate].
    + split; [apply inv_none; auto|]. split; [auto|]. split; [auto|]. split; [discriminate|]. split; [|discriminate].
      intros _. exists (env o), e. auto.
Qed.

Lemma refresh_again (c : Ctl B) (o : opt B) : states_up_to_date o = true -> refresh o c = (o, true).
Proof. intro H. unfold refresh. rewrite H. reflexivity. Qed.

Lemma provide_inv c o : inv (Some c) o ->
  let '(o1, r) := provide_derivatives o c in
  inv (Some c) o1 /\
  match r with
  | Some d => simulation_of B c (cached_states o1) /\ derivatives_at B c (cached_states o1) d
  | None => fails_at c
  end /\
  (r <> None -> states_up_to_date o1 = true) /\
  (states_up_to_date o = true -> cached_states o1 = cached_states o /\ states_up_to_date o1 = true).
Proof.
  intros H0. unfold provide_derivatives. destruct (derivatives_up_to_date o) eqn:Ed.
  - destruct H0 as [HA HB]. destruct (HB Ed) as [Hs (c' & Ec & Hd)]. injection Ec as <-.
    destruct (HA Hs) as (c' & Ec & Hsim). injection Ec as <-. cbn.
    split; [split; auto|]. split; [auto|]. split; auto.
  - pose proof (refresh_inv c o H0) as HR. destruct (refresh o c) as [o1 ok].
    destruct HR as (I1 & S1 & D1 & T1 & F1 & K1). destruct ok.
    2:{ split; [auto|]. split; [left; auto|]. split; [congruence|]. intro Hs. rewrite (K1 Hs) in *. split; congruence. }
    unfold compute_derivatives. destruct (derive B (env o1) c (cached_states o1)) as [e [ok2 d]] eqn:Ed2.
    destruct ok2; cbn.
    + split.
      { split; cbn; [intros _; exists c; split; [auto|apply T1; auto]|].
        intros _. split; [auto|]. exists c. split; [auto|]. exists (env o1), e. auto. }
      split; [split; [apply T1; reflexivity|exists (env o1), e; auto]|].
      split; [auto|]. intro Hs. rewrite (K1 Hs) in *. auto.
    + split.
      { destruct I1 as [I1 I2]. split; cbn; [auto|]. congruence. }
      split; [right; exists (cached_states o1), (env o1), e, d; split; [apply T1; reflexivity|auto]|].
      split; [congruence|]. intro Hs. rewrite (K1 Hs) in *. auto.
Qed.

(** One callback. *)
Lemma handle_inv cur cb o : inv cur o ->
  match asks B cb with
  | None => True | Some (c, new) => new = true \/ cur = None \/ cur = Some c
  end ->
  let '(o', r) := handle o cb in
  inv (match asks B cb with Some (c, _) => Some c | None => cur end) o' /\
  match r with
  | Some r => right_answer B cb (cached_states o') r
  | None => may_fail B cb
  end /\
  (forall c new, asks B cb = Some (c, new) -> r <> None -> states_up_to_date o' = true) /\
  (states_up_to_date o = true -> (forall c, asks B cb <> Some (c, true)) ->
     cached_states o' = cached_states o /\ states_up_to_date o' = true).
Proof.
  intros H Ha.
  assert (Hann : forall c new, asks B cb = Some (c, new) -> inv (Some c) (announce new o) /\
     (states_up_to_date o = true -> (forall c, asks B cb <> Some (c, true)) -> announce new o = o)).
  { intros c new E. rewrite E in Ha. split; [apply (inv_announce cur); auto|].
    intros _ Hn. destruct new; [exfalso; apply (Hn c); auto|reflexivity]. }
  destruct cb as [c new|c new|c new|c new|new]; cbn [asks] in *; cbn [handle].
  - destruct (Hann c new eq_refl) as [H0 Hup]. set (o0 := announce new o) in *.
    unfold evaluate_objective, evaluate_cost, evaluate_penalty.
    pose proof (refresh_inv c o0 H0) as HR. destruct (refresh o0 c) as [o1 ok].
    destruct HR as (I1 & S1 & D1 & T1 & F1 & K1). destruct ok.
    + rewrite (refresh_again c o1 S1). cbn.
      split; [auto|]. split; [split; [apply T1; reflexivity|reflexivity]|]. split; [auto|].
      intros Hs Hn. rewrite (Hup Hs Hn) in K1. rewrite (K1 Hs). auto.
    + cbn. split; [auto|]. split; [apply F1; reflexivity|]. split; [congruence|].
      intros Hs Hn. rewrite (Hup Hs Hn) in K1. rewrite (K1 Hs) in S1. congruence.
  - destruct (Hann c new eq_refl) as [H0 Hup]. set (o0 := announce new o) in *.
    unfold evaluate_objective_gradient. pose proof (provide_inv c o0 H0) as HP.
    destruct (provide_derivatives o0 c) as [o1 r]. destruct HP as (I1 & R1 & S1 & K1).
    split; [auto|]. split.
    + destruct r as [d|]; cbn [option_map]; [|exact R1]. destruct R1 as [Ra Rb]. split; [auto|]. exists d. auto.
    + split; [intros c' n' E Hr; apply S1; destruct r; cbn in *; congruence|].
      intros Hs Hn. rewrite (Hup Hs Hn) in K1. auto.
  - destruct (Hann c new eq_refl) as [H0 Hup]. set (o0 := announce new o) in *.
    unfold evaluate_constraints.
    pose proof (refresh_inv c o0 H0) as HR. destruct (refresh o0 c) as [o1 ok].
    destruct HR as (I1 & S1 & D1 & T1 & F1 & K1). destruct ok.
    + cbn. split; [auto|]. split; [split; [apply T1; reflexivity|reflexivity]|]. split; [auto|].
      intros Hs Hn. rewrite (Hup Hs Hn) in K1. rewrite (K1 Hs). auto.
    + cbn. split; [auto|]. split; [apply F1; reflexivity|]. split; [congruence|].
      intros Hs Hn. rewrite (Hup Hs Hn) in K1. rewrite (K1 Hs) in S1. congruence.
  - destruct (Hann c new eq_refl) as [H0 Hup]. set (o0 := announce new o) in *.
    unfold evaluate_constraint_jacobian. pose proof (provide_inv c o0 H0) as HP.
    destruct (provide_derivatives o0 c) as [o1 r]. destruct HP as (I1 & R1 & S1 & K1).
    split; [auto|]. split.
    + destruct r as [d|]; cbn [option_map]; [|exact R1]. destruct R1 as [Ra Rb]. split; [auto|]. exists d. auto.
    + split; [intros c' n' E Hr; apply S1; destruct r; cbn in *; congruence|].
      intros Hs Hn. rewrite (Hup Hs Hn) in K1. auto.
  - split; [auto|]. split; [exact I|]. split; [discriminate|]. auto.
Qed.

Lemma run_length (o : opt B) (h : list (callback B)) : length (run o h) = length h.
Proof.
  revert o. induction h as [|cb h IH]; intro o; [reflexivity|]. cbn [run].
  destruct (handle o cb). cbn. auto.
Qed.

Lemma run_right cur h : forall o, inv cur o -> announced B cur h ->
  forall i cb o' r, nth_error h i = Some cb -> nth_error (run o h) i = Some (o', r) ->
  match r with
  | Some r => right_answer B cb (cached_states o') r
  | None => may_fail B cb
  end.
Proof.
  revert cur. induction h as [|cb0 h IH]; intros cur o HI Han i cb o' r Hi Hr; [destruct i; discriminate|].
  cbn [run announced] in *. pose proof (handle_inv cur cb0 o HI) as HH.
  destruct (handle o cb0) as [o1 r1].
  assert (Hpre : match asks B cb0 with None => True | Some (c, new) => new = true \/ cur = None \/ cur = Some c end).
  { destruct (asks B cb0) as [[c n]|]; [apply Han|auto]. }
  destruct (HH Hpre) as (I1 & R1 & _). destruct i as [|i]; cbn in Hi, Hr.
  - injection Hi as <-. injection Hr as <- <-. exact R1.
  - refine (IH _ o1 I1 _ i cb o' r Hi Hr). destruct (asks B cb0) as [[c n]|]; [apply Han|auto].
Qed.

(** The states stay the same as long as no new point is announced. *)
Lemma run_keeps cur h : forall o, inv cur o -> announced B cur h -> states_up_to_date o = true ->
  forall i, (forall k cb c, (k <= i)%nat -> nth_error h k = Some cb -> asks B cb <> Some (c, true)) ->
  forall o' r, nth_error (run o h) i = Some (o', r) -> cached_states o' = cached_states o.
Proof.
  revert cur. induction h as [|cb0 h IH]; intros cur o HI Han Hs i Hn o' r Hr; [destruct i; discriminate|].
  cbn [run announced] in *. pose proof (handle_inv cur cb0 o HI) as HH.
  destruct (handle o cb0) as [o1 r1].
  assert (Hpre : match asks B cb0 with None => True | Some (c, new) => new = true \/ cur = None \/ cur = Some c end).
  { destruct (asks B cb0) as [[c n]|]; [apply Han|auto]. }
  destruct (HH Hpre) as (I1 & _ & _ & K1).
  destruct (K1 Hs) as [Kc Ks]. { intros c. apply (Hn 0%nat cb0 c); [lia|reflexivity]. }
  destruct i as [|i]; cbn in Hr.
  - injection Hr as <- <-. auto.
  - rewrite <- Kc. refine (IH _ o1 I1 _ Ks i _ o' r Hr).
    + destruct (asks B cb0) as [[c n]|]; [apply Han|auto].
    + intros k cb c Hk Hc. apply (Hn (S k) cb c); [lia|auto].
Qed.

Lemma run_same cur h : forall o, inv cur o -> announced B cur h ->
  forall i j cbi ci ni oi ri oj rj, (i < j)%nat -> nth_error h i = Some cbi -> asks B cbi = Some (ci, ni) ->
  nth_error (run o h) i = Some (oi, Some ri) -> nth_error (run o h) j = Some (oj, rj) ->
  (forall k cb c, (i < k <= j)%nat -> nth_error h k = Some cb -> asks B cb <> Some (c, true)) ->
  cached_states oj = cached_states oi.
Proof.
  revert cur. induction h as [|cb0 h IH]; intros cur o HI Han i j cbi ci ni oi ri oj rj Hij Hi Hasks Ei Ej Hn;
    [destruct i; discriminate|].
  cbn [run announced] in *. pose proof (handle_inv cur cb0 o HI) as HH.
  destruct (handle o cb0) as [o1 r1].
  assert (Hpre : match asks B cb0 with None => True | Some (c, new) => new = true \/ cur = None \/ cur = Some c end).
  { destruct (asks B cb0) as [[c n]|]; [apply Han|auto]. }
  destruct (HH Hpre) as (I1 & _ & S1 & _). destruct j as [|j]; [lia|].
  assert (Han' : announced B (match asks B cb0 with Some (c, _) => Some c | None => cur end) h).
  { destruct (asks B cb0) as [[c n]|]; [apply Han|auto]. }
  destruct i as [|i]; cbn in Hi, Ei, Ej.
  - injection Hi as <-. injection Ei as <- ->.
    refine (run_keeps _ h o1 I1 Han' _ j _ oj rj Ej).
    + apply (S1 ci ni Hasks). discriminate.
    + intros k cb c Hk Hc. apply (Hn (S k) cb c); [lia|auto].
  - refine (IH _ o1 I1 Han' i j cbi ci ni oi ri oj rj _ Hi Hasks Ei Ej _); [lia|].
    intros k cb c Hk Hc. apply (Hn (S k) cb c); [lia|auto].
Qed.

Lemma after_inv cur h : forall o, inv cur o -> announced B cur h -> inv (last_point B cur h) (after o h).
Proof.
  revert cur. induction h as [|cb0 h IH]; intros cur o HI Han; [exact HI|].
  unfold after. cbn [run announced last_point] in *. pose proof (handle_inv cur cb0 o HI) as HH.
  destruct (handle o cb0) as [o1 r1].
  assert (Hpre : match asks B cb0 with None => True | Some (c, new) => new = true \/ cur = None \/ cur = Some c end).
  { destruct (asks B cb0) as [[c n]|]; [apply Han|auto]. }
  destruct (HH Hpre) as (I1 & _).
  assert (Han' : announced B (match asks B cb0 with Some (c, _) => Some c | None => cur end) h).
  { destruct (asks B cb0) as [[c n]|]; [apply Han|auto]. }
  specialize (IH _ o1 I1 Han'). unfold after in IH. cbn [map fst].
  assert (E : forall (l : list (opt B)) (x d : opt B), last (x :: l) d = last l x).
  { induction l as [|y l IHl]; intros x d; [reflexivity|]. change (last (x :: y :: l) d) with (last (y :: l) d).
    rewrite !IHl. reflexivity. }
  rewrite E. exact IH.
Qed.

End Freshness.

Lemma callbacks_right : forall B st d e h, announced B None h ->
  forall i cb o' r, nth_error h i = Some cb -> nth_error (run (fresh st d e) h) i = Some (o', r) ->
  match r with
  | Some r => right_answer B cb (cached_states o') r
  | None => may_fail B cb
  end.
Proof. intros B st d e h Han. apply (run_right B None); auto. apply inv_none; reflexivity. Qed.

Lemma callbacks_consistent : forall B st d e h, announced B None h ->
  forall i j cbi ci ni oi ri oj rj, (i < j)%nat -> nth_error h i = Some cbi -> asks B cbi = Some (ci, ni) ->
  nth_error (run (fresh st d e) h) i = Some (oi, Some ri) -> nth_error (run (fresh st d e) h) j = Some (oj, rj) ->
  (forall k cb c, (i < k <= j)%nat -> nth_error h k = Some cb -> asks B cb <> Some (c, true)) ->
  cached_states oj = cached_states oi.
Proof. intros B st d e h Han. apply (run_same B None); auto. apply inv_none; reflexivity. Qed.

(** ** Final reports *)
Lemma refresh_det B F c st o : deterministic B F -> F c = Some st ->
  (states_up_to_date o = true -> cached_states o = st) ->
  exists o', refresh o c = (o', true) /\ states_up_to_date o' = true /\ cached_states o' = st.
Proof.
  intros HF Hc Hs. unfold refresh. destruct (states_up_to_date o) eqn:E; [exists o; auto|].
  specialize (HF (env o) c). destruct (simulate B (env o) c) as [e r]. cbn in HF. subst r. rewrite Hc.
  eexists. split; [reflexivity|]. auto.
Qed.

Lemma maxCoeff_spec l : l <> [] -> exists m, maxCoeff l = Ok m /\ In m l /\ forall x, In x l -> x <= m.
Proof.
  destruct l as [|x l]; [congruence|]. intros _. cbn [maxCoeff]. eexists. split; [reflexivity|].
  revert x. induction l as [|y l IH]; intro x; cbn [fold_left].
  - split; [left; auto|]. intros z [<-|[]]. lra.
  - destruct (IH (Rmax x y)) as [I1 I2]. split.
    + destruct I1 as [I1|I1]; [|right; right; auto].
      destruct (Rle_dec y x) as [L|L].
      * left. rewrite Rmax_left in I1 by lra. rewrite Rmax_left by lra. auto.
      * right. left. rewrite Rmax_right in I1 by lra. rewrite Rmax_right by lra. auto.
    + intros z [<-|[<-|Hz]].
      * apply Rle_trans with (Rmax x y); [apply Rmax_l|apply I2; left; auto].
      * apply Rle_trans with (Rmax x y); [apply Rmax_r|apply I2; left; auto].
      * apply I2. right. auto.
Qed.

Lemma vminus_nth a b i v : nth_error (vminus a b) i = Some v ->
  exists x y, nth_error a i = Some x /\ nth_error b i = Some y /\ v = x - y.
Proof.
  unfold vminus. revert b i. induction a as [|x a IH]; intros b i H; [destruct i; discriminate|].
  destruct b as [|y b]; [destruct i; discriminate|]. destruct i as [|i]; cbn in H |- *.
  - injection H as <-. eauto.
  - apply IH. auto.
Qed.

Lemma vminus_nth_some a b i x y : nth_error a i = Some x -> nth_error b i = Some y ->
  nth_error (vminus a b) i = Some (x - y).
Proof.
  unfold vminus. revert b i. induction a as [|x' a IH]; intros b i Ha Hb; [destruct i; discriminate|].
  destruct b as [|y' b]; [destruct i; discriminate|]. destruct i as [|i]; cbn in Ha, Hb |- *.
  - congruence.
  - apply IH; auto.
Qed.

Lemma excess_spec a b : length a = length b -> a <> [] -> exists m, maxCoeff (vminus a b) = Ok m /\ largest_excess a b (Rmax 0 m).
Proof.
  intros L Hne. destruct (maxCoeff_spec (vminus a b)) as (m & E & I1 & I2).
  { destruct a as [|x a]; [congruence|]. destruct b; [discriminate|]. cbn. discriminate. }
  exists m. split; [auto|]. split; [apply Rmax_l|]. split.
  - intros i x y Hx Hy. pose proof (vminus_nth_some _ _ _ _ _ Hx Hy) as Hm. apply nth_error_In in Hm.
    apply I2 in Hm. apply Rle_trans with m; [auto|apply Rmax_r].
  - destruct (Rle_dec m 0) as [Z|Z]; [left; apply Rmax_left; auto|]. right.
    apply In_nth_error in I1. destruct I1 as [i Hi]. apply vminus_nth in Hi. destruct Hi as (x & y & Hx & Hy & ->).
    exists i, x, y. rewrite Rmax_right by lra. auto.
Qed.

Lemma reports_right : forall B F st0 d0 e0 h sol st lower upper,
  deterministic B F -> announced B None h -> last_point B None h = Some sol -> F sol = Some st ->
  length lower = length (b_constr B sol st) -> length upper = length (b_constr B sol st) ->
  b_constr B sol st <> [] ->
  exists o1 o2 lv uv,
    finalize_solution (after (fresh st0 d0 e0) h) sol = (o1, (b_cost B sol st, b_penalty B sol st)) /\
    final_reports o1 sol lower upper = (o2, (Ok (lv, uv), st)) /\
    largest_excess lower (b_constr B sol st) lv /\ largest_excess (b_constr B sol st) upper uv.
Proof.
  intros B F st0 d0 e0 h sol st lower upper HF Han Hlast Hsol Ll Lu Hne.
  pose proof (after_inv B None h (fresh st0 d0 e0)) as HI. rewrite Hlast in HI.
  specialize (HI ltac:(apply inv_none; reflexivity) Han). set (o := after (fresh st0 d0 e0) h) in *.
  assert (Hs : states_up_to_date o = true -> cached_states o = st).
  { intro E. destruct HI as [H1 _]. destruct (H1 E) as (c & Ec & e & e' & Es). injection Ec as <-.
    specialize (HF e sol). rewrite Es in HF. cbn in HF. congruence. }
  destruct (refresh_det B F sol st o HF Hsol Hs) as (o1 & R1 & S1 & C1).
  destruct (excess_spec lower (b_constr B sol st)) as (lm & El & Pl);
    [congruence|destruct lower; [destruct (b_constr B sol st); [congruence|discriminate]|discriminate]|].
  destruct (excess_spec (b_constr B sol st) upper) as (um & Eu & Pu); [congruence|auto|].
  destruct (refresh_det B F sol st (new_x o1) HF Hsol) as (o2 & R2 & S2 & C2); [discriminate|].
  exists o1, o2, (Rmax 0 lm), (Rmax 0 um). split; [|split; [|auto]].
  - unfold finalize_solution, evaluate_cost, evaluate_penalty. rewrite R1, (refresh_again B sol o1 S1), C1. reflexivity.
  - unfold final_reports, evaluate_constraints. rewrite (refresh_again B sol o1 S1), C1.
    unfold evaluate_objective, evaluate_cost, evaluate_penalty. rewrite R2, (refresh_again B sol o2 S2), C2.
    rewrite El. cbn [obind]. rewrite Eu. reflexivity.
Qed.

Lemma saved_states_right : forall B F o sol st lower upper,
  deterministic B F -> F sol = Some st -> snd (snd (final_reports (B:=B) o sol lower upper)) = st.
Proof.
  intros B F o sol st lower upper HF Hsol. unfold final_reports.
  destruct (evaluate_constraints o sol) as [o1 g]. unfold evaluate_objective, evaluate_cost, evaluate_penalty.
  destruct (refresh_det B F sol st (new_x o1) HF Hsol) as (o2 & R2 & S2 & C2); [discriminate|].
  rewrite R2, (refresh_again B sol o2 S2). cbn. exact C2.
Qed.

(** Controls and states are real numbers; the state equals the control. *)
Definition echo : backend :=
  mk_backend R R unit unit (fun _ c => (tt, Some c)) (fun _ _ _ => (tt, (true, tt)))
    (fun c st => st) (fun c st => 0) (fun c st => [st]) (fun _ => []) (fun _ => []).

(** After evaluating at 1 and then at the trial point 5 the solution 1 is delivered. *)
Lemma reports_stale : exists (B : backend) F st0 d0 e0 h sol st lower upper,
  deterministic B F /\ announced B None h /\ F sol = Some st /\
  In (EvalF sol true) h /\ ~ In None (map snd (run (fresh st0 d0 e0) h)) /\
  length lower = length (b_constr B sol st) /\ length upper = length (b_constr B sol st) /\
  b_constr B sol st <> [] /\
  exists o1 cost penalty, finalize_solution (after (fresh st0 d0 e0) h) sol = (o1, (cost, penalty)) /\
    cost <> b_cost B sol st /\
    exists o2 lv uv st', final_reports o1 sol lower upper = (o2, (Ok (lv, uv), st')) /\
      ~ largest_excess (b_constr B sol st) upper uv.
Proof.
  exists echo, (fun c => Some c), 0, tt, tt, [EvalF (B:=echo) 1 true; EvalF (B:=echo) 5 true], 1, 1, [0], [2].
  split; [intros e c; reflexivity|]. split; [cbn; auto|]. split; [reflexivity|].
  split; [left; reflexivity|]. split; [cbn; intros [H|[H|[]]]; discriminate|].
  split; [reflexivity|]. split; [reflexivity|]. split; [discriminate|].
  eexists _, _, _. split; [reflexivity|]. split; [cbn; lra|].
  eexists _, _, _, _. split; [reflexivity|]. cbn. intros (_ & _ & H). destruct H as [H|(i & x & y & Hx & Hy & H)].
  - rewrite Rmax_right in H; lra.
  - destruct i as [|i]; [|destruct i; discriminate]. cbn in Hx, Hy. injection Hx as <-. injection Hy as <-.
    rewrite Rmax_right in H; lra.
Qed.

(** Without constraints the report computes the maximum of an empty vector. *)
Lemma reports_undefined : forall B F o sol st, deterministic B F -> F sol = Some st ->
  (forall st', b_constr B sol st' = []) ->
  fst (snd (final_reports (B:=B) o sol [] [])) = UB.
Proof.
  intros B F o sol st HF Hsol Hc. unfold final_reports, evaluate_constraints.
  destruct (refresh o sol) as [o1 ok]. destruct ok; [rewrite Hc; cbn|];
   destruct (evaluate_objective _ _); reflexivity.
Qed.

(** ** State cache *)
Lemma vec_eq_ok a b : length a = length b -> exists x, vec_eq a b = Ok x /\ (x = true <-> a = b).
Proof.
  intro L. unfold vec_eq. rewrite L, Nat.eqb_refl. eexists. split; [reflexivity|].
  revert b L. induction a as [|x a IH]; intros [|y b] L; cbn; try discriminate.
  - split; auto.
  - injection L as L. specialize (IH b L). rewrite andb_true_iff, IH. split.
    + intros [E ->]. apply Reqb_true in E. congruence.
    + intro E. injection E as -> ->. split; [apply Reqb_true|]; reflexivity.
Qed.

Definition table_ok (v : ivec) : Prop := length (ivalues v) = (length (ipoints v) * iinner v)%nat.

Lemma ivec_eq_ok a b : table_ok a -> table_ok b -> exists x, ivec_eq a b = Ok x /\ (x = true <-> a = b).
Proof.
  unfold table_ok. intros Ha Hb. unfold ivec_eq.
  destruct (iinner a =? iinner b)%nat eqn:E1; cbn [negb].
  2:{ apply Nat.eqb_neq in E1. eexists. split; [reflexivity|]. split; [discriminate|]. intros ->. congruence. }
  apply Nat.eqb_eq in E1.
  destruct (length (ipoints a) =? length (ipoints b))%nat eqn:E2; cbn [negb].
  2:{ apply Nat.eqb_neq in E2. eexists. split; [reflexivity|]. split; [discriminate|]. intros ->. congruence. }
  apply Nat.eqb_eq in E2. destruct (vec_eq_ok _ _ E2) as (x & Ex & Hx). rewrite Ex. cbn [obind].
  destruct x.
  - destruct (vec_eq_ok (ivalues a) (ivalues b)) as (y & Ey & Hy); [congruence|]. exists y. split; [auto|].
    rewrite Hy. destruct a as [pa ia va], b as [pb ib vb]. cbn in *. assert (pa = pb) by (apply Hx; auto). split; congruence.
  - eexists. split; [reflexivity|]. split; [discriminate|]. intros ->. apply Hx. reflexivity.
Qed.

Section Cache.
Variable sim : request -> option ivec.
Variables (n m : nat).

Definition usable (r : request) : Prop := r = empty_request \/ proper_request n m r.

Definition cache_inv (s : scache) : Prop :=
  usable (sc_key s) /\ usable (sc_failed s) /\
  (proper_request n m (sc_key s) -> sim (sc_key s) = Some (sc_states s)) /\
  (proper_request n m (sc_failed s) -> sim (sc_failed s) = None).

Lemma usable_table r : usable r -> table_ok (rq_controls r).
Proof. intros [->|(_ & _ & _ & H)]; [reflexivity|exact H]. Qed.

Lemma empty_not_proper : ~ proper_request n m empty_request.
Proof. intros (_ & _ & H & _). apply H. reflexivity. Qed.

Lemma compare_key k r (order : bool) : usable k -> proper_request n m r ->
  exists x, (if order
   then oand (ivec_eq (rq_controls k) (rq_controls r))
          (oand (vec_eq (rq_times k) (rq_times r)) (vec_eq (rq_initial k) (rq_initial r)))
   else oand (ivec_eq (rq_controls r) (rq_controls k))
          (oand (vec_eq (rq_initial r) (rq_initial k)) (vec_eq (rq_times r) (rq_times k)))) = Ok x /\
   (x = true <-> k = r).
Proof.
  intros Hk Hr.
  assert (Tk := usable_table k Hk). assert (Tr := usable_table r (or_intror Hr)).
  assert (Hlen : rq_controls k = rq_controls r -> length (rq_times k) = length (rq_times r) /\ length (rq_initial k) = length (rq_initial r)).
  { intro E. destruct Hk as [->|(A & B & _)].
    - exfalso. destruct Hr as (_ & _ & H & _). apply H. rewrite <- E. reflexivity.
    - destruct Hr as (A' & B' & _). split; congruence. }
  destruct k as [kc kt ki], r as [rc rt ri]. cbn [rq_controls rq_times rq_initial] in *.
  destruct order.
  - destruct (ivec_eq_ok kc rc Tk Tr) as (x & -> & Hx). cbn [oand obind]. destruct x.
    + assert (kc = rc) by (apply Hx; auto). destruct (Hlen H) as [L1 L2].
      destruct (vec_eq_ok kt rt L1) as (y & -> & Hy). unfold oand. cbn [obind]. destruct y.
      * destruct (vec_eq_ok ki ri L2) as (z & -> & Hz). exists z. split; [auto|]. rewrite Hz.
        assert (kt = rt) by (apply Hy; auto). split; congruence.
      * exists false. split; [auto|]. split; [discriminate|]. intro E. apply Hy. congruence.
    + exists false. split; [auto|]. split; [discriminate|]. intro E. apply Hx. congruence.
  - destruct (ivec_eq_ok rc kc Tr Tk) as (x & -> & Hx). unfold oand. cbn [obind]. destruct x.
    + assert (rc = kc) by (apply Hx; auto). destruct (Hlen (eq_sym H)) as [L1 L2].
      destruct (vec_eq_ok ri ki (eq_sym L2)) as (y & -> & Hy). cbn [obind]. destruct y.
      * destruct (vec_eq_ok rt kt (eq_sym L1)) as (z & -> & Hz). exists z. split; [auto|]. rewrite Hz.
        assert (ri = ki) by (apply Hy; auto). split; congruence.
      * exists false. split; [auto|]. split; [discriminate|]. intro E. apply Hy. congruence.
    + exists false. split; [auto|]. split; [discriminate|]. intro E. apply Hx. congruence.
Qed.

Lemma cache_step_ok s op : cache_inv s -> (forall r, op_request op = Some r -> proper_request n m r) ->
  exists s' r, cache_step sim s op = Ok (s', r) /\ cache_inv s' /\ right_cache_reply sim op r.
Proof.
  intros (Uk & Uf & Ik & If) Hp. destruct op as [q|q|]; cbn [op_request] in Hp.
  - specialize (Hp q eq_refl). cbn [cache_step]. unfold refresh_cache. destruct (sim q) as [st|] eqn:E.
    + eexists _, _. split; [reflexivity|]. cbn. rewrite E. split; [|auto].
      split; [right; auto|]. split; [auto|]. split; auto.
    + eexists _, _. split; [reflexivity|]. cbn. rewrite E. split; [|auto].
      split; [auto|]. split; [right; auto|]. split; auto.
  - specialize (Hp q eq_refl). cbn [cache_step]. unfold check_and_supply_states.
    destruct (compare_key (sc_failed s) q true Uf Hp) as (x & -> & Hx). cbn [obind].
    destruct x.
    + eexists _, _. split; [reflexivity|]. split; [repeat split; auto|]. cbn.
      assert (E : sc_failed s = q) by (apply Hx; auto). rewrite <- E. rewrite If; [auto|]. rewrite E. auto.
    + destruct (compare_key (sc_key s) q false Uk Hp) as (y & -> & Hy). cbn [obind]. destruct y.
      * eexists _, _. split; [reflexivity|]. split; [repeat split; auto|]. cbn.
        assert (E : sc_key s = q) by (apply Hy; auto). rewrite <- E. rewrite Ik; [auto|]. rewrite E. auto.
      * destruct (sim q) as [st|] eqn:E.
        -- eexists _, _. split; [reflexivity|]. cbn. rewrite E. split; [|auto].
           split; [right; auto|]. split; [auto|]. split; auto.
        -- eexists _, _. split; [reflexivity|]. cbn. rewrite E. split; [|auto].
           split; [auto|]. split; [right; auto|]. split; auto.
  - eexists _, _. split; [reflexivity|]. split; [repeat split; auto|]. exact I.
Qed.

Lemma cache_run_ok ops : forall s, cache_inv s ->
  (forall op r, In op ops -> op_request op = Some r -> proper_request n m r) ->
  exists rs, cache_run sim s ops = Ok rs /\ length rs = length ops /\
    forall i op r, nth_error ops i = Some op -> nth_error rs i = Some r -> right_cache_reply sim op r.
Proof.
  induction ops as [|op ops IH]; intros s HI Hp.
  - exists []. split; [reflexivity|]. split; [reflexivity|]. intros i op r H. destruct i; discriminate.
  - destruct (cache_step_ok s op HI) as (s' & r & E & I' & R); [intros; apply (Hp op); [left; auto|auto]|].
    destruct (IH s' I') as (rs & Er & L & P); [intros op' r' Hin; apply Hp; right; auto|].
    cbn [cache_run]. rewrite E. cbn [obind]. rewrite Er. exists (r :: rs). split; [reflexivity|]. split; [cbn; lia|].
    intros [|i] op' r' Ho Hr; cbn in Ho, Hr.
    + congruence.
    + apply (P i); auto.
Qed.
End Cache.

Lemma cache_right : forall sim n m ops,
  (forall op r, In op ops -> op_request op = Some r -> proper_request n m r) ->
  exists rs, cache_run sim empty_scache ops = Ok rs /\ length rs = length ops /\
    forall i op r, nth_error ops i = Some op -> nth_error rs i = Some r -> right_cache_reply sim op r.
Proof.
  intros sim n m ops Hp. apply (cache_run_ok sim n m); [|auto].
  split; [left; reflexivity|]. split; [left; reflexivity|].
  split; intro H; exfalso; apply (empty_not_proper n m H).
Qed.

(** After a successful refresh get_cached_states returns its result. *)
Lemma cached_after_refresh : forall sim s r st, sim r = Some st ->
  exists s', cache_step sim s (Refresh r) = Ok (s', Refreshed true) /\
    cache_step sim s' Cached = Ok (s', States (Some st)).
Proof.
  intros sim s r st H. cbn [cache_step]. unfold refresh_cache. rewrite H.
  eexists. split; [reflexivity|]. reflexivity.
Qed.

Definition one_control : ivec := mk_ivec [0] 1 [7].
Lemma cache_undefined : exists sim r1 r2,
  proper_request 2 1 r1 /\ proper_request 3 1 r2 /\
  cache_run sim empty_scache [Lookup r1; Lookup r2] = UB.
Proof.
  exists (fun _ => Some one_control), (mk_request one_control [0; 1] [5]), (mk_request one_control [0; 1; 2] [5]).
  split; [repeat split; discriminate|]. split; [repeat split; discriminate|].
  cbn. unfold ivec_eq. cbn. replace (Reqb 0 0) with true by (symmetry; apply Reqb_true; reflexivity).
  replace (Reqb 7 7) with true by (symmetry; apply Reqb_true; reflexivity).
  replace (Reqb 5 5) with true by (symmetry; apply Reqb_true; reflexivity). cbn. reflexivity.
Qed.

Lemma callbacks_full : forall B st d e h, announced B None h ->
  let replies := map snd (run (fresh st d e) h) in
  length replies = length h /\
  exists states : nat -> St B,
    (forall i cb r, nth_error h i = Some cb -> nth_error replies i = Some (Some r) ->
       right_answer B cb (states i) r) /\
    (forall i cb, nth_error h i = Some cb -> nth_error replies i = Some None -> may_fail B cb) /\
    (forall i j cb c new r, (i < j < length h)%nat -> nth_error h i = Some cb -> asks B cb = Some (c, new) ->
       nth_error replies i = Some (Some r) ->
       (forall k cb c, (i < k <= j)%nat -> nth_error h k = Some cb -> asks B cb <> Some (c, true)) ->
       states j = states i).
Proof.
  intros B st d e h Han replies.
  assert (Hrep : forall i r, nth_error replies i = Some r -> exists o, nth_error (run (fresh st d e) h) i = Some (o, r)).
  { intros i r H. unfold replies in H. rewrite nth_error_map in H.
    destruct (nth_error (run (fresh st d e) h) i) as [[o r']|]; [|discriminate]. cbn in H. exists o. congruence. }
  split; [unfold replies; rewrite map_length; apply run_length|].
  exists (fun i => match nth_error (run (fresh st d e) h) i with Some (o, _) => cached_states o | None => st end).
  split; [|split].
  - intros i cb r Hi Hr. destruct (Hrep _ _ Hr) as [o Ho]. rewrite Ho.
    apply (callbacks_right B st d e h Han i cb o (Some r) Hi Ho).
  - intros i cb Hi Hr. destruct (Hrep _ _ Hr) as [o Ho].
    apply (callbacks_right B st d e h Han i cb o None Hi Ho).
  - intros i j cb c new r Hij Hi Ha Hr Hn. destruct (Hrep _ _ Hr) as [o Ho]. rewrite Ho.
    destruct (nth_error_lt (run (fresh st d e) h) j) as [[oj rj] Hj]; [rewrite run_length; lia|]. rewrite Hj.
    apply (callbacks_consistent B st d e h Han i j cb c new o r oj rj); auto. lia.
Qed.
