(** Without a factorisation of the Jacobian the solver never leaves its start value. *)
From Coq Require Import Reals ZArith List Bool.
From Verif Require Import Base Interp_Model Newton_Model Evolve_Model.
Import ListNotations.
Local Open Scope R_scope.

Lemma loop_stays (N : nsystem) fuel tol full lu0 left x v sol y s : (forall x, ns_factor N x = None) -> (full = false -> lu0 = None) ->
  newton_loop N fuel tol full lu0 left x v sol = Some (Ok (y, s)) -> y = x.
Proof.
  intros F L. destruct left as [|left]; cbn [newton_loop]; [congruence|].
  destruct (xgtb (ns_norm N v) (Fin tol)); [|congruence].
  unfold newton_step. destruct full; [rewrite F|rewrite L by reflexivity]; discriminate.
Qed.
Lemma solve_stays (N : nsystem) fuel cfg full x y s : (forall x, ns_factor N x = None) ->
  solve N fuel cfg full x = Some (Ok (y, s)) -> y = x.
Proof.
  intro F. unfold solve. cbv zeta. destruct (xleb _ _); [congruence|]. rewrite F. destruct full; [|discriminate].
  destruct (newton_loop _ _ _ _ _ _ _ _ _) as [[[x' sol]| |]|] eqn:E; try discriminate. intro H. injection H as <- _.
  refine (loop_stays N _ _ _ _ _ _ _ _ _ _ F _ E). discriminate.
Qed.
Lemma attempts_stay {V E} prepare (solver : E -> bool -> V -> nresult (V * solution)) cfg x :
  (forall e full y s, solver e full x = Some (Ok (y, s)) -> y = x) ->
  forall fuel retry full e y s e' log, attempts prepare solver fuel cfg x retry full e = (Some (Ok (y, s)), e', log) -> y = x.
Proof.
  intro H. induction fuel as [|fuel IH]; intros retry full e y s e' log; cbn [attempts]; [discriminate|].
  destruct (prepare e) as [e1| |]; try discriminate.
  destruct (solver e1 full x) as [[[y1 s1]| |]|] eqn:E1; try discriminate.
  destruct (success s1).
  - intro K. injection K as <- _ _ _. apply (H _ _ _ _ E1).
  - destruct (2 * retries cfg <? retry)%Z; [discriminate|]. cbv zeta.
    destruct (attempts prepare solver fuel cfg x _ _ e1) as [[r e2] lg] eqn:E2. intro K. injection K as K _ _. subst r.
    apply (IH _ _ _ _ _ _ _ E2).
Qed.
Lemma simulate_loop_stays (P : problem) fuel sfuel cfg controls x :
  (forall e t0 t1 last c x, pr_factor P e t0 t1 last c x = None) ->
  forall times t0 last e rows e', simulate_loop P fuel sfuel cfg controls times t0 last x e = (Some (Ok rows), e') ->
    List.Forall (eq x) rows.
Proof.
  intro F. induction times as [|t times IH]; intros t0 last e rows e'; cbn [simulate_loop].
  - intro H. injection H as <- _. constructor.
  - destruct (current_controls controls t) as [c| |]; try discriminate.
    destruct (time_step P fuel sfuel cfg t0 t last x c e) as [[[[[y s]| |]|] e1] log] eqn:E; try discriminate.
    destruct (success s); [|discriminate].
    assert (y = x) as ->.
    { unfold time_step, make_one_step in E. eapply attempts_stay; [|exact E]. intros e2 full y' s' H. cbv beta in H.
      refine (solve_stays (system_of P e2 t0 t last c) _ _ _ _ _ _ _ H). intro x'. apply F. }
    destruct (simulate_loop P fuel sfuel cfg controls times t x x e1) as [[[rs| |]|] e2] eqn:E2; try discriminate.
    intro H. injection H as <- _. constructor; [reflexivity|]. exact (IH _ _ _ _ _ E2).
Qed.
Lemma simulate_stays (P : problem) fuel sfuel cfg controls points x e rows e' :
  (forall e t0 t1 last c x, pr_factor P e t0 t1 last c x = None) ->
  simulate P fuel sfuel cfg controls points x e = (Some (Ok rows), e') -> List.Forall (eq x) rows.
Proof.
  intro F. unfold simulate. destruct points as [|t0 [|t1 rest]]; try discriminate.
  destruct (current_controls controls t1); try discriminate.
  destruct (simulate_loop P fuel sfuel cfg controls (t1 :: rest) t0 x x e) as [[[rs| |]|] e2] eqn:E; try discriminate.
  intro H. injection H as <- _. constructor; [reflexivity|]. exact (simulate_loop_stays P fuel sfuel cfg controls x F _ _ _ _ _ _ E).
Qed.
