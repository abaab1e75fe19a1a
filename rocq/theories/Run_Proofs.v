From Coq Require Import List Arith Reals ZArith Bool String Lra Lia.
From Verif Require Import Base Json_Model Files_Model Files_Spec Files_Proofs Optim_Model Optim_Spec Optim_Proofs Run_Model Run_Spec.
Import ListNotations.
Local Open Scope string_scope.
Local Open Scope list_scope.
Open Scope R_scope.

Lemma last_cons_default {A} (l : list A) a d : last (a :: l) d = last l a.
Proof. revert a d. induction l as [|b l IH]; intros a d; [reflexivity|]. change (last (b :: l) d = last (b :: l) a). rewrite !IH. reflexivity. Qed.

Lemma save_holds env d n t d' : save env d n (Some t) = Ok d' -> write_succeeds env t -> ~ is_dir d n -> holds d' n t.
Proof.
  intros H W N. pose proof (attempt_success env d n t false W N) as [_ Q]. unfold attempt in Q. unfold save in H.
  destruct (open_trunc env d n) as [d1|] eqn:E.
  - cbn [fst] in Q. injection H as <-. rewrite last_cons_default in Q. exact Q.
  - destruct W as [O _]. unfold open_trunc in E. rewrite O in E. exfalso. destruct (d n) as [[c|b]|] eqn:X; try discriminate.
    apply N. exists b. exact X.
Qed.

Lemma write_steps_other : forall lens d n t m, m <> n -> last (write_steps d n t lens) d m = d m.
Proof.
  induction lens as [|k lens IH]; intros d n t m N; [reflexivity|].
  cbn [write_steps]. rewrite last_cons_default, IH by auto. apply put_other. congruence.
Qed.
Lemma save_other env d n t d' m : save env d n t = Ok d' -> m <> n -> d' m = d m.
Proof.
  unfold save. destruct t as [t|]; [|discriminate]. destruct (open_trunc env d n) as [d1|] eqn:E; intros H N; injection H as <-; auto.
  rewrite write_steps_other by auto. unfold open_trunc in E. destruct (open_fails env); [discriminate|].
  assert (d1 = put d n (Some (EFile ""))) by (destruct (d n) as [[c|b]|]; congruence). subst d1. apply put_other. congruence.
Qed.

Lemma wants_iff j : wants_optimization j = true <-> asked_to_optimize j.
Proof.
  unfold asked_to_optimize, wants_optimization, contains, at_const. split.
  - destruct j as [| | | | |fs]; try discriminate. destruct (field fs "optimize") as [v|] eqn:E; [|discriminate].
    destruct v as [|b| | | |]; try discriminate. intros ->. eauto.
  - intros (fs & -> & ->). reflexivity.
Qed.

Section P.
Context {B : backend}.
Implicit Types (j : job B).

Lemma run_simulation j d printed : wants_optimization (all_json j) = false -> run j = Ok (d, printed) ->
  printed = [Can_be_found] /\ exists st d0 t, simulated j = Ok st /\ prepared j ["states.json"] = Ok d0 /\ states_text j st = Some t /\
    save (writing j "states.json") d0 "states.json" (Some t) = Ok d.
Proof.
  intros W H. unfold run in H. apply obind_Ok in H. destruct H as (u & _ & H). rewrite W in H. cbn [negb] in H.
  apply obind_Ok in H. destruct H as (st & S & H). apply obind_Ok in H. destruct H as (d0 & P & H).
  apply obind_Ok in H. destruct H as (d1 & V & H). injection H as <- <-. split; auto.
  destruct (states_text j st) as [t|] eqn:T; [|discriminate V]. exists st, d0, t. auto.
Qed.

Lemma run_optimization j d printed : wants_optimization (all_json j) = true -> run j = Ok (d, printed) ->
  exists lower upper o status x obj, bounds j = Ok (lower, upper) /\ constructed j = Ok o /\
    initialize (solver j) = 0%Z /\ finalize (solver j) = Some (status, x, obj) /\
    exists o2 cost penalty, finalize_solution (after o (callbacks (solver j))) x = (o2, (cost, penalty)) /\
    exists o3 lv uv st, final_reports o2 x lower upper = (o3, (Ok (lv, uv), st)) /\
    printed = (if negb (status =? SUCCESS)%Z then [Failed_to_find_optimum SUCCESS] else []) ++
      [Cost (Some cost); Penalty (Some penalty); Overall_objective (Some obj); Lower_violation lv; Upper_violation uv; Can_be_found] /\
    exists d0 d1 tc ts, prepared j ["states.json"; "controls.json"] = Ok d0 /\ controls_text j x = Some tc /\ states_text j st = Some ts /\
      save (writing j "controls.json") d0 "controls.json" (Some tc) = Ok d1 /\
      save (writing j "states.json") d1 "states.json" (Some ts) = Ok d.
Proof.
  intros W H. unfold run in H. apply obind_Ok in H. destruct H as (u & _ & H). rewrite W in H. cbn [negb] in H.
  apply obind_Ok in H. destruct H as ([lower upper] & Hb & H). apply obind_Ok in H. destruct H as (o & Ho & H).
  unfold optimize in H. destruct (Z.eqb_spec (initialize (solver j)) SUCCESS) as [Hi|Hi]; cbn [negb] in H; [|discriminate H].
  destruct (finalize (solver j)) as [[[status x] obj]|] eqn:Hf; [|discriminate H].
  destruct (finalize_solution (after o (callbacks (solver j))) x) as [o2 [cost penalty]] eqn:F. cbn [best_solution] in H.
  unfold report in H. cbn [best_solution best_cost_value best_penalty_value best_objective_value] in H.
  destruct (final_reports o2 x lower upper) as [o3 [viol st]] eqn:G.
  destruct viol as [[lv uv]| |]; [|discriminate H|discriminate H]. cbn [omap obind] in H.
  apply obind_Ok in H. destruct H as (d0 & P & H). apply obind_Ok in H. destruct H as (d1 & V1 & H).
  apply obind_Ok in H. destruct H as (d2 & V2 & H). injection H as <- <-.
  destruct (controls_text j x) as [tc|] eqn:Tc; [|discriminate V1]. destruct (states_text j st) as [ts|] eqn:Ts; [|discriminate V2].
  exists lower, upper, o, status, x, obj. repeat (split; auto).
  exists o2, cost, penalty. split; auto. exists o3, lv, uv, st. split; auto. split; auto.
  exists d0, d1, tc, ts. auto.
Qed.

Lemma run_statuses j status returned : omap fst (run (with_statuses j status returned)) = omap fst (run j).
Proof.
  unfold run, with_statuses. cbn [all_json setup simulated prepared states_text controls_text writing bounds constructed solver].
  destruct (setup j); cbn [obind omap]; auto. destruct (negb _); auto.
  destruct (bounds j) as [[lower upper]| |]; cbn [obind omap]; auto. destruct (constructed j) as [o| |]; cbn [obind omap]; auto.
  unfold optimize. cbn [initialize callbacks finalize return_status]. destruct (negb _); [reflexivity|].
  destruct (finalize (solver j)) as [[[s x] obj]|]; cbn [option_map]; [|reflexivity].
  destruct (finalize_solution _ x) as [o2 [cost penalty]]. unfold report. cbn [best_solution best_cost_value best_penalty_value best_objective_value].
  destruct (final_reports o2 x lower upper) as [o3 [viol st]]. destruct viol as [[lv uv]| |]; cbn [omap obind]; auto.
  destruct (prepared j _) as [d| |]; cbn [omap obind]; auto. destruct (save _ d _ _) as [d1| |]; cbn [omap obind]; auto.
  destruct (save _ d1 _ _); reflexivity.
Qed.
End P.
