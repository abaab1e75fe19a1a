(** * The positions reported by a network do not depend on the state *)
From Coq Require Import Reals Lia List Arith Bool.
From Verif Require Import Base Interp_Model Calc Euler_Model Box_Model Net_Model.
Import ListNotations.
Local Open Scope R_scope.

Definition same_pos (o o' : outcome (list entry)) : Prop :=
  forall ts ts', o = Ok ts -> o' = Ok ts' -> map fst ts = map fst ts'.
Lemma same_app a a' b b' : same_pos a a' -> same_pos b b' -> same_pos (oapp a b) (oapp a' b').
Proof.
  intros H K ts ts' E E'. unfold oapp in *. apply obind_Ok in E. destruct E as [l [E1 E]].
  apply obind_Ok in E. destruct E as [m [E2 E]]. apply obind_Ok in E'. destruct E' as [l' [E1' E']].
  apply obind_Ok in E'. destruct E' as [m' [E2' E']]. injection E as <-. injection E' as <-.
  rewrite !map_app. f_equal; [exact (H l l' E1 E1')|exact (K m m' E2 E2')].
Qed.
Lemma same_ok l l' : map fst l = map fst l' -> same_pos (Ok l) (Ok l').
Proof. intros H ts ts' E E'. injection E as <-. injection E' as <-. exact H. Qed.
Lemma same_bind {A B} (a : outcome A) (b : outcome B) f g :
  (forall x y, same_pos (f x) (g y)) -> same_pos (obind a f) (obind b g).
Proof.
  intros H ts ts' E E'. apply obind_Ok in E. destruct E as [x [_ E]]. apply obind_Ok in E'. destruct E' as [y [_ E']].
  exact (H x y ts ts' E E').
Qed.
Lemma same_bind1 {A} (a : outcome A) f g : (forall x, same_pos (f x) (g x)) -> same_pos (obind a f) (obind a g).
Proof.
  intros H ts ts' E E'. apply obind_Ok in E. destruct E as [x [X E]]. apply obind_Ok in E'. destruct E' as [y [Y E']].
  assert (x = y) by congruence. subst y. exact (H x ts ts' E E').
Qed.
Lemma same_concat {A} (f g : A -> outcome (list entry)) l : (forall x, same_pos (f x) (g x)) ->
  same_pos (oconcat (map f l)) (oconcat (map g l)).
Proof.
  intro H. induction l as [|x l IH]; [apply same_ok; reflexivity|]. cbn [map oconcat fold_right].
  apply same_app; [apply H|exact IH].
Qed.
Lemma oconcat_app {A} (l m : list (outcome (list A))) : oconcat (l ++ m) = oapp (oconcat l) (oconcat m).
Proof.
  induction l as [|o l IH].
  - cbn [app]. unfold oconcat at 2. cbn [fold_right]. unfold oapp. cbn [obind]. destruct (oconcat m); reflexivity.
  - cbn [app oconcat fold_right]. fold (oconcat (l ++ m)). fold (oconcat l). rewrite IH. unfold oapp.
    destruct o; cbn [obind]; auto. destruct (oconcat l); cbn [obind]; auto.
    destruct (oconcat m); cbn [obind]; auto. rewrite app_assoc. reflexivity.
Qed.

Lemma P_pos n row x x' : same_pos (evaluate_P_derivative n row x) (evaluate_P_derivative n row x').
Proof.
  apply same_app; [apply same_ok; reflexivity|]. apply same_concat. intros [[G B] o].
  apply same_bind1. intro k. apply same_ok. reflexivity.
Qed.
Lemma Q_pos n row x x' : same_pos (evaluate_Q_derivative n row x) (evaluate_Q_derivative n row x').
Proof.
  apply same_app; [apply same_ok; reflexivity|]. apply same_concat. intros [[G B] o].
  apply same_bind1. intro k. apply same_ok. reflexivity.
Qed.
Lemma power_pos k n x x' : same_pos (power_d_new_state k n x) (power_d_new_state k n x').
Proof.
  destruct k; cbn [power_d_new_state].
  - apply same_app; [apply P_pos|apply Q_pos].
  - apply same_app; [apply P_pos|apply same_ok; reflexivity].
  - apply same_ok. reflexivity.
Qed.
Lemma boundary_pos d e f row x x' :
  same_pos (dboundary_p_qvol_dstate d e f row x) (dboundary_p_qvol_dstate d e f row x').
Proof.
  unfold dboundary_p_qvol_dstate. destruct (ge_kind e).
  1: apply same_bind; intros ? ?. all: apply same_bind1; intro i; apply same_ok; reflexivity.
Qed.
Lemma loop_pos rest : forall x x' i j, same_pos (derivative_loop rest x i j) (derivative_loop rest x' i j).
Proof.
  induction rest as [|[d e] rest IH]; intros x x' i j; [apply same_ok; reflexivity|]. cbn [derivative_loop].
  destruct rest as [|de rest]; repeat apply same_app; try apply boundary_pos. apply IH.
Qed.
Lemma flow_pos att x x' : same_pos (flow_derivative att x) (flow_derivative att x').
Proof.
  unfold flow_derivative. destruct att as [|[d0 e0] rest]; [apply same_ok; reflexivity|].
  destruct (last ((d0, e0) :: rest) (d0, e0)) as [dl el]. apply same_app; [apply boundary_pos|].
  destruct (Nat.eqb _ _); [apply same_ok; reflexivity|]. apply same_app; [apply boundary_pos|apply loop_pos].
Qed.
Lemma pressure_pos att x x' : same_pos (pressure_derivative att x) (pressure_derivative att x').
Proof. unfold pressure_derivative. apply same_concat. intros [d e]. apply boundary_pos. Qed.
Lemma pipe_pos e f g : (forall i, same_pos (f i) (g i)) -> same_pos (pipe_loop e f) (pipe_loop e g).
Proof. intro H. unfold pipe_loop. apply same_bind1. intro l. apply same_concat. exact H. Qed.
Lemma edge_new_pos e t0 t1 l x c t0' t1' l' x' c' :
  same_pos (edge_d_new_state e t0 t1 l x c) (edge_d_new_state e t0' t1' l' x' c').
Proof.
  unfold edge_d_new_state. destruct (ge_kind e).
  - apply pipe_pos. intro i. unfold cell_d_new_state. apply same_bind; intros ? ?. apply same_bind; intros ? ?.
    apply same_ok. reflexivity.
  - apply same_bind1; intro i. apply same_bind1; intro j. apply same_ok. reflexivity.
  - apply same_bind1; intro i. apply same_bind1; intro j. apply same_ok. reflexivity.
  - apply same_bind1; intro i. apply same_bind1; intro j. apply same_ok. reflexivity.
  - apply same_bind; intros ? ?. apply same_app; [apply same_ok; reflexivity|].
    apply same_app; [apply P_pos|apply same_ok; reflexivity].
Qed.
Lemma edge_last_pos e t0 t1 l x c t0' t1' l' x' c' :
  same_pos (edge_d_last_state e t0 t1 l x c) (edge_d_last_state e t0' t1' l' x' c').
Proof.
  unfold edge_d_last_state. destruct (ge_kind e); try (apply same_ok; reflexivity).
  apply pipe_pos. intro i. unfold cell_d_last_state. apply same_bind; intros ? ?. apply same_bind; intros ? ?.
  apply same_ok. reflexivity.
Qed.
Lemma on_edges_pos N select f g : (forall e, same_pos (f e) (g e)) ->
  same_pos (oconcat (on_edges N select f)) (oconcat (on_edges N select g)).
Proof.
  intro H. unfold on_edges. induction (numbered N) as [|ie l IH]; [apply same_ok; reflexivity|]. cbn [flat_map].
  rewrite !oconcat_app. apply same_app; [|exact IH]. destruct (select (snd ie)); [|apply same_ok; reflexivity].
  destruct (gas_of N (fst ie) (snd ie)); [|apply same_ok; reflexivity]. cbn [oconcat fold_right].
  apply same_app; [apply H|apply same_ok; reflexivity].
Qed.
Lemma new_positions N t0 t1 l x c t0' t1' l' x' c' :
  same_pos (d_evaluate_d_new_state N t0 t1 l x c) (d_evaluate_d_new_state N t0' t1' l' x' c').
Proof.
  unfold d_evaluate_d_new_state. rewrite !oconcat_app. apply same_app; [|apply same_app].
  - unfold on_nodes. apply same_concat. intros [j t]. cbn [fst snd]. unfold node_d_new_state.
    destruct t; [apply flow_pos|apply flow_pos|apply pressure_pos|apply power_pos].
  - apply on_edges_pos. intro e. apply edge_new_pos.
  - apply on_edges_pos. intro e. apply edge_new_pos.
Qed.
Lemma last_positions N t0 t1 l x c t0' t1' l' x' c' :
  same_pos (d_evaluate_d_last_state N t0 t1 l x c) (d_evaluate_d_last_state N t0' t1' l' x' c').
Proof.
  unfold d_evaluate_d_last_state. rewrite !oconcat_app. apply same_app; [|apply same_app].
  - unfold on_nodes. apply same_concat. intros [j t]. apply same_ok. reflexivity.
  - apply on_edges_pos. intro e. apply edge_last_pos.
  - apply on_edges_pos. intro e. apply edge_last_pos.
Qed.
Lemma control_positions N t0 t1 l x c t0' t1' l' x' c' :
  same_pos (d_evaluate_d_control N t0 t1 l x c) (d_evaluate_d_control N t0' t1' l' x' c').
Proof. unfold d_evaluate_d_control. intros ts ts' E E'. rewrite E in E'. injection E' as <-. reflexivity. Qed.
