(** * The residual of a network is separable: the last state, the new state and the control
      enter it in different terms *)
From Coq Require Import Reals Lra Lia List Arith Bool.
From Verif Require Import Base Interp_Model Calc Euler_Model Box_Model Net_Model Handler_Proofs2.
Import ListNotations.
Local Open Scope R_scope.

(** Four lists of writes to the same rows; the first two differ by as much as the last two. *)
Inductive sep4 : list write -> list write -> list write -> list write -> Prop :=
| sep_nil : sep4 [] [] [] []
| sep_assign i r1 r2 r3 r4 w1 w2 w3 w4 : r1 - r2 = r3 - r4 -> sep4 w1 w2 w3 w4 ->
    sep4 (Assign i r1 :: w1) (Assign i r2 :: w2) (Assign i r3 :: w3) (Assign i r4 :: w4)
| sep_add i r1 r2 r3 r4 w1 w2 w3 w4 : r1 - r2 = r3 - r4 -> sep4 w1 w2 w3 w4 ->
    sep4 (AddTo i r1 :: w1) (AddTo i r2 :: w2) (AddTo i r3 :: w3) (AddTo i r4 :: w4).

Lemma sep4_app a1 a2 a3 a4 b1 b2 b3 b4 : sep4 a1 a2 a3 a4 -> sep4 b1 b2 b3 b4 ->
  sep4 (a1 ++ b1) (a2 ++ b2) (a3 ++ b3) (a4 ++ b4).
Proof. intros H K. induction H; cbn [app]; [exact K|constructor; auto|constructor; auto]. Qed.

Lemma run_sep w1 w2 w3 w4 : sep4 w1 w2 w3 w4 -> forall v1 v2 v3 v4 : vec,
  (forall k, v1 k - v2 k = v3 k - v4 k) ->
  forall k, run_writes w1 v1 k - run_writes w2 v2 k = run_writes w3 v3 k - run_writes w4 v4 k.
Proof.
  intro H. induction H as [|i r1 r2 r3 r4 w1 w2 w3 w4 E H IH|i r1 r2 r3 r4 w1 w2 w3 w4 E H IH]; intros v1 v2 v3 v4 V; [exact V| |];
    unfold run_writes in *; cbn [fold_left run_write]; apply IH; intro k; unfold vset; destruct (Nat.eqb k i);
    [exact E|apply V| |apply V]. specialize (V i). lra.
Qed.

Definition osep (o1 o2 o3 o4 : outcome (list write)) : Prop :=
  forall w1 w2 w3 w4, o1 = Ok w1 -> o2 = Ok w2 -> o3 = Ok w3 -> o4 = Ok w4 -> sep4 w1 w2 w3 w4.
Lemma osep_ok w1 w2 w3 w4 : sep4 w1 w2 w3 w4 -> osep (Ok w1) (Ok w2) (Ok w3) (Ok w4).
Proof. intros H v1 v2 v3 v4 E1 E2 E3 E4. injection E1 as <-. injection E2 as <-. injection E3 as <-. injection E4 as <-. exact H. Qed.
Lemma oapp_Ok {A} (a b : outcome (list A)) w : oapp a b = Ok w -> exists l m, a = Ok l /\ b = Ok m /\ w = l ++ m.
Proof.
  intro E. unfold oapp in E. apply obind_Ok in E. destruct E as [l [E1 E]]. apply obind_Ok in E.
  destruct E as [m [E2 E]]. injection E as <-. eauto.
Qed.
Lemma osep_app a1 a2 a3 a4 b1 b2 b3 b4 : osep a1 a2 a3 a4 -> osep b1 b2 b3 b4 ->
  osep (oapp a1 b1) (oapp a2 b2) (oapp a3 b3) (oapp a4 b4).
Proof.
  intros H K w1 w2 w3 w4 E1 E2 E3 E4. apply oapp_Ok in E1, E2, E3, E4.
  destruct E1 as [l1 [m1 [? [? ->]]]]. destruct E2 as [l2 [m2 [? [? ->]]]].
  destruct E3 as [l3 [m3 [? [? ->]]]]. destruct E4 as [l4 [m4 [? [? ->]]]].
  apply sep4_app; [apply H|apply K]; assumption.
Qed.
Lemma osep_concat {A} (f1 f2 f3 f4 : A -> outcome (list write)) l :
  (forall x, osep (f1 x) (f2 x) (f3 x) (f4 x)) ->
  osep (oconcat (map f1 l)) (oconcat (map f2 l)) (oconcat (map f3 l)) (oconcat (map f4 l)).
Proof.
  intro H. induction l as [|x l IH]; [apply osep_ok; constructor|]. cbn [map oconcat fold_right].
  apply osep_app; [apply H|exact IH].
Qed.
Lemma osep_bind1 {A} (a : outcome A) f1 f2 f3 f4 : (forall x, osep (f1 x) (f2 x) (f3 x) (f4 x)) ->
  osep (obind a f1) (obind a f2) (obind a f3) (obind a f4).
Proof.
  intros H w1 w2 w3 w4 E1 E2 E3 E4. destruct a; cbn [obind] in *; try discriminate. eapply H; eassumption.
Qed.

(** The same writes up to the values. *)
Definition osame (o o' : outcome (list write)) : Prop := osep o o o' o'.
Lemma osame_app a a' b b' : osame a a' -> osame b b' -> osame (oapp a b) (oapp a' b').
Proof. apply osep_app. Qed.
Lemma osame_bind {A} (a b : outcome A) f g : (forall x y, osame (f x) (g y)) -> osame (obind a f) (obind b g).
Proof.
  intros H w1 w2 w3 w4 E1 E2 E3 E4. apply obind_Ok in E1. destruct E1 as [x [X E1]].
  apply obind_Ok in E3. destruct E3 as [y [Y E3]]. rewrite X in E2. rewrite Y in E4. cbn [obind] in *.
  eapply H; eassumption.
Qed.
Lemma osame_concat {A} (f g : A -> outcome (list write)) l : (forall x, osame (f x) (g x)) ->
  osame (oconcat (map f l)) (oconcat (map g l)).
Proof. apply osep_concat. Qed.
Lemma osame_ok w w' : sep4 w w w' w' -> osame (Ok w) (Ok w').
Proof. apply osep_ok. Qed.
Ltac sep := repeat (constructor; [lra|]); constructor.

Lemma power_same k n b1 b2 x x' : osame (power_evaluate k n b1 b2 x) (power_evaluate k n b1 b2 x').
Proof.
  destruct k; cbn [power_evaluate].
  - apply osame_bind; intros ? ?. apply osame_bind; intros ? ?. apply osame_ok. sep.
  - apply osame_bind; intros ? ?. apply osame_ok. sep.
  - apply osame_ok. sep.
Qed.
Lemma balance_same att x x' : forall i p p' j, osame (balance_loop att x i p j) (balance_loop att x' i p' j).
Proof.
  induction att as [|[d e] att IH]; intros i p p' j; [apply osame_ok; sep|]. cbn [balance_loop].
  apply osame_bind; intros pq pq'. apply osame_app; [apply osame_ok; sep|apply IH].
Qed.
Lemma flow_same att q x x' : osame (flow_balance att x q) (flow_balance att x' q).
Proof.
  unfold flow_balance. destruct att as [|[d0 e0] rest]; [apply osame_ok; sep|]. apply osame_bind; intros pq pq'.
  destruct (last ((d0, e0) :: rest) (d0, e0)) as [dl el]. apply osame_app; [apply osame_ok; sep|apply balance_same].
Qed.
Lemma pressure_same att q x x' : osame (pressure_evaluate att x q) (pressure_evaluate att x' q).
Proof. apply osame_concat. intros [d e]. apply osame_bind; intros pq pq'. apply osame_ok. sep. Qed.
Lemma node_same N j t t1 x x' : osame (node_evaluate N j t t1 x) (node_evaluate N j t t1 x').
Proof.
  unfold node_evaluate. destruct t as [|sink b|b|k ext G B b].
  - apply flow_same.
  - destruct (attached_gas N j); [apply osame_ok; sep|]. apply osep_bind1. intro v. apply flow_same.
  - destruct (attached_gas N j); [apply osame_ok; sep|]. apply osep_bind1. intro v. apply pressure_same.
  - apply osep_bind1. intro v. apply power_same.
Qed.

Lemma cell_sep bl dx t0 t1 l l' x x' i :
  osep (cell_evaluate bl dx t0 t1 l x i) (cell_evaluate bl dx t0 t1 l' x i)
       (cell_evaluate bl dx t0 t1 l x' i) (cell_evaluate bl dx t0 t1 l' x' i).
Proof.
  unfold cell_evaluate, evaluate_point.
  intros w1 w2 w3 w4.
  destruct (bl_source bl (seg x (i + 1))) as [a| |]; cbn; try discriminate.
  destruct (bl_source bl (seg x (i - 1))) as [b| |]; cbn; try discriminate.
  destruct (bl_source bl (seg x' (i + 1))) as [a'| |]; cbn; try discriminate.
  destruct (bl_source bl (seg x' (i - 1))) as [b'| |]; cbn; try discriminate.
  intros E1 E2 E3 E4. injection E1 as <-. injection E2 as <-. injection E3 as <-. injection E4 as <-. sep.
Qed.
Lemma cell_same bl dx t0 t1 l l' x x' i :
  osame (cell_evaluate bl dx t0 t1 l x i) (cell_evaluate bl dx t0 t1 l' x' i).
Proof.
  unfold cell_evaluate, omap. apply osame_bind; intros ? ?. apply osame_ok. sep.
Qed.
(** The part of an edge depending on the last state ... *)
Lemma edge_sep_last e t0 t1 l l' x x' c c' :
  osep (edge_evaluate e t0 t1 l x c) (edge_evaluate e t0 t1 l' x c)
       (edge_evaluate e t0 t1 l x' c') (edge_evaluate e t0 t1 l' x' c').
Proof.
  unfold edge_evaluate. destruct (ge_kind e) as [d k dx| |i|i|g2p p2g plant].
  - unfold pipe_loop. apply osep_bind1. intro is. apply osep_concat. intro i. apply cell_sep.
  - apply osame_bind; intros ? ?. apply osame_bind; intros ? ?. apply osame_ok. sep.
  - apply osame_bind; intros ? ?. apply osame_bind; intros ? ?. apply osame_ok. sep.
  - apply osame_bind; intros ? ?. apply osame_bind; intros ? ?. apply osame_ok. sep.
  - apply osame_bind; intros ? ?. apply osame_bind; intros ? ?. apply osame_ok. sep.
Qed.
(** ... and on the control. *)
Lemma edge_sep_control e t0 t1 l l' x x' c c' :
  osep (edge_evaluate e t0 t1 l x c) (edge_evaluate e t0 t1 l x c')
       (edge_evaluate e t0 t1 l' x' c) (edge_evaluate e t0 t1 l' x' c').
Proof.
  unfold edge_evaluate. destruct (ge_kind e) as [d k dx| |i|i|g2p p2g plant].
  - unfold pipe_loop. apply osep_bind1. intro is. apply osame_concat. intro i. apply cell_same.
  - apply osame_bind; intros ? ?. apply osame_bind; intros ? ?. apply osame_ok. sep.
  - intros w1 w2 w3 w4. unfold boundary_state, omap.
    destruct (boundary_state_index dend e) as [a| |]; cbn; try discriminate.
    intros E1 E2 E3 E4. injection E1 as <-. injection E2 as <-. injection E3 as <-. injection E4 as <-. sep.
  - intros w1 w2 w3 w4. unfold boundary_state, omap.
    destruct (boundary_state_index dend e) as [a| |]; cbn; try discriminate.
    intros E1 E2 E3 E4. injection E1 as <-. injection E2 as <-. injection E3 as <-. injection E4 as <-. sep.
  - apply osame_bind; intros ? ?. apply osame_bind; intros ? ?. apply osame_ok. sep.
Qed.
Lemma on_edges_sep N select f1 f2 f3 f4 : (forall e, osep (f1 e) (f2 e) (f3 e) (f4 e)) ->
  osep (oconcat (on_edges N select f1)) (oconcat (on_edges N select f2))
       (oconcat (on_edges N select f3)) (oconcat (on_edges N select f4)).
Proof.
  intro H. unfold on_edges. induction (numbered N) as [|ie l IH]; [apply osep_ok; constructor|]. cbn [flat_map].
  rewrite !oconcat_app. apply osep_app; [|exact IH]. destruct (select (snd ie)); [|apply osep_ok; constructor].
  destruct (gas_of N (fst ie) (snd ie)); [|apply osep_ok; constructor]. cbn [oconcat fold_right].
  apply osep_app; [apply H|apply osep_ok; constructor].
Qed.
Lemma evaluate_run N t0 t1 l x c v r : evaluate N t0 t1 l x c v = Ok r ->
  exists ws, evaluate_writes N t0 t1 l x c = Ok ws /\ r = run_writes ws v.
Proof.
  intro E. unfold evaluate in E. apply obind_Ok in E. destruct E as [ws [E1 E]].
  destruct (forallb _ ws); [|discriminate]. injection E as <-. eauto.
Qed.

Lemma evaluate_sep_last N t0 t1 l l' x x' c c' v r1 r2 r3 r4 :
  evaluate N t0 t1 l x c v = Ok r1 -> evaluate N t0 t1 l' x c v = Ok r2 ->
  evaluate N t0 t1 l x' c' v = Ok r3 -> evaluate N t0 t1 l' x' c' v = Ok r4 ->
  forall i, r1 i - r2 i = r3 i - r4 i.
Proof.
  intros E1 E2 E3 E4. apply evaluate_run in E1, E2, E3, E4.
  destruct E1 as [w1 [E1 ->]]. destruct E2 as [w2 [E2 ->]]. destruct E3 as [w3 [E3 ->]]. destruct E4 as [w4 [E4 ->]].
  apply run_sep; [|reflexivity].
  enough (osep (evaluate_writes N t0 t1 l x c) (evaluate_writes N t0 t1 l' x c)
               (evaluate_writes N t0 t1 l x' c') (evaluate_writes N t0 t1 l' x' c')) as H by (apply H; assumption).
  unfold evaluate_writes. cbv zeta. rewrite !oconcat_app. apply osep_app; [|apply osep_app].
  - unfold on_nodes. apply osame_concat. intros [j t]. apply node_same.
  - apply on_edges_sep. intro e. apply edge_sep_last.
  - apply on_edges_sep. intro e. apply edge_sep_last.
Qed.
Lemma evaluate_sep_control N t0 t1 l l' x x' c c' v r1 r2 r3 r4 :
  evaluate N t0 t1 l x c v = Ok r1 -> evaluate N t0 t1 l x c' v = Ok r2 ->
  evaluate N t0 t1 l' x' c v = Ok r3 -> evaluate N t0 t1 l' x' c' v = Ok r4 ->
  forall i, r1 i - r2 i = r3 i - r4 i.
Proof.
  intros E1 E2 E3 E4. apply evaluate_run in E1, E2, E3, E4.
  destruct E1 as [w1 [E1 ->]]. destruct E2 as [w2 [E2 ->]]. destruct E3 as [w3 [E3 ->]]. destruct E4 as [w4 [E4 ->]].
  apply run_sep; [|reflexivity].
  enough (osep (evaluate_writes N t0 t1 l x c) (evaluate_writes N t0 t1 l x c')
               (evaluate_writes N t0 t1 l' x' c) (evaluate_writes N t0 t1 l' x' c')) as H by (apply H; assumption).
  unfold evaluate_writes. cbv zeta. rewrite !oconcat_app. apply osep_app; [|apply osep_app].
  - unfold on_nodes. apply osame_concat. intros [j t]. apply node_same.
  - apply on_edges_sep. intro e. apply edge_sep_control.
  - apply on_edges_sep. intro e. apply edge_sep_control.
Qed.
