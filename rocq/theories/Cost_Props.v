(** * Properties of the running cost: C29 (cost of compressors) and C50 *)
From Coq Require Import Reals Lra Lia List Arith.
From Coquelicot Require Import Coquelicot.
From Verif Require Import Base Calc Euler_Model Box_Model Box_Proofs Net_Model Net_Spec Net_Proofs Net_Proofs5
  Cost_Model Cost_Spec Cost_Proofs.
Import ListNotations.
Local Open Scope R_scope.

(** ** C29: the derivative of the cost of one compressor *)
Theorem C29_cost :
  forall n weight i c, (i < n)%nat ->
    (compressor_cost weight i c = weight * c i ^ 2) /\
    gradient n (compressor_cost weight i) c (matrix_of (compressor_d_cost_d_control weight i c) 0%nat).
Proof. intros n w i c H. split; [unfold compressor_cost; ring|]. apply gradient_square. exact H. Qed.
Print Assumptions C29_cost.

(** ** C50 *)

(** The reported cost is the weighted sum of the squared pressure rises, each compressor reading
    its own control. *)
Theorem C50_cost :
  forall N c, evaluate_cost constructed_weight N c = compression_cost N c.
Proof. intros. rewrite cost_value. unfold constructed_weight. ring. Qed.
Print Assumptions C50_cost.

(** The reported derivatives are the true ones: with respect to the controls, and none with
    respect to the states, on which the cost does not depend. *)
Theorem C50_gradient :
  forall N c,
    gradient (number_of_controls N) (evaluate_cost constructed_weight N) c
      (matrix_of (d_evaluate_cost_d_control N c) 0%nat) /\
    d_evaluate_cost_d_state N c = [] /\
    (forall t, In t (d_evaluate_cost_d_control N c) ->
       fst (fst t) = 0%nat /\ (snd (fst t) < number_of_controls N)%nat).
Proof.
  intros N c. split; [|split].
  - eapply gradient_value; [apply weighted_gradient|]. intros k _. unfold constructed_weight. ring.
  - unfold d_evaluate_cost_d_state. induction (cost_components N); auto.
  - intros t H. unfold d_evaluate_cost_d_control in H. apply in_flat_map in H. destruct H as [[w i] [H [<-|[]]]].
    cbn. split; [reflexivity|]. eapply cost_index. exact H.
Qed.
Print Assumptions C50_gradient.

(** The penalty is zero, and so are its derivatives. *)
Theorem C50_penalty :
  forall weight N, evaluate_penalty weight N = 0 /\ d_evaluate_penalty N = [].
Proof.
  intros w N. unfold evaluate_penalty, d_evaluate_penalty. split; [|induction (cost_components N); auto].
  rewrite fold_rsum. unfold compressor_penalty.
  assert (E : rsum (fun _ : R * nat => 0) (cost_components N) = 0); [|rewrite E; ring].
  induction (cost_components N); cbn; lra.
Qed.
Print Assumptions C50_penalty.

(** A network with another weight would report a wrong gradient: the factor is missing.  (No
    constructor of Networkproblem sets another weight.) *)
Theorem C50_weight_needed :
  forall weight N c k, (k < number_of_controls N)%nat ->
    gradient (number_of_controls N) (evaluate_cost weight N) c
      (matrix_of (d_evaluate_cost_d_control N c) 0%nat) ->
    weight = 1 \/ matrix_of (d_evaluate_cost_d_control N c) 0%nat k = 0.
Proof.
  intros w N c k Hk H. pose proof (gradient_unique _ _ _ _ _ k Hk H (weighted_gradient w N c)) as E. cbn beta in E.
  set (v := matrix_of _ _ _) in *. destruct (Req_dec v 0) as [Z|Z]; [auto|]. left.
  apply (Rmult_eq_reg_r v); [|exact Z]. lra.
Qed.
Print Assumptions C50_weight_needed.

(** Two compressors with a control valve between them: the second compressor reads control 2. *)
Example C50_case :
  let N := mkNet [Innode; Innode; Innode; Innode]
             [mkEdge 0 1 (ECompressor 1); mkEdge 1 2 EControlvalve; mkEdge 2 3 (ECompressor 1)] in
  let c := fun k => INR k + 1 in
  evaluate_cost constructed_weight N c = 10 /\
  map fst (d_evaluate_cost_d_control N c) = [(0, 0); (0, 2)]%nat /\
  matrix_of (d_evaluate_cost_d_control N c) 0%nat 2%nat = 6.
Proof.
  cbv zeta. split; [rewrite C50_cost; unfold compression_cost; cbn; lra|].
  split; [reflexivity|]. cbn. lra.
Qed.
