(** * Property C121: other short components in the place of short components *)
From Coq Require Import Reals ZArith Lra Lia List Arith.
From Verif Require Import Base Calc Euler_Model Box_Model Net_Model Net_Spec Net_Props Level_Spec.
From Verif Require Import Lift_Spec Lift_Proofs.
Import ListNotations.
Local Open Scope R_scope.

(** The network with the other components is one that can be solved, with the same variables. *)
Theorem C121_network : forall N N' c c', same_lifts N N' c c' -> well_formed N ->
  well_formed N' /\ (pipes_ok N -> pipes_ok N') /\ (forall t, boundary_defined N t -> boundary_defined N' t) /\
  number_of_states N' = number_of_states N /\
  (forall j, node_block N' j = node_block N j) /\ (forall i, edge_block N' i = edge_block N i).
Proof.
  intros N N' c c' H W. split; [eapply lift_well_formed; eassumption|]. split; [eapply lift_pipes; eassumption|].
  split; [intro t; eapply lift_boundary; eassumption|]. split; [eapply lift_total; eassumption|].
  split; intro; [eapply lift_node_block|eapply lift_edge_block]; eassumption.
Qed.
Print Assumptions C121_network.

(** The same steps solve the equations. *)
Theorem C121_equations : forall N N' c c' t0 t1 last x, same_lifts N N' c c' ->
  (network_equations N' t0 t1 last x c' <-> network_equations N t0 t1 last x c).
Proof. intros N N' c c' t0 t1 last x H. split; apply lift_solution; [apply same_lifts_back|]; exact H. Qed.
Print Assumptions C121_equations.

Theorem C121_residual : forall N N' c c' t0 t1 last x v, same_lifts N N' c c' ->
  well_formed N -> pipes_ok N -> boundary_defined N t1 ->
  exists r r', evaluate N t0 t1 last x c v = Ok r /\ evaluate N' t0 t1 last x c' v = Ok r' /\
    ((forall k, (k < number_of_states N)%nat -> r' k = 0) <-> (forall k, (k < number_of_states N)%nat -> r k = 0)).
Proof.
  intros N N' c c' t0 t1 last x v H W HP HB. destruct (C121_network N N' c c' H W) as (W' & HP' & HB' & Hn & _).
  destruct (C54_solution N t0 t1 last x c v W HP HB) as (r & E & Z). destruct (C54_solution N' t0 t1 last x c' v W' (HP' HP) (HB' t1 HB)) as (r' & E' & Z').
  rewrite Hn in Z'. exists r, r'. split; [exact E|]. split; [exact E'|]. rewrite Z, Z'. apply C121_equations. exact H.
Qed.
Print Assumptions C121_residual.

(** A short pipe, a compressor that raises the pressure by 7 and a control valve that lowers it by 2 in a row; instead a
    compressor that is switched off, a control valve that lowers it by -7 and a compressor that raises it by -2. *)
Definition row_nodes : list nodetype := [Pressurenode (fun _ => Ok (v2 50 0)); Innode; Innode; Flownode true (fun _ => Ok (v2 3 0))].
Definition row : network := mkNet row_nodes [mkEdge 0 1 EShortpipe; mkEdge 1 2 (ECompressor 1); mkEdge 2 3 EControlvalve].
Definition row' : network := mkNet row_nodes [mkEdge 0 1 (ECompressor 5); mkEdge 1 2 EControlvalve; mkEdge 2 3 (ECompressor 0)].
Definition row_controls : vec := fun k => nth k [7; 2] 0.
Definition row_controls' : vec := fun k => nth k [0; -7; -2] 0.
Definition row_state : vec := fun k => nth k [50; 3; 50; 3; 50; 3; 57; 3; 57; 3; 55; 3] 0.
Example C121_case :
  same_lifts row row' row_controls row_controls' /\ well_formed row /\
  network_equations row 0 1 row_state row_state row_controls /\ network_equations row' 0 1 row_state row_state row_controls'.
Proof.
  assert (S : same_lifts row row' row_controls row_controls').
  { split; [reflexivity|]. split.
    - repeat (apply Forall2_cons; [split; [reflexivity|]; split; [reflexivity|]; right; split; exact Logic.I|]). constructor.
    - intros i e e' H H' _. destruct i as [|[|[|i]]]; [injection H as <-; injection H' as <-..|destruct i; discriminate]; unfold lift; cbn; lra. }
  assert (W : well_formed row) by (unfold well_formed; cbn [row edges]; repeat constructor; cbn; auto; discriminate).
  assert (Q : network_equations row 0 1 row_state row_state row_controls).
  { assert (P : forall j pr, nth_error [50; 50; 57; 55] j = Some pr -> equal_pressures row j row_state pr).
    { intros j pr Hp [|[|[|i]]] e d H _ T; [injection H as <-..|destruct i; discriminate]; destruct d; cbn in T; subst j; cbn in Hp; injection Hp as <-; reflexivity. }
    split.
    - intros [|[|[|[|j]]]] t H; [injection H as <-..|destruct j; discriminate]; intros _.
      + eexists. split; [reflexivity|]. apply P. reflexivity.
      + split; [exists 50; apply P; reflexivity|]. unfold net_outflow, flow_at, end_position. cbn. lra.
      + split; [exists 57; apply P; reflexivity|]. unfold net_outflow, flow_at, end_position. cbn. lra.
      + eexists. split; [reflexivity|]. split; [exists 55; apply P; reflexivity|]. unfold net_outflow, flow_at, end_position. cbn. lra.
    - intros [|[|[|i]]] e H; [injection H as <-..|destruct i; discriminate]; split; cbn; lra. }
  split; [exact S|]. split; [exact W|]. split; [exact Q|]. apply (C121_equations row row' row_controls row_controls' 0 1 row_state row_state S). exact Q.
Qed.
