(** * An instance for the theorems of Whole_Props.v: pressure node, compressor, sink with constraint *)
From Coq Require Import Reals Lra Lia List Arith Bool.
From Coquelicot Require Import Coquelicot.
From Verif Require Import Base Interp_Model Calc Euler_Model Net_Model Net_Spec Cost_Model Cost_Spec Interp_Spec Interp_Proofs Interp_Proofs2
  Jac_Model Jac_Proofs2 Ctimes_Model Adjoint_Model Adjoint_Spec Adjoint_Proofs3 Adjoint_Proofs4 Whole_Model Whole_Spec Whole_Proofs3.
Import ListNotations.
Local Open Scope R_scope.

Definition small_net : network :=
  mkNet [Pressurenode (fun _ => Ok (v2 50 0)); Flownode true (fun _ => Ok (v2 10 0))] [mkEdge 0 1 (ECompressor 1)].
(** The transposed Jacobian of a time step. *)
Definition small_matrix (k e : nat) : R :=
  match k, e with
  | 0%nat, 0%nat => 1 | 0%nat, 1%nat => -1 | 1%nat, 2%nat => -1 | 2%nat, 1%nat => 1
  | 3%nat, 2%nat => 1 | 3%nat, 3%nat => -1 | _, _ => 0
  end.
Definition small_solve : solver_type := fun A b =>
  if forallb (fun ke => Reqb (A (fst ke) (snd ke)) (small_matrix (fst ke) (snd ke))) (list_prod (seq 0 4) (seq 0 4))
  then Some (fun e => match e with
    | 0%nat => b 0%nat + b 2%nat | 1%nat => b 2%nat | 2%nat => - b 1%nat | 3%nat => - b 1%nat - b 3%nat | _ => 0 end)
  else None.
Definition small_X (s : R) : list R := [50; 10; 51; 10; 50; 10; 52 + s / 2; 10; 50; 10; 53; 10].

Lemma small_solver : solver_correct 4 small_solve.
Proof.
  intros A b x H k Hk. unfold small_solve in H.
  destruct (forallb _ _) eqn:E; [|discriminate]. injection H as <-.
  rewrite forallb_forall in E.
  assert (V : forall e, (e < 4)%nat -> A k e = small_matrix k e).
  { intros e He. apply Reqb_true. apply (E (k, e)). apply in_prod; apply in_seq; lia. }
  unfold inner. cbn [Rsum]. rewrite !V by lia.
  do 4 (destruct k as [|k]; [cbn; ring|]). lia.
Qed.
Lemma small_accepts controls states : solver_accepts (network_problem small_net [1%nat]) small_solve toy_st controls states.
Proof.
  intros i t0 t1 xl xn u b _ _ _ _ _. unfold small_solve.
  replace (forallb _ _) with true; [discriminate|]. symmetry. apply forallb_forall. intros [k e] Hin.
  apply in_prod_iff in Hin. destruct Hin as [Hk He]. apply in_seq in Hk, He. cbn [fst snd]. apply Reqb_true.
  cbn [d_new network_problem].
  do 4 (destruct k as [|k]; [do 4 (destruct e as [|e]; [cbn; ring|]); lia|]). lia.
Qed.
Lemma small_wf : well_formed small_net.
Proof. unfold well_formed. cbn [edges small_net]. repeat constructor; cbn; auto. Qed.
Lemma small_boundary t : boundary_defined small_net t.
Proof. intros [|[|j]]; cbn; eauto. destruct j; exact I. Qed.

Lemma small_family : network_family small_net toy_st toy_ct toy_W toy_W' small_X.
Proof.
  constructor; change (number_of_controls small_net) with 1%nat; change (number_of_states small_net) with 4%nat.
  - reflexivity.
  - reflexivity.
  - intros j k Hj Hk. apply lt1 in Hk. subst k. cbn in Hj. destruct j as [|[|j]]; [| |lia]; cbn.
    + auto_derive; [auto|ring].
    + apply (is_derive_const 3).
  - intros i k Hi Hk. cbn in Hi.
    do 3 (destruct i as [|i]; [do 4 (destruct k as [|k]; [cbn; auto_derive; auto|]); lia|]). lia.
  - intros s k Hk. do 4 (destruct k as [|k]; [reflexivity|]). lia.
  - apply filter_forall. intros s i t0 t1 u H0 H1 [HC _].
    specialize (HC 0%nat ltac:(lia)).
    assert (V : row (small_X s) 4 (S i) 2%nat = 50 + u 0%nat /\ (S i = 1 \/ S i = 2)%nat).
    { destruct i as [|[|i]]; cbn in H0, H1; try discriminate; [| |destruct i; discriminate]; injection H1 as <-; (split; [|lia]).
      - assert (U : u 0%nat = 2 + s / 2); [|rewrite U; cbn; lra].
        apply (piecewise_linear_unique tolerance toy_ct (fun j => Interp_Spec.entry (toy_W s) 1 j 0) 1);
          [apply Rlt_le, EPSILON_pos|exact toy_ct_inc|exact HC|].
        right. left. exists 0%nat, 0, 2. cbn. repeat split; auto; try lra.
      - assert (U : u 0%nat = 3); [|rewrite U; cbn; lra].
        apply (piecewise_linear_unique tolerance toy_ct (fun j => Interp_Spec.entry (toy_W s) 1 j 0) 2);
          [apply Rlt_le, EPSILON_pos|exact toy_ct_inc|exact HC|].
        left. exists 1%nat. split; reflexivity. }
    destruct V as [V Hi].
    set (x := row (small_X s) 4 (S i)) in *.
    assert (X0 : x 0%nat = 50) by (unfold x; destruct Hi as [-> | ->]; reflexivity).
    assert (X1 : x 1%nat = 10) by (unfold x; destruct Hi as [-> | ->]; reflexivity).
    assert (X3 : x 3%nat = 10) by (unfold x; destruct Hi as [-> | ->]; reflexivity).
    clearbody x. split.
    + intros j t Ht. destruct j as [|[|j]]; cbn [nodes small_net nth_error] in Ht; [| |destruct j; discriminate]; injection Ht as <-.
      * intros _. exists (v2 50 0). split; [reflexivity|]. intros ie e d He Hc Ht.
        destruct ie as [|ie]; cbn in He; [|destruct ie; discriminate]. injection He as <-. cbn in Ht.
        destruct d; cbn in Ht; [|discriminate]. cbn. exact X0.
      * intros _. exists (v2 10 0). split; [reflexivity|]. split.
        -- exists (50 + u 0%nat). intros ie e d He Hc Ht.
           destruct ie as [|ie]; cbn in He; [|destruct ie; discriminate]. injection He as <-. cbn in Ht.
           destruct d; cbn in Ht; [discriminate|]. cbn. exact V.
        -- unfold net_outflow, flow_at, end_position. cbn. rewrite X3. ring.
    + intros ie e He. destruct ie as [|ie]; cbn in He; [|destruct ie; discriminate]. injection He as <-.
      cbn. rewrite X0, X1, X3, V. split; ring.
Qed.
Lemma small_regular : regular_trajectory small_net toy_st (small_X 0).
Proof.
  split; [exact small_wf|]. split; [unfold pipes_ok; cbn [edges small_net]; repeat constructor|].
  intros i t _. split; [apply small_boundary|]. intros ie e He.
  destruct ie as [|ie]; cbn in He; [|destruct ie; discriminate]. injection He as <-. exact I.
Qed.
Lemma small_sinks : constrained_nodes small_net [1%nat].
Proof.
  intros j [<-|[]]. split; [exact I|]. exists 0%nat, (mkEdge 0 1 (ECompressor 1)), dend. repeat split.
Qed.

Lemma small_instance : exists l G J,
  increasing toy_st /\ (2 <= length toy_st)%nat /\ increasing toy_ct /\
  regular_trajectory small_net toy_st (small_X 0) /\ constrained_nodes small_net [1%nat] /\
  network_family small_net toy_st toy_ct toy_W toy_W' small_X /\
  make_data 1 (number_of_controls small_net) [1; 2] toy_ct = Some (Ok l) /\ ctor_time_checks toy_st toy_ct [1; 2] = Ok tt /\
  solver_correct (number_of_states small_net) small_solve /\
  compute_derivatives (network_problem small_net [1%nat]) small_solve l toy_st toy_ct [1; 2]
    (mk_ivec toy_ct (number_of_controls small_net) (toy_W 0)) (mk_ivec toy_st (number_of_states small_net) (small_X 0)) = Ok (Some (G, J)).
Proof.
  assert (Hi : increasing [1; 2]) by (repeat constructor; lra).
  assert (Hc : ctor_time_checks toy_st toy_ct [1; 2] = Ok tt).
  { apply toy_ctor; auto. intros c [<-|[<-|[]]]; auto. }
  destruct (toy_layout [1; 2] Hi) as [l Hl].
  destruct (derivatives_computed (network_problem small_net [1%nat]) small_solve l toy_st toy_ct [1; 2] (toy_W 0) (small_X 0)) as (r & Hr & Hn); auto.
  - apply toy_st_inc.
  - cbn; lia.
  - apply toy_ct_inc.
  - cbn [toy_st toy_ct last]. change tolerance with EPSILON. pose proof EPSILON_pos. lra.
  - reflexivity.
  - reflexivity.
  - specialize (Hn (small_accepts _ _)). destruct r as [[G J]|]; [|congruence].
    exists l, G, J. split; [apply toy_st_inc|]. split; [cbn; lia|]. split; [apply toy_ct_inc|].
    split; [apply small_regular|]. split; [apply small_sinks|]. split; [apply small_family|].
    split; [exact Hl|]. split; [exact Hc|]. split; [exact small_solver|exact Hr].
Qed.
