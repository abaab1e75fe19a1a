From Coq Require Import List Arith Reals Lra Lia Bool ZArith.
From Coquelicot Require Import Coquelicot.
From Verif Require Import Base Interp_Model Interp_Spec Interp_Proofs Interp_Proofs2
  Jac_Model Jac_Spec Jac_Proofs Jac_Proofs2 Ctimes_Model Ctimes_Spec Ctimes_Proofs
  Adjoint_Model Adjoint_Spec Adjoint_Proofs Adjoint_Proofs2 Adjoint_Proofs3.
Import ListNotations.
Open Scope R_scope.

Lemma compute_derivatives_pairs p solve l st ct cons cv xv r :
  compute_derivatives p solve l st ct cons cv xv = Ok r -> exists pairs, compute_index_lambda_vector ct st = Ok pairs.
Proof. unfold compute_derivatives. intro H. apply obind_Ok in H. destruct H as (pairs & H & _). eauto. Qed.

Lemma objective_gradient_right : forall p solve l st ct cons W W' X G J,
  increasing st -> (2 <= length st)%nat -> increasing ct ->
  make_data (ng p) (nu p) cons ct = Some (Ok l) -> ctor_time_checks st ct cons = Ok tt ->
  solver_correct (nx p) solve -> smooth_family p st ct W W' X ->
  right_derivatives p st (mk_ivec ct (nu p) (W 0)) (mk_ivec st (nx p) (X 0)) ->
  compute_derivatives p solve l st ct cons (mk_ivec ct (nu p) (W 0)) (mk_ivec st (nx p) (X 0))
    = Ok (Some (G, J)) ->
  exists f, (forall s, evaluate_objective p st (mk_ivec ct (nu p) (W s)) (mk_ivec st (nx p) (X s)) = Ok (f s)) /\
    is_derive f 0 (Rsum (length ct) (fun j => Rsum (nu p) (fun k => G j k * W' j k))).
Proof.
  intros. destruct (compute_derivatives_pairs _ _ _ _ _ _ _ _ _ H7) as [pairs Hp].
  eapply gradient_derivative; eauto.
Qed.

Lemma constraint_jacobian_right : forall p solve l st ct cons W W' X G J,
  increasing st -> (2 <= length st)%nat -> increasing ct ->
  make_data (ng p) (nu p) cons ct = Some (Ok l) -> ctor_time_checks st ct cons = Ok tt ->
  solver_correct (nx p) solve -> smooth_family p st ct W W' X ->
  right_derivatives p st (mk_ivec ct (nu p) (W 0)) (mk_ivec st (nx p) (X 0)) ->
  compute_derivatives p solve l st ct cons (mk_ivec ct (nu p) (W 0)) (mk_ivec st (nx p) (X 0))
    = Ok (Some (G, J)) ->
  forall q r, (q < length cons)%nat -> (r < ng p)%nat ->
  exists g, (forall s, evaluate_constraint_row p cons (mk_ivec ct (nu p) (W s)) (mk_ivec st (nx p) (X s)) q = Ok (g s)) /\
    is_derive (fun s => g s r) 0
      (Rsum (length ct) (fun j => Rsum (nu p) (fun k =>
         whole_matrix l J (q * ng p + r) (j * nu p + k) * W' j k))).
Proof.
  intros. destruct (compute_derivatives_pairs _ _ _ _ _ _ _ _ _ H7) as [pairs Hp].
  eapply jacobian_derivative; eauto.
Qed.

Lemma pairs_exist st ct cons : increasing st -> increasing ct -> ctor_time_checks st ct cons = Ok tt ->
  last st 0 < last ct 0 + tolerance -> exists pairs, compute_index_lambda_vector ct st = Ok pairs.
Proof.
  intros Hinc Huinc Hctor Hlast.
  unfold ctor_time_checks in Hctor.
  destruct (negb (is_sorted st)); [discriminate|]. destruct (negb (is_sorted ct)); [discriminate|].
  destruct (negb (is_sorted cons)); [discriminate|].
  destruct ct as [|c0 ct'] eqn:Ec; [discriminate|]. destruct st as [|s0 states] eqn:Es; [discriminate|].
  rewrite <- Ec, <- Es in *.
  destruct (Rltb _ _); [discriminate|]. destruct (Rltb s0 c0) eqn:E0; [discriminate|]. apply Rltb_false in E0.
  exists (map (fun t => match compute_index_lambda ct t with Ok x => x | _ => (0%nat, 0) end) st).
  apply omapM_ok. intros t Ht. apply In_nth_error in Ht. destruct Ht as [i Hi].
  assert (Hcl := nth_error_last ct 0 ltac:(rewrite Ec; discriminate)).
  assert (Hsl := nth_error_last st 0 ltac:(rewrite Es; discriminate)).
  assert (Hi' : (i < length st)%nat) by (eapply nth_error_lt_inv; eauto).
  pose proof (increasing_nth_le st Hinc 0 i s0 t ltac:(lia) ltac:(rewrite Es; reflexivity) Hi).
  pose proof (increasing_nth_le st Hinc i (length st - 1) t _ ltac:(lia) Hi Hsl).
  destruct (index_lambda_full ct t c0 (last ct 0) Huinc ltac:(rewrite Ec; reflexivity) Hcl ltac:(lra)) as (u & la & E & _).
  rewrite E. reflexivity.
Qed.

Lemma derivatives_computed : forall p solve l st ct cons W X,
  increasing st -> (2 <= length st)%nat -> increasing ct ->
  make_data (ng p) (nu p) cons ct = Some (Ok l) -> ctor_time_checks st ct cons = Ok tt ->
  last st 0 < last ct 0 + tolerance ->
  table_of ct (nu p) W -> table_of st (nx p) X ->
  (ng p = 0%nat \/ nth_error cons 0 = nth_error st 1) ->
  exists r, compute_derivatives p solve l st ct cons (mk_ivec ct (nu p) W) (mk_ivec st (nx p) X) = Ok r /\
    (solver_accepts p solve st (mk_ivec ct (nu p) W) (mk_ivec st (nx p) X) -> r <> None).
Proof.
  intros. destruct (pairs_exist st ct cons) as [pairs Hp]; auto. eapply derivatives_safe; eauto.
Qed.

Lemma derivatives_read_outside : forall p solve l st ct cons W X,
  increasing st -> (2 <= length st)%nat -> increasing ct ->
  make_data (ng p) (nu p) cons ct = Some (Ok l) -> ctor_time_checks st ct cons = Ok tt ->
  last st 0 < last ct 0 + tolerance ->
  table_of ct (nu p) W -> table_of st (nx p) X ->
  (0 < ng p)%nat -> nth_error cons 0 <> nth_error st 1 ->
  solver_accepts p solve st (mk_ivec ct (nu p) W) (mk_ivec st (nx p) X) ->
  compute_derivatives p solve l st ct cons (mk_ivec ct (nu p) W) (mk_ivec st (nx p) X) = UB.
Proof.
  intros. destruct (pairs_exist st ct cons) as [pairs Hp]; auto. eapply derivatives_unsafe; eauto.
Qed.

(** ** A concrete problem: one state, one control, one constraint;
    x_new = x_old * u, cost x^2, penalty x*u, constraint x*u. *)
Definition toy : problem :=
  mk_problem 1 1 1
    (fun _ _ xl xn u e => xn 0%nat - xl 0%nat * u 0%nat)
    (fun _ _ xl xn u e k => 1)
    (fun _ _ xl xn u e k => - u 0%nat)
    (fun _ _ xl xn u e k => - xl 0%nat)
    (fun _ x u => x 0%nat * x 0%nat)
    (fun _ x u k => 2 * x 0%nat)
    (fun _ x u k => 0)
    (fun _ x u => x 0%nat * u 0%nat)
    (fun _ x u k => u 0%nat)
    (fun _ x u k => x 0%nat)
    (fun _ x u r => x 0%nat * u 0%nat)
    (fun _ x u r k => u 0%nat)
    (fun _ x u r k => x 0%nat).

Definition toy_solve : solver_type := fun A b =>
  if Req_EM_T (A 0%nat 0%nat) 0 then None else Some (fun _ => b 0%nat / A 0%nat 0%nat).

Definition toy_st := [0; 1; 2].
Definition toy_ct := [0; 2].
(** first control value 1+s, second 3: at time 1 the control is 2 + s/2. *)
Definition toy_W (s : R) := [1 + s; 3].
Definition toy_W' (j k : nat) : R := match j with O => 1 | _ => 0 end.
Definition toy_X (s : R) := [1; 2 + s / 2; (2 + s / 2) * 3].

Lemma toy_st_inc : increasing toy_st.
Proof. repeat constructor; lra. Qed.
Lemma toy_ct_inc : increasing toy_ct.
Proof. repeat constructor; lra. Qed.

Lemma toy_solver : solver_correct 1 toy_solve.
Proof.
  intros A b x H k Hk. unfold toy_solve in H. destruct (Req_EM_T _ _); [discriminate|]. injection H as <-.
  replace k with 0%nat by lia. unfold inner. simpl. field. auto.
Qed.

Lemma lt1 k : (k < 1)%nat -> k = 0%nat.
Proof. lia. Qed.

Lemma toy_accepts controls states : solver_accepts toy toy_solve toy_st controls states.
Proof.
  intros i t0 t1 xl xn u b _ _ _ _ _. unfold toy_solve. cbn [d_new toy].
  destruct (Req_EM_T 1 0); [lra|discriminate].
Qed.

Lemma toy_right controls states : right_derivatives toy toy_st controls states.
Proof.
  intros i t0 t1 xl xn u _ _ _ _ _. split; [|split; [|split]].
  - intros a b c a' b' c' Ha Hb Hc e He. destruct Ha as [Ea Ha], Hb as [Eb Hb], Hc as [Ec Hc].
    specialize (Ha 0%nat ltac:(cbn; lia)). specialize (Hb 0%nat ltac:(cbn; lia)). specialize (Hc 0%nat ltac:(cbn; lia)).
    unfold inner. cbn [residual d_last d_new d_control nx nu toy Rsum].
    assert (Ed : 0 + - vec_of u 0%nat * a' 0%nat + (0 + 1 * b' 0%nat) + (0 + - vec_of xl 0%nat * c' 0%nat)
      = b' 0%nat - (a' 0%nat * c 0 0%nat + a 0 0%nat * c' 0%nat)) by (rewrite Ea, Ec; ring).
    rewrite Ed. apply (is_derive_minus (fun s => b s 0%nat) (fun s => a s 0%nat * c s 0%nat)); [auto|].
    apply (is_derive_mult (fun s => a s 0%nat) (fun s => c s 0%nat)); auto. intros; apply Rmult_comm.
  - intros a b a' b' [Ea Ha] [Eb Hb].
    specialize (Ha 0%nat ltac:(cbn; lia)). specialize (Hb 0%nat ltac:(cbn; lia)).
    unfold inner. cbn [cost cost_dx cost_du nx nu toy Rsum].
    assert (Ed : 0 + 2 * vec_of xn 0%nat * a' 0%nat + (0 + 0 * b' 0%nat) = a' 0%nat * a 0 0%nat + a 0 0%nat * a' 0%nat)
      by (rewrite Ea; ring).
    rewrite Ed. apply (is_derive_mult (fun s => a s 0%nat) (fun s => a s 0%nat)); auto. intros; apply Rmult_comm.
  - intros a b a' b' [Ea Ha] [Eb Hb].
    specialize (Ha 0%nat ltac:(cbn; lia)). specialize (Hb 0%nat ltac:(cbn; lia)).
    unfold inner. cbn [penalty penalty_dx penalty_du nx nu toy Rsum].
    assert (Ed : 0 + vec_of u 0%nat * a' 0%nat + (0 + vec_of xn 0%nat * b' 0%nat) = a' 0%nat * b 0 0%nat + a 0 0%nat * b' 0%nat)
      by (rewrite Ea, Eb; ring).
    rewrite Ed. apply (is_derive_mult (fun s => a s 0%nat) (fun s => b s 0%nat)); auto. intros; apply Rmult_comm.
  - intros r Hr a b a' b' [Ea Ha] [Eb Hb].
    specialize (Ha 0%nat ltac:(cbn; lia)). specialize (Hb 0%nat ltac:(cbn; lia)).
    unfold inner. cbn [constr constr_dx constr_du nx nu toy Rsum].
    assert (Ed : 0 + vec_of u 0%nat * a' 0%nat + (0 + vec_of xn 0%nat * b' 0%nat) = a' 0%nat * b 0 0%nat + a 0 0%nat * b' 0%nat)
      by (rewrite Ea, Eb; ring).
    rewrite Ed. apply (is_derive_mult (fun s => a s 0%nat) (fun s => b s 0%nat)); auto. intros; apply Rmult_comm.
Qed.

Lemma toy_control s row : interp_at (mk_ivec toy_ct 1 (toy_W s)) 1 = Ok row -> nth 0 row 0 = 2 + s / 2.
Proof.
  intro E.
  destruct (interp_in (mk_ivec toy_ct 1 (toy_W s)) toy_ct_inc ltac:(discriminate) eq_refl 1) as (row' & E' & L & P).
  { exists 0, 2. cbn. pose proof EPSILON_pos. repeat split; auto; lra. }
  rewrite E in E'. injection E' as <-.
  apply (piecewise_linear_unique EPSILON toy_ct (fun i => entry (toy_W s) 1 i 0) 1).
  - apply Rlt_le, EPSILON_pos.
  - exact toy_ct_inc.
  - apply P. cbn. lia.
  - right. left. exists 0%nat, 0, 2. cbn. repeat split; auto; try lra.
Qed.

Lemma toy_family : smooth_family toy toy_st toy_ct toy_W toy_W' toy_X.
Proof.
  constructor; cbn [nx nu toy].
  - reflexivity.
  - reflexivity.
  - intros j k Hj Hk. apply lt1 in Hk. subst k. cbn in Hj. destruct j as [|[|j]]; [| |lia]; cbn.
    + auto_derive; [auto|ring].
    + apply (is_derive_const 3).
  - intros i k Hi Hk. apply lt1 in Hk. subst k. cbn in Hi. destruct i as [|[|[|i]]]; [| | |lia]; cbn; auto_derive; auto.
  - intros s k Hk. apply lt1 in Hk. subst k. reflexivity.
  - apply filter_forall. intros s i t0 t1 xl xn u H0 H1 E0 E1 E2 e He. cbn [residual toy].
    destruct i as [|[|i]]; cbn in H0, H1; try discriminate.
    + injection H0 as <-. injection H1 as <-.
      destruct (interp_grid toy_st 1 (toy_X s) 0 0 toy_st_inc eq_refl eq_refl) as [F0 G0].
      destruct (interp_grid toy_st 1 (toy_X s) 1 1 toy_st_inc eq_refl eq_refl) as [F1 G1].
      specialize (G0 0%nat ltac:(lia)). specialize (G1 0%nat ltac:(lia)).
      rewrite E0 in F0. injection F0 as F0. rewrite E1 in F1. injection F1 as F1.
      rewrite <- F0 in G0. rewrite <- F1 in G1. unfold vec_of. rewrite G0, G1. rewrite (toy_control s u E2).
      cbn. ring.
    + injection H0 as <-. injection H1 as <-.
      destruct (interp_grid toy_st 1 (toy_X s) 1 1 toy_st_inc eq_refl eq_refl) as [F0 G0].
      destruct (interp_grid toy_st 1 (toy_X s) 2 2 toy_st_inc eq_refl eq_refl) as [F1 G1].
      destruct (interp_grid toy_ct 1 (toy_W s) 1 2 toy_ct_inc eq_refl eq_refl) as [F2 G2].
      specialize (G0 0%nat ltac:(lia)). specialize (G1 0%nat ltac:(lia)). specialize (G2 0%nat ltac:(lia)).
      rewrite E0 in F0. injection F0 as F0. rewrite E1 in F1. injection F1 as F1. rewrite E2 in F2. injection F2 as F2.
      rewrite <- F0 in G0. rewrite <- F1 in G1. rewrite <- F2 in G2.
      unfold vec_of. rewrite G0, G1, G2. cbn. ring.
    + destruct i; discriminate.
Qed.

Ltac decide_reals := repeat match goal with
  | |- context[Rltb ?a ?b] => first
     [ replace (Rltb a b) with true by (symmetry; apply Rltb_true; lra)
     | replace (Rltb a b) with false by (symmetry; apply Rltb_false; lra)]
  | |- context[Reqb ?a ?b] => first
     [ replace (Reqb a b) with true by (symmetry; apply Reqb_true; lra)
     | replace (Reqb a b) with false by (symmetry; apply Reqb_false; lra)]
  end.

Lemma toy_ctor cons : increasing cons -> (forall c, In c cons -> c = 1 \/ c = 2) ->
  ctor_time_checks toy_st toy_ct cons = Ok tt.
Proof.
  intros Hi Hin. pose proof EPSILON_pos. unfold ctor_time_checks.
  rewrite (is_sorted_increasing toy_st toy_st_inc), (is_sorted_increasing toy_ct toy_ct_inc), (is_sorted_increasing cons Hi).
  cbn [negb toy_ct toy_st last]. decide_reals.
  destruct cons as [|a [|b cons]].
  - reflexivity.
  - destruct (Hin a (or_introl eq_refl)) as [->| ->]; cbn [scan_constraints]; decide_reals; cbn [scan_constraints];
      decide_reals; reflexivity.
  - assert (a < b) by (inversion Hi; subst; rewrite Forall_forall in H3; apply H3; left; reflexivity).
    destruct (Hin a (or_introl eq_refl)), (Hin b (or_intror (or_introl eq_refl))); try lra. subst a b.
    destruct cons as [|c cons].
    + cbn [scan_constraints]; decide_reals; cbn [scan_constraints]; decide_reals; reflexivity.
    + exfalso. assert (2 < c) by (inversion Hi as [|? ? Hi' Hf]; inversion Hi' as [|? ? Hi'' Hf']; subst;
        rewrite Forall_forall in Hf'; apply Hf'; left; reflexivity).
      destruct (Hin c ltac:(simpl; auto)); lra.
Qed.

Lemma toy_layout cons : increasing cons -> exists l, make_data 1 1 cons toy_ct = Some (Ok l).
Proof.
  intro H. destruct (make_data_ok 1 1 cons toy_ct (increasing_nondecreasing _ H)
    (increasing_nondecreasing _ toy_ct_inc) ltac:(discriminate)) as (l & E & _). eauto.
Qed.

Lemma toy_instance : exists l G J,
  increasing toy_st /\ (2 <= length toy_st)%nat /\ increasing toy_ct /\
  make_data (ng toy) (nu toy) [1; 2] toy_ct = Some (Ok l) /\ ctor_time_checks toy_st toy_ct [1; 2] = Ok tt /\
  solver_correct (nx toy) toy_solve /\ smooth_family toy toy_st toy_ct toy_W toy_W' toy_X /\
  right_derivatives toy toy_st (mk_ivec toy_ct (nu toy) (toy_W 0)) (mk_ivec toy_st (nx toy) (toy_X 0)) /\
  compute_derivatives toy toy_solve l toy_st toy_ct [1; 2]
    (mk_ivec toy_ct (nu toy) (toy_W 0)) (mk_ivec toy_st (nx toy) (toy_X 0)) = Ok (Some (G, J)).
Proof.
  assert (Hi : increasing [1; 2]) by (repeat constructor; lra).
  assert (Hc : ctor_time_checks toy_st toy_ct [1; 2] = Ok tt).
  { apply toy_ctor; auto. intros c [<-|[<-|[]]]; auto. }
  destruct (toy_layout [1; 2] Hi) as [l Hl].
  destruct (derivatives_computed toy toy_solve l toy_st toy_ct [1; 2] (toy_W 0) (toy_X 0)) as (r & Hr & Hn); auto.
  - apply toy_st_inc.
  - cbn; lia.
  - apply toy_ct_inc.
  - cbn [toy_st toy_ct last]. change tolerance with EPSILON. pose proof EPSILON_pos. lra.
  - reflexivity.
  - reflexivity.
  - specialize (Hn (toy_accepts _ _)). destruct r as [[G J]|]; [|congruence].
    exists l, G, J. repeat (split; [first [apply toy_st_inc | apply toy_ct_inc | apply toy_solver | apply toy_family
      | apply toy_right | assumption | cbn; lia]|]). exact Hr.
Qed.

Lemma read_outside : exists p solve l st ct setting cons W X,
  increasing st /\ (2 <= length st)%nat /\ increasing ct /\
  nth 0 ct 0 = nth 0 st 0 /\ last ct 0 = last st 0 /\
  select_constraint_times st setting = Ok cons /\
  make_data (ng p) (nu p) cons ct = Some (Ok l) /\ ctor_time_checks st ct cons = Ok tt /\
  table_of ct (nu p) W /\ table_of st (nx p) X /\ solver_correct (nx p) solve /\
  compute_derivatives p solve l st ct cons (mk_ivec ct (nu p) W) (mk_ivec st (nx p) X) = UB.
Proof.
  assert (Hi : increasing [2]) by (repeat constructor; lra).
  assert (Hc : ctor_time_checks toy_st toy_ct [2] = Ok tt).
  { apply toy_ctor; auto. intros c [<-|[]]; auto. }
  destruct (toy_layout [2] Hi) as [l Hl].
  exists toy, toy_solve, l, toy_st, toy_ct, 2%Z, [2], (toy_W 0), (toy_X 0).
  split; [apply toy_st_inc|]. split; [cbn; lia|]. split; [apply toy_ct_inc|].
  split; [reflexivity|]. split; [reflexivity|]. split; [reflexivity|].
  split; [exact Hl|]. split; [exact Hc|]. split; [reflexivity|]. split; [reflexivity|]. split; [apply toy_solver|].
  apply derivatives_read_outside; auto using toy_st_inc, toy_ct_inc, toy_accepts; try reflexivity.
  - cbn; lia.
  - cbn [toy_st toy_ct last]. change tolerance with EPSILON. pose proof EPSILON_pos. lra.
  - cbn. intro H. injection H. lra.
Qed.
