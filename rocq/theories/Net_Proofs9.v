(** Edges, and the whole network. *)
From Coq Require Import Reals Lra Lia List Arith Permutation.
From Coquelicot Require Import Complex.
From Verif Require Import Base Interp_Model Calc Euler_Model Euler_Spec Euler_Proofs Euler_Proofs2
  Box_Model Box_Spec Box_Proofs Net_Model Net_Spec Net_Proofs Net_Proofs2 Net_Proofs3 Net_Proofs4 Net_Proofs5
  Net_Proofs6 Net_Proofs7 Net_Proofs8.
Import ListNotations.
Local Open Scope R_scope.

Lemma cell_zero d k dx t0 t1 last x i : geometry d k -> dx <> 0 ->
  zero_iff [i; (i + 1)%nat] (cell_evaluate (isothermal_euler d k) dx t0 t1 last x i)
    (cell_balanced d k dx t0 t1 (seg last (i - 1)) (seg last (i + 1)) (seg x (i - 1)) (seg x (i + 1))).
Proof.
  intros G Hx. unfold cell_evaluate.
  set (ll := seg last (i - 1)). set (lr := seg last (i + 1)). set (nl := seg x (i - 1)). set (nr := seg x (i + 1)).
  destruct (source d k nl) as [sl| |] eqn:El; [|rewrite source_ok in El by auto; discriminate ..].
  destruct (source d k nr) as [sr| |] eqn:Er; [|rewrite source_ok in Er by auto; discriminate ..].
  destruct (evaluate_point (isothermal_euler d k) t0 t1 dx ll lr nl nr) as [r| |] eqn:E;
    try (unfold evaluate_point in E; cbn [isothermal_euler bl_source] in E; rewrite El, Er in E; discriminate).
  cbn [omap]. eexists. split; [split; [reflexivity|split; [reflexivity|cbn; auto]]|].
  intros _. rewrite two_zero by lia.
  pose proof (fun c => cell_balance (isothermal_euler d k) t0 t1 dx ll lr nl nr c r sl sr Hx El Er E) as B.
  cbn [isothermal_euler bl_flux] in B. rewrite !B. unfold cell_balanced. split.
  - intros [A1 A2]. exists sl, sr. split; [auto|]. split; [auto|]. intros c Hc.
    destruct c as [|[|c]]; [exact A1|exact A2|lia].
  - intros [sl' [sr' [E1 [E2 A]]]]. assert (sl = sl') by congruence. assert (sr = sr') by congruence. subst.
    split; apply A; lia.
Qed.

Lemma edge_zero N i e g t0 t1 last x c : well_formed N -> pipes_ok N ->
  nth_error (edges N) i = Some e -> gas_of N i e = Some g ->
  zero_iff (edge_rows g) (edge_evaluate g t0 t1 last x c) (edge_equation N i e t0 t1 last x c).
Proof.
  intros W HP H E. destruct (gas_of_kind N i e g E) as [_ [E2 [E3 NL]]].
  destruct (gas_of_size N i e g W H E) as [SZ [_ S]].
  pose proof (gas_data N i e g W HP H E) as D.
  unfold pipes_ok in HP. rewrite List.Forall_forall in HP.
  pose proof (HP e (nth_error_In _ _ H)) as Hp.
  assert (K : edge_ok N e) by (eapply wf_edge; [exact W|apply in_numbered; exact H]). destruct K as [_ K].
  unfold edge_rows, edge_evaluate, edge_equation, gas_size, edge_data_ok in *. cbv zeta. rewrite <- E2. cbn [fst].
  assert (Short : forall r0 r1, short_size g ->
    zero_iff (seq (ge_start g + 1) (ge_after g - ge_start g - 2)) (Ok (short_rows g r0 r1)) (r0 = 0 /\ r1 = 0)).
  { intros r0 r1 Hs. rewrite short_rows_seq by auto. eexists. split; [split; [reflexivity|split; [reflexivity|cbn; auto]]|].
    intros _. apply two_zero. lia. }
  assert (I0 : forall A, short_size g -> seg x (end_index dstart g) A = x (ge_start g + A)%nat) by reflexivity.
  assert (I1 : forall A, short_size g -> seg x (end_index dend g) A = x (ge_start g + 2 + A)%nat).
  { intros A Hs. unfold seg, end_index. unfold short_size in Hs. f_equal. lia. }
  assert (Imp : forall rows o (P Q : Prop), (P <-> Q) -> zero_iff rows o P -> zero_iff rows o Q).
  { intros rows o P Q PQ [ws [D1 D2]]. exists ws. split; [auto|]. intro ND. rewrite (D2 ND). exact PQ. }
  rewrite E3 in SZ, D |- *. destruct (e_type e) as [d k dx np| | | |g2p p2g|G B].
  - destruct Hp as [Hg Hdx]. destruct K as [K _]. cbn [edge_states] in S.
    assert (Sz : pipe_size g np) by (split; lia).
    rewrite <- (pipe_rows_seq g np Sz). unfold pipe_loop. rewrite (pipe_indices_ok g np Sz). cbn [obind].
    destruct (done_concat (fun i => [i; (i + 1)%nat])
      (cell_evaluate (isothermal_euler d k) dx t0 t1 last x) (pipe_rows g np)) as [ws [D1 D2]].
    { intros a _. destruct (cell_zero d k dx t0 t1 last x a Hg ltac:(lra)) as [ws [D1 _]]. eauto. }
    exists ws. split; [exact D1|]. intro ND. rewrite (D2 ND).
    assert (Cell : forall m, zero_iff [(ge_start g + 1 + 2 * m)%nat; (ge_start g + 1 + 2 * m + 1)%nat]
       (cell_evaluate (isothermal_euler d k) dx t0 t1 last x (ge_start g + 1 + 2 * m))
       (cell_balanced d k dx t0 t1 (seg last (ge_start g + 2 * m)) (seg last (ge_start g + 2 * (m + 1)))
          (seg x (ge_start g + 2 * m)) (seg x (ge_start g + 2 * (m + 1))))).
    { intro m. pose proof (cell_zero d k dx t0 t1 last x (ge_start g + 1 + 2 * m) Hg ltac:(lra)) as Z.
      replace (ge_start g + 1 + 2 * m - 1)%nat with (ge_start g + 2 * m)%nat in Z by lia.
      replace (ge_start g + 1 + 2 * m + 1)%nat with (ge_start g + 2 * (m + 1))%nat in * by lia. exact Z. }
    assert (ND2 : forall a : nat, NoDup [a; (a + 1)%nat]).
    { intro a. constructor; [intros [Q|[]]; lia|]. constructor; [intros []|constructor]. }
    split.
    + intros A m Hm. destruct (Cell m) as [w [[Dw _] Vw]]. apply (Vw (ND2 _)).
      apply (A (ge_start g + 1 + 2 * m)%nat); [|exact Dw].
      unfold pipe_rows. apply in_map_iff. exists m. split; [lia|apply in_seq; lia].
    + intros A a w Ha Ew. unfold pipe_rows in Ha. apply in_map_iff in Ha. destruct Ha as [m [<- Hm]].
      apply in_seq in Hm. destruct (Cell m) as [w' [[Dw _] Vw]]. assert (w = w') by congruence. subst w'.
      apply (Vw (ND2 _)). apply A. lia.
  - rewrite !short_state by auto. cbn [obind]. rewrite !I0, !I1 by auto.
    eapply Imp; [|apply Short; auto]. rewrite !Nat.add_0_r, <- Nat.add_assoc.
    change (2 + 1)%nat with 3%nat. split; intros [A1 A2]; split; lra.
  - rewrite !short_state by auto. cbn [obind]. rewrite !I0, !I1 by auto.
    eapply Imp; [|apply Short; auto]. rewrite !Nat.add_0_r, <- Nat.add_assoc.
    change (2 + 1)%nat with 3%nat. split; intros [A1 A2]; split; lra.
  - rewrite !short_state by auto. cbn [obind]. rewrite !I0, !I1 by auto.
    eapply Imp; [|apply Short; auto]. rewrite !Nat.add_0_r, <- Nat.add_assoc.
    change (2 + 1)%nat with 3%nat. split; intros [A1 A2]; split; lra.
  - destruct D as [_ [l [HL _]]]. destruct K as [_ K]. rewrite (P_ok _ l) by auto. cbn [obind].
    rewrite gp_ok. cbn [obind]. eexists. split; [split; [reflexivity|split; [reflexivity|cbn; auto]]|].
    intros _. rewrite one_zero. unfold is_power_node in K.
    destruct (nth_error (nodes N) (e_to e)) as [t|] eqn:En; [|destruct K]. destruct t as [| | |k ext G B b]; try (destruct K; fail).
    pose proof (power_value N (e_to e) k ext G B b l x W En HL) as PV. rewrite PV. cbn [fst]. split.
    + intro A. eexists. split; [reflexivity|]. lra.
    + intros [w [Ew A]]. assert (gp g2p p2g (x (ge_start g + 1)%nat) = w) by congruence. lra.
  - exfalso. eapply NL; eauto.
Qed.

Lemma zero_list {A} (l : list A) rows f (P : A -> Prop) :
  (forall a, In a l -> zero_iff (rows a) (f a) (P a)) ->
  zero_iff (flat_map rows l) (oconcat (map f l)) (forall a, In a l -> P a).
Proof.
  intro H. destruct (done_concat rows f l) as [ws [D V]].
  { intros a Ha. destruct (H a Ha) as [w [D _]]. eauto. }
  exists ws. split; [exact D|]. intro ND. rewrite (V ND).
  assert (NDa : forall a, In a l -> NoDup (rows a)).
  { clear -ND. induction l as [|b l IH]; intros a [].
    - subst. cbn in ND. apply NoDup_app_both in ND. tauto.
    - cbn in ND. apply NoDup_app_both in ND. apply IH; tauto. }
  split.
  - intros K a Ha. destruct (H a Ha) as [w [[E _] V']]. apply (V' (NDa a Ha)). eapply K; eauto.
  - intros K a w' Ha E'. destruct (H a Ha) as [w [[E _] V']]. assert (w = w') by congruence. subst.
    apply (V' (NDa a Ha)). auto.
Qed.
Lemma zero_app r1 r2 o1 o2 P1 P2 : zero_iff r1 o1 P1 -> zero_iff r2 o2 P2 ->
  zero_iff (r1 ++ r2) (oapp o1 o2) (P1 /\ P2).
Proof.
  intros [w1 [D1 V1]] [w2 [D2 V2]]. exists (w1 ++ w2). split; [apply done_app; auto|].
  intro ND. destruct (NoDup_app_both _ _ ND) as [N1 N2]. destruct D1 as [_ [A1 B1]]. destruct D2 as [_ [A2 B2]].
  rewrite vanishes_app; auto; [|rewrite A1, A2; exact ND]. rewrite (V1 N1), (V2 N2). tauto.
Qed.

Theorem writes_zero N t0 t1 last x c : well_formed N -> pipes_ok N -> boundary_defined N t1 ->
  zero_iff (all_rows N) (evaluate_writes N t0 t1 last x c) (network_equations N t0 t1 last x c).
Proof.
  intros W HP HB. unfold evaluate_writes, all_rows. cbv zeta. rewrite !oconcat_app, !on_edges_gases. unfold on_nodes.
  assert (Z : forall sel, zero_iff (flat_map edge_rows (gases N sel))
     (oconcat (map (fun g => edge_evaluate g t0 t1 last x c) (gases N sel)))
     (forall g, In g (gases N sel) -> forall i e, nth_error (edges N) i = Some e -> gas_of N i e = Some g ->
        edge_equation N i e t0 t1 last x c)).
  { intro sel. apply (zero_list (gases N sel) edge_rows (fun g => edge_evaluate g t0 t1 last x c)).
    intros g Hg. apply gases_in in Hg. destruct Hg as [i [e [H1 [H2 _]]]].
    destruct (edge_zero N i e g t0 t1 last x c W HP H1 H2) as [ws [D V]]. exists ws. split; [exact D|].
    intro ND. rewrite (V ND). split; [|intro K; apply (K i e); auto].
    intros K i' e' H1' H2'. destruct (gas_of_kind _ _ _ _ H2) as [A1 _]. destruct (gas_of_kind _ _ _ _ H2') as [A2 _].
    assert (i = i') by congruence. subst i'. assert (e = e') by congruence. subst e'. rewrite A1. exact K. }
  pose proof (zero_list (combine (seq 0 (length (nodes N))) (nodes N)) (fun jt => node_rows N (fst jt) (snd jt))
    (fun jt => node_evaluate N (fst jt) (snd jt) t1 x) (fun jt => node_equation N (fst jt) (snd jt) t1 x)) as ZN.
  destruct (zero_app _ _ _ _ _ _ (ZN ltac:(intros [j t] Hin; apply in_combine_seq in Hin; apply node_zero; auto; eapply boundary_has; eauto))
    (zero_app _ _ _ _ _ _ (Z (fun e => negb (is_control e))) (Z is_control))) as [ws [D V]].
  exists ws. split; [exact D|]. intro ND. rewrite (V ND). unfold network_equations. split.
  - intros [A [B1 B2]]. split.
    + intros j t H. apply (A (j, t)). apply in_combine_seq. exact H.
    + intros i e H. destruct (gas_of N i e) as [g|] eqn:E.
      * assert (Hg : forall sel, sel e = true -> In g (gases N sel)).
        { intros sel Hs. unfold gases. apply in_flat_map. exists (i, e). split; [apply in_numbered; exact H|].
          cbn [fst snd]. rewrite Hs, E. left. reflexivity. }
        destruct (is_control e) eqn:Ec.
        -- apply (B2 g); auto.
        -- apply (B1 g); auto. apply Hg. rewrite Ec. reflexivity.
      * unfold gas_of in E. destruct (edge_block N i). unfold edge_equation. destruct (e_type e); try discriminate. exact I.
  - intros [A B]. split; [|split].
    + intros [j t] Hin. apply A. apply in_combine_seq. exact Hin.
    + intros g _ i e H _. apply B. exact H.
    + intros g _ i e H _. apply B. exact H.
Qed.

Theorem evaluate_zero N t0 t1 last x c v : well_formed N -> pipes_ok N -> boundary_defined N t1 ->
  exists r, evaluate N t0 t1 last x c v = Ok r /\
    ((forall i, (i < number_of_states N)%nat -> r i = 0) <-> network_equations N t0 t1 last x c) /\
    (forall i, (number_of_states N <= i)%nat -> r i = v i) /\
    (forall i v' r', (i < number_of_states N)%nat -> evaluate N t0 t1 last x c v' = Ok r' -> r' i = r i).
Proof.
  intros W HP HB. destruct (writes_zero N t0 t1 last x c W HP HB) as [ws [[E [A B]] V]].
  pose proof (rows_perm N W) as PM.
  assert (ND : NoDup (all_rows N)) by (eapply Permutation_NoDup; [apply Permutation_sym; exact PM|apply seq_NoDup]).
  assert (F : forall v0, evaluate N t0 t1 last x c v0 = Ok (run_writes ws v0)).
  { intro v0. change (evaluate N t0 t1 last x c v0) with (finish (number_of_states N) v0 (evaluate_writes N t0 t1 last x c)).
    rewrite E. apply finish_ok; [exact B|]. rewrite A. exact PM. }
  assert (IN : forall i, In i (assigned ws) <-> (i < number_of_states N)%nat).
  { intro i. rewrite A. split; intro K.
    - apply (Permutation_in _ PM) in K. apply in_seq in K. lia.
    - eapply Permutation_in; [apply Permutation_sym; exact PM|]. apply in_seq. lia. }
  assert (NDw : NoDup (assigned ws)) by (rewrite A; exact ND).
  exists (run_writes ws v). split; [apply F|]. split; [|split].
  - rewrite <- (V ND). unfold vanishes. split; intros K i Hi.
    + rewrite <- (run_assigned ws v i B NDw Hi). apply K, IN, Hi.
    + apply IN in Hi. rewrite (run_assigned ws v i B NDw Hi). auto.
  - intros i Hi. apply run_other; auto. intro K. apply IN in K. lia.
  - intros i v' r' Hi Er. rewrite F in Er. assert (r' = run_writes ws v') by congruence. subst r'.
    apply IN in Hi. rewrite !run_assigned; auto.
Qed.
