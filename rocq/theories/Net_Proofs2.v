(** Gas components. *)
From Coq Require Import Reals Lra Lia List Arith Permutation.
From Coquelicot Require Import Coquelicot.
From Verif Require Import Base Interp_Model Calc Euler_Model Euler_Spec Euler_Proofs Euler_Proofs2
  Box_Model Box_Spec Box_Proofs Net_Model Net_Spec Net_Proofs.
Import ListNotations.
Local Open Scope R_scope.

(** ** Edge ends *)
Definition end_vec (de : direction * gasedge) (x : vec) : vec :=
  let b := seg x (end_index (fst de) (snd de)) in
  match ge_kind (snd de) with
  | Pipe _ _ _ => p_qvol_bar_from_p_qvol (p_qvol b)
  | _ => b
  end.
Lemma end_vec_0 de x : end_vec de x 0%nat = end_pressure de x.
Proof.
  unfold end_vec, end_pressure. destruct (ge_kind (snd de)); cbn;
    unfold seg; rewrite Nat.add_0_r; reflexivity.
Qed.
Lemma end_vec_1 de x : end_vec de x 1%nat = end_flow de x.
Proof. unfold end_vec, end_flow. destruct (ge_kind (snd de)); reflexivity. Qed.

Lemma state_index_ok de : has_end de -> boundary_state_index (fst de) (snd de) = Ok (end_index (fst de) (snd de)).
Proof.
  destruct de as [[] e]; cbn; intro H; [reflexivity|].
  destruct (Nat.eqb_spec (ge_after e - ge_start e) 2); [lia|reflexivity].
Qed.
Lemma boundary_state_ok de x : has_end de ->
  boundary_state (fst de) (snd de) x = Ok (seg x (end_index (fst de) (snd de))).
Proof. intro H. unfold boundary_state. rewrite state_index_ok by auto. reflexivity. Qed.
Lemma end_vec_ok de x : has_end de -> boundary_p_qvol_bar (fst de) (snd de) x = Ok (end_vec de x).
Proof.
  intro H. unfold boundary_p_qvol_bar, end_vec.
  destruct (ge_kind (snd de)); rewrite boundary_state_ok by auto; reflexivity.
Qed.

Definition end_regular (de : direction * gasedge) (x : vec) : Prop :=
  match ge_kind (snd de) with
  | Pipe _ _ _ => density_ok (x (end_index (fst de) (snd de)))
  | _ => True
  end.
Definition end_entries (de : direction * gasedge) (fd : vec) (row : nat) (x : vec) : list entry :=
  let i := end_index (fst de) (snd de) in
  let g := match ge_kind (snd de) with
           | Pipe _ _ _ => row_mul fd (mat_mul (dp_qvol_bar_from_p_qvold_p_qvol (p_qvol (seg x i)))
                                              (dp_qvol_dstate (seg x i)))
           | _ => fd
           end in
  [(row, i, g 0%nat); (row, (i + 1)%nat, g 1%nat)].
Lemma end_entries_ok de fd row x : has_end de ->
  dboundary_p_qvol_dstate (fst de) (snd de) fd row x = Ok (end_entries de fd row x).
Proof.
  intro H. unfold dboundary_p_qvol_dstate, end_entries.
  destruct (ge_kind (snd de)); rewrite ?boundary_state_ok, ?state_index_ok by auto;
    cbn [obind]; rewrite ?state_index_ok by auto; reflexivity.
Qed.
Lemma end_entries_rows de fd row x : rows_in row (end_entries de fd row x).
Proof. unfold end_entries. cbv zeta. auto with net. Qed.
Lemma end_entries_cols n de fd row x :
  (end_index (fst de) (snd de) + 2 <= n)%nat -> cols_lt n (end_entries de fd row x).
Proof. intro H. unfold end_entries. cbv zeta. repeat apply cols_lt_cons; auto with net; lia. Qed.

Lemma bar_pos : 0 < bar.
Proof. unfold bar. lra. Qed.

Lemma end_derive de a b row x s u dx :
  end_regular de u -> curve_at x s u dx ->
  is_derive (fun t => a * end_pressure de (x t) + b * end_flow de (x t)) s
    (tdot (end_entries de (v2 a b) row u) row dx).
Proof.
  intros Hr [Hx Hd]. unfold end_entries, end_pressure, end_flow, end_regular in *. cbv zeta.
  set (i := end_index (fst de) (snd de)) in *.
  rewrite !tdot_cons. cbn [fst snd]. rewrite Nat.eqb_refl. change (tdot [] row dx) with 0.
  destruct (ge_kind (snd de)) as [dd kk xx| | | |].
  { eapply is_derive_value.
    - apply (is_derive_plus (fun t => a * (p (x t i) / bar)) (fun t => b * x t (i + 1)%nat)).
      + apply (is_derive_scal (fun t => p (x t i) / bar)).
        apply (is_derive_ext (fun t => / bar * p (x t i))); [intro t; unfold Rdiv; apply Rmult_comm|].
        apply (is_derive_scal (fun t => p (x t i))).
        apply (is_derive_along p (fun r => x r i) s (u i)); auto. apply p_derive; auto.
      + apply (is_derive_scal (fun t => x t (i + 1)%nat)). apply Hd.
    - cbn [row_mul mat_mul]. unfold row_mul, mat_mul.
      cbn [dp_qvol_bar_from_p_qvold_p_qvol dp_qvol_dstate m2 v2].
      unfold dp_qvol_bar_from_p_qvold_p_qvol, dp_qvol_dstate, dp_bar_from_p_pascal_dp_pascal.
      cbn [m2 v2]. unfold seg. rewrite Nat.add_0_r. pose proof bar_pos.
      match goal with |- @eq _ (plus ?a ?b) ?c => change (@eq R (a + b) c) end. field. lra. }
  all: (eapply is_derive_value;
    [apply (is_derive_plus (fun t => a * x t i) (fun t => b * x t (i + 1)%nat));
      [apply (is_derive_scal (fun t => x t i)); apply Hd
      |apply (is_derive_scal (fun t => x t (i + 1)%nat)); apply Hd]
    |cbn [v2]; match goal with |- @eq _ (plus ?a ?b) ?c => change (@eq R (a + b) c) end; ring]).
Qed.

(** Contribution of one end to one row. *)
Definition at_row (row r : nat) (v : R) : R := if Nat.eqb row r then v else 0.
Lemma end_part de a b row r x s u dx :
  end_regular de u -> curve_at x s u dx ->
  is_derive (fun t => at_row row r (a * end_pressure de (x t) + b * end_flow de (x t))) s
    (tdot (end_entries de (v2 a b) row u) r dx).
Proof.
  intros Hr Hx. unfold at_row. destruct (Nat.eqb_spec row r) as [->|Ne].
  - apply end_derive; auto.
  - rewrite (tdot_other row) by (auto using end_entries_rows). apply (is_derive_const (0 : R)).
Qed.

(** ** Flow nodes *)
Fixpoint pbal (att : attached) (x : vec) (oeq : nat) (op : R) (leq : nat) : list write :=
  match att with
  | [] => []
  | de :: rest =>
      Assign oeq (end_pressure de x - op) :: AddTo leq (dsign (fst de) * end_flow de x)
      :: pbal rest x (end_row de) (end_pressure de x) leq
  end.
Lemma balance_ok att x : forall oeq op leq, List.Forall has_end att ->
  balance_loop att x oeq op leq = Ok (pbal att x oeq op leq).
Proof.
  induction att as [|de att IH]; intros oeq op leq H; [reflexivity|].
  inversion H as [|? ? H1 H2]; subst. destruct de as [d e].
  cbn [balance_loop]. pose proof (end_vec_ok (d, e) x H1) as E. cbn [fst snd] in E.
  rewrite E. cbn [obind]. rewrite end_vec_0, end_vec_1, IH by auto. reflexivity.
Qed.
Fixpoint pder (rest : attached) (u : vec) (oeq leq : nat) : list entry :=
  match rest with
  | [] => []
  | de :: more =>
      end_entries de (v2 1 0) oeq u
      ++ (match more with [] => [] | _ => end_entries de (v2 (-1) 0) (end_row de) u end)
      ++ end_entries de (v2 0 (dsign (fst de))) leq u
      ++ pder more u (end_row de) leq
  end.
Lemma derivative_ok rest u : forall oeq leq, List.Forall has_end rest ->
  derivative_loop rest u oeq leq = Ok (pder rest u oeq leq).
Proof.
  induction rest as [|de rest IH]; intros oeq leq H; [reflexivity|].
  inversion H as [|? ? H1 H2]; subst. destruct de as [d e].
  pose proof (fun fd row => end_entries_ok (d, e) fd row u H1) as E. cbn [fst snd] in E.
  destruct rest as [|de' rest].
  - cbn [derivative_loop]. rewrite !E. cbn [pder]. unfold oapp. cbn [obind fst]. rewrite app_nil_r. reflexivity.
  - cbn [derivative_loop] in IH |- *. rewrite !E. rewrite (IH (boundary_equation_index d e) leq) by auto.
    reflexivity.
Qed.

Lemma balance_derive rest : forall oeq leq (op : R -> R) r x s u dx,
  rest <> [] -> List.Forall (fun de => end_regular de u) rest -> curve_at x s u dx ->
  is_derive (fun t => wsum (pbal rest (x t) oeq (op t) leq) r + at_row oeq r (op t)) s
    (tdot (pder rest u oeq leq) r dx).
Proof.
  induction rest as [|de rest IH]; intros oeq leq op r x s u dx Hne HR Hx; [congruence|].
  inversion HR as [|? ? R1 R2]; subst.
  pose proof (end_part de 1 0 oeq r x s u dx R1 Hx) as D1.
  pose proof (end_part de 0 (dsign (fst de)) leq r x s u dx R1 Hx) as D2.
  destruct rest as [|de' rest].
  - cbn [pbal pder]. rewrite app_nil_r. cbn [app]. rewrite tdot_app.
    eapply is_derive_ext; [|apply (is_derive_plus _ _ _ _ _ D1 D2)].
    intro t. cbn [wsum fold_right write_index wval]. unfold at_row.
    match goal with |- @eq _ (plus ?a ?b) ?c => change (@eq R (a + b) c) end.
    destruct (Nat.eqb oeq r), (Nat.eqb leq r); ring.
  - pose proof (end_part de (-1) 0 (end_row de) r x s u dx R1 Hx) as D3.
    assert (Hne' : de' :: rest <> []) by discriminate.
    pose proof (IH (end_row de) leq (fun t => end_pressure de (x t)) r x s u dx Hne' R2 Hx) as D4.
    change (pder (de :: de' :: rest) u oeq leq) with
      (end_entries de (v2 1 0) oeq u ++ end_entries de (v2 (-1) 0) (end_row de) u
       ++ end_entries de (v2 0 (dsign (fst de))) leq u ++ pder (de' :: rest) u (end_row de) leq).
    rewrite !tdot_app.
    eapply is_derive_ext; [|apply (is_derive_plus _ _ _ _ _ D1 (is_derive_plus _ _ _ _ _ D3 (is_derive_plus _ _ _ _ _ D2 D4)))].
    intro t. change (pbal (de :: de' :: rest) (x t) oeq (op t) leq) with
      (Assign oeq (end_pressure de (x t) - op t) :: AddTo leq (dsign (fst de) * end_flow de (x t))
      :: pbal (de' :: rest) (x t) (end_row de) (end_pressure de (x t)) leq).
    rewrite !wsum_cons. cbn [write_index wval]. unfold at_row.
    generalize (wsum (pbal (de' :: rest) (x t) (end_row de) (end_pressure de (x t)) leq) r). intro w.
    match goal with |- @eq _ (plus ?a (plus ?b (plus ?c ?d))) ?e => change (@eq R (a + (b + (c + d))) e) end.
    destruct (Nat.eqb oeq r), (Nat.eqb leq r), (Nat.eqb (end_row de) r); ring.
Qed.

Definition last_end (att : attached) (de0 : direction * gasedge) := last att de0.
Definition pflow (att : attached) (x : vec) (q : R) : list write :=
  match att with
  | [] => []
  | de0 :: rest =>
      let leq := end_row (last att de0) in
      Assign leq (-1 * q) :: AddTo leq (dsign (fst de0) * end_flow de0 x)
      :: pbal rest x (end_row de0) (end_pressure de0 x) leq
  end.
Lemma flow_ok att x q : List.Forall has_end att -> flow_balance att x q = Ok (pflow att x q).
Proof.
  destruct att as [|de0 rest]; intro H; [reflexivity|].
  inversion H as [|? ? H1 H2]; subst. destruct de0 as [d0 e0].
  pose proof (end_vec_ok (d0, e0) x H1) as E. cbn [fst snd] in E.
  unfold flow_balance, pflow. rewrite E. cbn [obind]. rewrite end_vec_0, end_vec_1.
  destruct (last ((d0, e0) :: rest) (d0, e0)) as [dl el].
  rewrite balance_ok by auto. reflexivity.
Qed.
Definition pflow_d (att : attached) (u : vec) : list entry :=
  match att with
  | [] => []
  | de0 :: rest =>
      let leq := end_row (last att de0) in
      end_entries de0 (v2 0 (dsign (fst de0))) leq u
      ++ match rest with
         | [] => []
         | _ => end_entries de0 (v2 (-1) 0) (end_row de0) u ++ pder rest u (end_row de0) leq
         end
  end.
(** The first and the last edge are different objects unless there is only one. *)
Definition ends_distinct (att : attached) : Prop :=
  match att with
  | de0 :: (_ :: _) as rest => ge_addr (snd de0) <> ge_addr (snd (last att de0))
  | _ => True
  end.
Lemma flow_d_ok att u : List.Forall has_end att -> ends_distinct att ->
  flow_derivative att u = Ok (pflow_d att u).
Proof.
  destruct att as [|de0 rest]; intros H HD; [reflexivity|].
  inversion H as [|? ? H1 H2]; subst. destruct de0 as [d0 e0].
  pose proof (fun fd row => end_entries_ok (d0, e0) fd row u H1) as E. cbn [fst snd] in E.
  unfold flow_derivative, pflow_d. destruct rest as [|de1 rest].
  - cbn [last]. rewrite Nat.eqb_refl, E. reflexivity.
  - cbn [ends_distinct] in HD.
    destruct (last ((d0, e0) :: de1 :: rest) (d0, e0)) as [dl el]. cbn [snd] in HD.
    destruct (Nat.eqb_spec (ge_addr e0) (ge_addr el)); [congruence|].
    rewrite !E, derivative_ok by auto. reflexivity.
Qed.

Lemma pder_cols n rest u : forall oeq leq,
  List.Forall (fun de => (end_index (fst de) (snd de) + 2 <= n)%nat) rest -> cols_lt n (pder rest u oeq leq).
Proof.
  induction rest as [|de rest IH]; intros oeq leq H; [apply cols_lt_nil|].
  inversion H; subst. cbn [pder].
  apply cols_lt_app; [apply end_entries_cols; auto|]. apply cols_lt_app.
  { destruct rest; [apply cols_lt_nil|apply end_entries_cols; auto]. }
  apply cols_lt_app; [apply end_entries_cols; auto|apply IH; auto].
Qed.

(** The rows written by a flow node, in the order in which they are assigned. *)
Definition flow_rows (att : attached) : list nat :=
  match att with
  | [] => []
  | de0 :: rest => end_row (last att de0) :: removelast (map end_row att)
  end.
Lemma assigned_pbal rest x : forall oeq op leq,
  assigned (pbal rest x oeq op leq) = removelast (oeq :: map end_row rest).
Proof.
  induction rest as [|de rest IH]; intros oeq op leq; [reflexivity|].
  cbn [pbal assigned flat_map app]. fold (assigned (pbal rest x (end_row de) (end_pressure de x) leq)).
  rewrite IH. reflexivity.
Qed.
Lemma adds_pbal rest x : forall seen oeq op leq, In leq seen -> adds_ok seen (pbal rest x oeq op leq).
Proof.
  induction rest as [|de rest IH]; intros seen oeq op leq H; [exact I|].
  cbn [pbal adds_ok]. split; [right; auto|]. apply IH. right. auto.
Qed.
Lemma pflow_rows att x q : assigned (pflow att x q) = flow_rows att /\ adds_ok [] (pflow att x q).
Proof.
  destruct att as [|de0 rest]; [split; [reflexivity|exact I]|]. unfold pflow, flow_rows. cbv zeta.
  generalize (end_row (last (de0 :: rest) de0)). intro leq. split.
  - cbn [assigned flat_map app]. fold (assigned (pbal rest x (end_row de0) (end_pressure de0 x) leq)).
    rewrite assigned_pbal. reflexivity.
  - cbn [adds_ok]. split; [left; auto|]. apply adds_pbal. left. auto.
Qed.

Lemma flow_jac n att q u :
  List.Forall has_end att -> List.Forall (fun de => (end_index (fst de) (snd de) + 2 <= n)%nat) att ->
  ends_distinct att -> List.Forall (fun de => end_regular de u) att ->
  jac_ok n (flow_rows att) (fun x => flow_balance att x q) u (flow_derivative att u).
Proof.
  intros H1 H2 H3 H4. rewrite flow_d_ok by auto.
  exists (fun x => pflow att x q), (pflow_d att u), 1.
  split; [lra|]. split; [intros; apply flow_ok; auto|]. split; [reflexivity|]. split.
  - destruct att as [|de0 rest]; [apply cols_lt_nil|]. inversion H2; subst.
    unfold pflow_d. apply cols_lt_app; [apply end_entries_cols; auto|].
    destruct rest; [apply cols_lt_nil|].
    apply cols_lt_app; [apply end_entries_cols; auto|apply pder_cols; auto].
  - split; [intro x; apply pflow_rows|]. intros r x s dx Hx. destruct att as [|de0 rest]; [apply (is_derive_const (0 : R))|].
    inversion H4 as [|? ? R1 R2]; subst. unfold pflow, pflow_d. cbv zeta.
    generalize (end_row (last (de0 :: rest) de0)). intro leq.
    pose proof (end_part de0 0 (dsign (fst de0)) leq r x s u dx R1 Hx) as D1.
    destruct rest as [|de1 rest].
    + rewrite app_nil_r. cbn [pbal].
      eapply is_derive_ext.
      2:{ eapply is_derive_value;
          [apply (is_derive_plus _ _ _ _ _ (is_derive_const (at_row leq r (-1 * q) : R) s) D1)|].
          apply Rplus_0_l. }
      intro t. rewrite !wsum_cons. cbn [write_index wval]. unfold at_row.
      change (wsum [] r) with 0.
      match goal with |- @eq _ (plus ?a ?b) ?c => change (@eq R (a + b) c) end.
      destruct (Nat.eqb leq r); ring.
    + pose proof (end_part de0 (-1) 0 (end_row de0) r x s u dx R1 Hx) as D2.
      assert (Hne : de1 :: rest <> []) by discriminate.
      pose proof (balance_derive (de1 :: rest) (end_row de0) leq (fun t => end_pressure de0 (x t)) r x s u dx Hne R2 Hx) as D3.
      rewrite !tdot_app.
      eapply is_derive_ext.
      2:{ eapply is_derive_value;
          [apply (is_derive_plus _ _ _ _ _ (is_derive_const (at_row leq r (-1 * q) : R) s)
             (is_derive_plus _ _ _ _ _ D1 (is_derive_plus _ _ _ _ _ D2 D3)))|].
          apply Rplus_0_l. }
      intro t. rewrite !wsum_cons. cbn [write_index wval]. unfold at_row.
      generalize (wsum (pbal (de1 :: rest) (x t) (end_row de0) (end_pressure de0 (x t)) leq) r). intro w.
      match goal with |- @eq _ (plus ?a (plus ?b (plus ?c ?d))) ?e => change (@eq R (a + (b + (c + d))) e) end.
      destruct (Nat.eqb leq r), (Nat.eqb (end_row de0) r); ring.
Qed.

(** ** Pressure nodes *)
Lemma pressure_jac n att q u :
  List.Forall has_end att -> List.Forall (fun de => (end_index (fst de) (snd de) + 2 <= n)%nat) att ->
  List.Forall (fun de => end_regular de u) att ->
  jac_ok n (map end_row att) (fun x => pressure_evaluate att x q) u (pressure_derivative att u).
Proof.
  intros H1 H2 H3. unfold pressure_evaluate, pressure_derivative.
  rewrite Forall_forall in H1, H2, H3.
  apply (jac_ok_rows n (flat_map (fun de => [end_row de]) att)).
  { clear. induction att; cbn; [auto|]. rewrite IHatt. reflexivity. }
  apply (jac_ok_concat n _ (fun de => [end_row de]) (fun (de : direction * gasedge) x => let (d, e) := de in
    obind (boundary_p_qvol_bar d e x) (fun pq =>
    Ok [Assign (boundary_equation_index d e) (pq 0%nat - q)]))).
  intros [d e] Ha. pose proof (end_entries_ok (d, e) (v2 1 0) (boundary_equation_index d e) u (H1 _ Ha)) as E.
  cbn [fst snd] in E. rewrite E.
  apply (jac_ok_ext n _ (fun x => Ok [Assign (boundary_equation_index d e) (end_pressure (d, e) x - q)])).
  { intro x. pose proof (end_vec_ok (d, e) x (H1 _ Ha)) as Ev. cbn [fst snd] in Ev.
    rewrite Ev. cbn [obind]. rewrite end_vec_0. reflexivity. }
  apply (jac_row n (boundary_equation_index d e)); auto with net.
  - apply end_entries_rows.
  - apply end_entries_cols. apply (H2 _ Ha).
  - intros x s dx Hx. apply derive_minus_const.
    eapply is_derive_ext; [|apply (end_derive (d, e) 1 0 _ x s u dx (H3 _ Ha) Hx)].
    intro t. cbn. ring.
Qed.
