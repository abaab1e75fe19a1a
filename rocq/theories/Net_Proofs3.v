(** Pipes, short components and gas-power connections. *)
From Coq Require Import Reals Lra Lia List Arith Permutation.
From Coquelicot Require Import Coquelicot.
From Verif Require Import Base Interp_Model Calc Euler_Model Euler_Spec Euler_Proofs Euler_Proofs2
  Box_Model Box_Spec Box_Proofs Net_Model Net_Spec Net_Proofs Net_Proofs2.
Import ListNotations.
Local Open Scope R_scope.

(** ** One cell of a pipe *)
Lemma seg_curve x s u dx k : curve_at x s u dx ->
  curve_at (fun t => seg (x t) k) s (seg u k) (seg dx k).
Proof. intros [Hx Hd]. split; intro j; unfold seg; [apply Hx|apply Hd]. Qed.
Lemma near_seg d u x k : near d u x -> near d (seg u k) (seg x k).
Proof. intros H j. apply H. Qed.
Lemma near_weaken d d' u x : d' <= d -> near d' u x -> near d u x.
Proof. intros H N k. pose proof (N k). lra. Qed.

Lemma box_derive (a b fa fb sa sb : R -> R) K q h s da db dfa dfb dsa dsb :
  is_derive a s da -> is_derive b s db -> is_derive fa s dfa -> is_derive fb s dfb ->
  is_derive sa s dsa -> is_derive sb s dsb ->
  is_derive (fun t => 1 / 2 * (a t + b t) - K - q * (fa t - fb t) - h * (sb t + sa t)) s
    (1 / 2 * (da + db) - q * (dfa - dfb) - h * (dsb + dsa)).
Proof.
  intros D1 D2 D3 D4 D5 D6. auto_derive; [repeat split; eexists; eauto|].
  replace (Derive (fun x : R => a x) s) with da by (symmetry; apply is_derive_unique; exact D1).
  replace (Derive (fun x : R => b x) s) with db by (symmetry; apply is_derive_unique; exact D2).
  replace (Derive (fun x : R => fa x) s) with dfa by (symmetry; apply is_derive_unique; exact D3).
  replace (Derive (fun x : R => fb x) s) with dfb by (symmetry; apply is_derive_unique; exact D4).
  replace (Derive (fun x : R => sa x) s) with dsa by (symmetry; apply is_derive_unique; exact D5).
  replace (Derive (fun x : R => sb x) s) with dsb by (symmetry; apply is_derive_unique; exact D6).
  ring.
Qed.

Lemma cell_cols n i l r : (i + 3 <= n)%nat -> cols_lt n (cell_entries i l r).
Proof. intro H. unfold cell_entries. repeat apply cols_lt_cons; auto with net; lia. Qed.

Lemma cell_tdot i l r row dx : (1 <= i)%nat ->
  tdot (cell_entries i l r) row dx
  = at_row i row (l 0%nat 0%nat * dx (i - 1)%nat + l 0%nat 1%nat * dx i
                  + r 0%nat 0%nat * dx (i + 1)%nat + r 0%nat 1%nat * dx (i + 2)%nat)
  + at_row (i + 1) row (l 1%nat 0%nat * dx (i - 1)%nat + l 1%nat 1%nat * dx i
                  + r 1%nat 0%nat * dx (i + 1)%nat + r 1%nat 1%nat * dx (i + 2)%nat).
Proof.
  intro H. unfold cell_entries. rewrite !tdot_cons. cbn [fst snd]. change (tdot [] row dx) with 0.
  unfold at_row. destruct (Nat.eqb i row), (Nat.eqb (i + 1) row); ring.
Qed.

Lemma two_rows i row (f : nat -> R -> R) (g : nat -> R) s :
  (forall c, (c < 2)%nat -> is_derive (f c) s (g c)) ->
  is_derive (fun t => wsum [Assign i (f 0%nat t); Assign (i + 1)%nat (f 1%nat t)] row) s
    (at_row i row (g 0%nat) + at_row (i + 1) row (g 1%nat)).
Proof.
  intro H.
  assert (A : forall j c, (c < 2)%nat -> is_derive (fun t => at_row j row (f c t)) s (at_row j row (g c))).
  { intros j c Hc. unfold at_row. destruct (Nat.eqb j row); [auto|apply (is_derive_const (0 : R))]. }
  eapply is_derive_ext; [|apply (is_derive_plus _ _ _ _ _ (A i 0%nat ltac:(lia)) (A (i + 1)%nat 1%nat ltac:(lia)))].
  intro t. rewrite !wsum_cons. cbn [write_index wval]. change (wsum [] row) with 0. unfold at_row.
  match goal with |- @eq _ (plus ?a ?b) ?c => change (@eq R (a + b) c) end. ring.
Qed.

Lemma cell_new_jac n bl dx t0 t1 last u i :
  (1 <= i)%nat -> (i + 3 <= n)%nat ->
  law_differentiable_at 2 bl (seg u (i - 1)) -> law_differentiable_at 2 bl (seg u (i + 1)) ->
  jac_ok n [i; (i + 1)%nat] (fun x => cell_evaluate bl dx t0 t1 last x i) u (cell_d_new_state bl dx t0 t1 last u i).
Proof.
  intros Hi Hn [FL [JL [EJL [gl [SL [d1 [P1 E1]]]]]]] [FR [JR [EJR [gr [SR [d2 [P2 E2]]]]]]].
  set (res := fun (x : vec) (c : nat) =>
    1 / 2 * (seg x (i - 1) c + seg x (i + 1) c) - 1 / 2 * (seg last (i - 1) c + seg last (i + 1) c)
    - (t1 - t0) / dx * (bl_flux bl (seg x (i - 1)) c - bl_flux bl (seg x (i + 1)) c)
    - 1 / 2 * (t1 - t0) * (gr (seg x (i + 1)) c + gl (seg x (i - 1)) c)).
  set (l := fun a b : nat => 1 / 2 * id_mat a b - (t1 - t0) / dx * bl_dflux_dstate bl (seg u (i - 1)) a b
    - 1 / 2 * (t1 - t0) * JL a b).
  set (r := fun a b : nat => 1 / 2 * id_mat a b + (t1 - t0) / dx * bl_dflux_dstate bl (seg u (i + 1)) a b
    - 1 / 2 * (t1 - t0) * JR a b).
  exists (fun x => [Assign i (res x 0%nat); Assign (i + 1)%nat (res x 1%nat)]), (cell_entries i l r), (Rmin d1 d2).
  split; [apply Rmin_glb_lt; auto|]. split; [|split; [|split]].
  - intros x Hx. unfold cell_evaluate, evaluate_point.
    rewrite E2 by (apply (near_weaken _ (Rmin d1 d2)); [apply Rmin_r|apply near_seg; auto]).
    rewrite E1 by (apply (near_weaken _ (Rmin d1 d2)); [apply Rmin_l|apply near_seg; auto]).
    reflexivity.
  - unfold cell_d_new_state, devaluate_point_d_new_left, devaluate_point_d_new_right.
    rewrite EJL, EJR. reflexivity.
  - apply cell_cols; auto.
  - split; [cbn; auto|]. intros row x s y Hx. rewrite cell_tdot by auto.
    apply (two_rows i row (fun c t => res (x t) c) (fun c =>
      l c 0%nat * y (i - 1)%nat + l c 1%nat * y i + r c 0%nat * y (i + 1)%nat + r c 1%nat * y (i + 2)%nat)).
    intros c Hc.
    pose proof (seg_curve x s u y (i - 1) Hx) as CL. pose proof (seg_curve x s u y (i + 1) Hx) as CR.
    pose proof (FL c Hc _ _ _ CL) as D1. pose proof (FR c Hc _ _ _ CR) as D2.
    pose proof (SL c Hc _ _ _ CL) as D3. pose proof (SR c Hc _ _ _ CR) as D4.
    pose proof (proj2 CL c) as D5. pose proof (proj2 CR c) as D6.
    eapply is_derive_value.
    { unfold res.
      apply (box_derive (fun t => seg (x t) (i - 1) c) (fun t => seg (x t) (i + 1) c)
       (fun t => bl_flux bl (seg (x t) (i - 1)) c) (fun t => bl_flux bl (seg (x t) (i + 1)) c)
       (fun t => gl (seg (x t) (i - 1)) c) (fun t => gr (seg (x t) (i + 1)) c)
       (1 / 2 * (seg last (i - 1) c + seg last (i + 1) c)) ((t1 - t0) / dx) (1 / 2 * (t1 - t0)) s
       _ _ _ _ _ _ D5 D6 D1 D2 D3 D4). }
    rewrite !vsum2. unfold l, r.
    generalize (JL c) (JR c) (bl_dflux_dstate bl (seg u (i - 1)) c)
      (bl_dflux_dstate bl (seg u (i + 1)) c). intros a1 a2 a3 a4. unfold seg.
    destruct c as [|[|c]]; [| |lia]; cbn [id_mat Nat.eqb]; unfold id_mat; cbn [Nat.eqb];
      rewrite ?Nat.add_0_r;
      replace (i - 1 + 1)%nat with i by lia; replace (i + 1 + 1)%nat with (i + 2)%nat by lia; ring.
Qed.

Lemma cell_last_jac n bl dx t0 t1 u new i s1 s2 :
  (1 <= i)%nat -> (i + 3 <= n)%nat ->
  bl_source bl (seg new (i - 1)) = Ok s1 -> bl_source bl (seg new (i + 1)) = Ok s2 ->
  jac_ok n [i; (i + 1)%nat] (fun x => cell_evaluate bl dx t0 t1 x new i) u (cell_d_last_state bl dx t0 t1 u new i).
Proof.
  intros Hi Hn E1 E2.
  set (K := fun c : nat => 1 / 2 * (seg new (i - 1) c + seg new (i + 1) c)).
  set (M := fun c : nat => (t1 - t0) / dx * (bl_flux bl (seg new (i - 1)) c - bl_flux bl (seg new (i + 1)) c)).
  set (S := fun c : nat => 1 / 2 * (t1 - t0) * (s2 c + s1 c)).
  set (res := fun (x : vec) (c : nat) =>
    K c - 1 / 2 * (seg x (i - 1) c + seg x (i + 1) c) - M c - S c).
  set (m := fun a b : nat => - (1 / 2) * id_mat a b).
  exists (fun x => [Assign i (res x 0%nat); Assign (i + 1)%nat (res x 1%nat)]), (cell_entries i m m), 1.
  split; [lra|]. split; [|split; [|split]].
  - intros x Hx. unfold cell_evaluate, evaluate_point. rewrite E1, E2. reflexivity.
  - reflexivity.
  - apply cell_cols; auto.
  - split; [cbn; auto|]. intros row x s y Hx. rewrite cell_tdot by auto.
    apply (two_rows i row (fun c t => res (x t) c) (fun c =>
      m c 0%nat * y (i - 1)%nat + m c 1%nat * y i + m c 0%nat * y (i + 1)%nat + m c 1%nat * y (i + 2)%nat)).
    intros c Hc.
    pose proof (proj2 (seg_curve x s u y (i - 1) Hx) c) as D1.
    pose proof (proj2 (seg_curve x s u y (i + 1) Hx) c) as D2.
    eapply is_derive_ext.
    2:{ eapply is_derive_value.
        - apply (is_derive_plus (fun _ => K c - M c - S c) (fun t => - (1 / 2) * (seg (x t) (i - 1) c + seg (x t) (i + 1) c))).
          + apply (is_derive_const (K c - M c - S c : R)).
          + apply (is_derive_scal (fun t => seg (x t) (i - 1) c + seg (x t) (i + 1) c)).
            apply (is_derive_plus _ _ _ _ _ D1 D2).
        - match goal with |- @eq _ (plus zero (?a * plus ?b ?c)) ?e => change (@eq R (0 + a * (b + c)) e) end.
          unfold seg, m. destruct c as [|[|c]]; [| |lia]; unfold id_mat; cbn [Nat.eqb];
          rewrite ?Nat.add_0_r;
          replace (i - 1 + 1)%nat with i by lia; replace (i + 1 + 1)%nat with (i + 2)%nat by lia; ring. }
    intro t. unfold res.
    match goal with |- @eq _ (plus ?a ?b) ?c => change (@eq R (a + b) c) end. ring.
Qed.

(** ** Pipes *)
Lemma loop_by_two_ok m : forall f i, (m <= f)%nat ->
  loop_by_two f i (i + 2 * m) = Ok (map (fun j => i + 2 * j)%nat (seq 0 m)).
Proof.
  induction m as [|m IH]; intros f i Hf.
  - rewrite Nat.mul_0_r, Nat.add_0_r. destruct f; cbn [loop_by_two]; rewrite Nat.eqb_refl; reflexivity.
  - destruct f as [|f]; [lia|]. cbn [loop_by_two].
    destruct (Nat.eqb_spec i (i + 2 * S m)); [lia|].
    destruct (Nat.ltb_spec (i + 2 * S m) i); [lia|].
    replace (i + 2 * S m)%nat with (i + 2 + 2 * m)%nat by lia.
    rewrite IH by lia. cbn [omap]. f_equal. cbn [seq map]. f_equal; [lia|].
    rewrite <- seq_shift, map_map. apply map_ext. intro; lia.
Qed.
(** A pipe with [np] grid points. *)
Definition pipe_size (e : gasedge) (np : nat) : Prop :=
  (2 <= np)%nat /\ ge_after e = (ge_start e + 2 * np)%nat.
Definition pipe_rows (e : gasedge) (np : nat) : list nat :=
  map (fun j => ge_start e + 1 + 2 * j)%nat (seq 0 (np - 1)).
Lemma pipe_indices_ok e np : pipe_size e np -> pipe_indices e = Ok (pipe_rows e np).
Proof.
  intros [H1 H2]. unfold pipe_indices, equation_start_index, equation_after_index.
  replace (ge_after e - 1)%nat with (ge_start e + 1 + 2 * (np - 1))%nat by lia.
  rewrite loop_by_two_ok by lia. reflexivity.
Qed.

(** The rows written by an edge. *)
Definition edge_rows (e : gasedge) : list nat :=
  match ge_kind e with
  | Gaspowerconnection _ _ _ => [(ge_start e + 1)%nat]
  | _ => seq (ge_start e + 1) (ge_after e - ge_start e - 2)
  end.
Lemma pairs_seq k : forall a, flat_map (fun j => [a + 2 * j; a + 2 * j + 1]%nat) (seq 0 k) = seq a (2 * k).
Proof.
  induction k as [|k IH]; intro a; [reflexivity|].
  cbn [seq flat_map]. replace (2 * S k)%nat with (S (S (2 * k))) by lia.
  rewrite <- seq_shift, flat_map_concat_map, map_map, <- flat_map_concat_map.
  rewrite (flat_map_ext _ (fun j => [S (S a) + 2 * j; S (S a) + 2 * j + 1]%nat)).
  - rewrite IH. cbn [seq app]. f_equal; [lia|]. f_equal. lia.
  - intro j. replace (a + 2 * S j)%nat with (S (S a) + 2 * j)%nat by lia. reflexivity.
Qed.
Lemma pipe_rows_seq e np : pipe_size e np ->
  flat_map (fun i => [i; (i + 1)%nat]) (pipe_rows e np) = seq (ge_start e + 1) (ge_after e - ge_start e - 2).
Proof.
  intros [H1 H2]. unfold pipe_rows. rewrite flat_map_concat_map, map_map, <- flat_map_concat_map.
  rewrite (pairs_seq (np - 1) (ge_start e + 1)). f_equal. lia.
Qed.

Definition point (e : gasedge) (j : nat) (x : vec) : vec := seg x (ge_start e + 2 * j).
Lemma pipe_new_jac n e np bl dx t0 t1 last u :
  pipe_size e np -> (ge_after e <= n)%nat ->
  (forall j, (j < np)%nat -> law_differentiable_at 2 bl (point e j u)) ->
  jac_ok n (seq (ge_start e + 1) (ge_after e - ge_start e - 2)) (fun x => pipe_loop e (cell_evaluate bl dx t0 t1 last x)) u
    (pipe_loop e (cell_d_new_state bl dx t0 t1 last u)).
Proof.
  intros Hs Hn HL. unfold pipe_loop. rewrite (pipe_indices_ok e np Hs). cbn [obind].
  apply (jac_ok_rows n _ _ _ _ _ (pipe_rows_seq e np Hs)).
  apply (jac_ok_concat n _ (fun i => [i; (i + 1)%nat]) (fun i x => cell_evaluate bl dx t0 t1 last x i)).
  intros i Hi. destruct Hs as [H1 H2]. unfold pipe_rows in Hi. apply in_map_iff in Hi.
  destruct Hi as [j [<- Hj]]. apply in_seq in Hj.
  apply cell_new_jac; try lia.
  - replace (ge_start e + 1 + 2 * j - 1)%nat with (ge_start e + 2 * j)%nat by lia. apply HL. lia.
  - replace (ge_start e + 1 + 2 * j + 1)%nat with (ge_start e + 2 * (S j))%nat by lia. apply HL. lia.
Qed.
Lemma pipe_last_jac n e np bl dx t0 t1 u new :
  pipe_size e np -> (ge_after e <= n)%nat ->
  (forall j, (j < np)%nat -> exists s, bl_source bl (point e j new) = Ok s) ->
  jac_ok n (seq (ge_start e + 1) (ge_after e - ge_start e - 2)) (fun x => pipe_loop e (cell_evaluate bl dx t0 t1 x new)) u
    (pipe_loop e (cell_d_last_state bl dx t0 t1 u new)).
Proof.
  intros Hs Hn HL. unfold pipe_loop. rewrite (pipe_indices_ok e np Hs). cbn [obind].
  apply (jac_ok_rows n _ _ _ _ _ (pipe_rows_seq e np Hs)).
  apply (jac_ok_concat n _ (fun i => [i; (i + 1)%nat]) (fun i x => cell_evaluate bl dx t0 t1 x new i)).
  intros i Hi. destruct Hs as [H1 H2]. unfold pipe_rows in Hi. apply in_map_iff in Hi.
  destruct Hi as [j [<- Hj]]. apply in_seq in Hj.
  destruct (HL j) as [s1 E1]; [lia|]. destruct (HL (S j)) as [s2 E2]; [lia|].
  apply (cell_last_jac n bl dx t0 t1 u new _ s1 s2); try lia.
  - replace (ge_start e + 1 + 2 * j - 1)%nat with (ge_start e + 2 * j)%nat by lia. exact E1.
  - replace (ge_start e + 1 + 2 * j + 1)%nat with (ge_start e + 2 * (S j))%nat by lia. exact E2.
Qed.
