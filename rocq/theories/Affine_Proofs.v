(** The residual is an affine function of the last state and of the controls. *)
From Coq Require Import Reals ZArith Lra Lia List Arith Bool.
From Coquelicot Require Import Coquelicot.
From Verif Require Import Base Interp_Model Calc Euler_Model Euler_Spec Box_Model Net_Model Net_Spec Net_Proofs Net_Proofs2 Net_Proofs3 Net_Proofs4 Net_Proofs5 Net_Proofs6
  Net_Proofs8 Net_Props.
From Verif Require Import Affine_Spec.
Import ListNotations.
Local Open Scope R_scope.

(** ** Only the variables of the network matter *)
Lemma cell_last_ext bl dx t0 t1 l l' x i : (1 <= i)%nat ->
  (forall k, (i - 1 <= k < i + 3)%nat -> l' k = l k) -> cell_evaluate bl dx t0 t1 l' x i = cell_evaluate bl dx t0 t1 l x i.
Proof.
  intros L H. unfold cell_evaluate, evaluate_point. destruct (bl_source bl (seg x (i + 1))); cbn [obind omap]; try reflexivity.
  destruct (bl_source bl (seg x (i - 1))); cbn [obind omap]; try reflexivity. unfold seg. rewrite !(H (i - 1 + 0)%nat), !(H (i - 1 + 1)%nat), !(H (i + 1 + 0)%nat), !(H (i + 1 + 1)%nat) by lia. reflexivity.
Qed.
Lemma loop_range fuel : forall i stop l, loop_by_two fuel i stop = Ok l -> forall k, In k l -> (i <= k /\ k + 2 <= stop)%nat.
Proof.
  induction fuel as [|fuel IH]; intros i stop l H k Hk; cbn [loop_by_two] in H.
  - destruct (Nat.eqb i stop); [injection H as <-; destruct Hk|]. destruct (Nat.ltb stop i); discriminate.
  - destruct (Nat.eqb i stop); [injection H as <-; destruct Hk|]. destruct (Nat.ltb stop i); [discriminate|].
    destruct (loop_by_two fuel (i + 2) stop) as [l'| |] eqn:E; try discriminate. cbn in H. injection H as <-.
    assert (B : (i + 2 <= stop)%nat).
    { destruct fuel; cbn [loop_by_two] in E; destruct (Nat.eqb_spec (i + 2) stop); try lia; destruct (Nat.ltb_spec stop (i + 2)); try discriminate; lia. }
    destruct Hk as [<-|Hk]; [lia|]. pose proof (IH _ _ _ E k Hk). lia.
Qed.
Lemma edge_last_ext g n t0 t1 l l' x c : (ge_after g <= n)%nat -> (forall k, (k < n)%nat -> l' k = l k) ->
  edge_evaluate g t0 t1 l' x c = edge_evaluate g t0 t1 l x c.
Proof.
  intros L H. unfold edge_evaluate. destruct (ge_kind g); try reflexivity. unfold pipe_loop, pipe_indices.
  destruct (loop_by_two (ge_after g) (equation_start_index g) (equation_after_index g)) as [is| |] eqn:E; try reflexivity. cbn [obind]. f_equal. apply map_ext_in. intros i Hi.
  destruct (loop_range _ _ _ _ E i Hi) as (A & B). unfold equation_start_index, equation_after_index in A, B. apply cell_last_ext; [lia|]. intros k Hk. apply H. lia.
Qed.
Lemma evaluate_last_ext N t0 t1 l l' x c v : well_formed N -> (forall k, (k < number_of_states N)%nat -> l' k = l k) ->
  evaluate N t0 t1 l' x c v = evaluate N t0 t1 l x c v.
Proof.
  intros W H. unfold evaluate. f_equal. unfold evaluate_writes. f_equal. f_equal.
  assert (Ed : forall sel, on_edges N sel (fun g => edge_evaluate g t0 t1 l' x c) = on_edges N sel (fun g => edge_evaluate g t0 t1 l x c)).
  { intro sel. rewrite !on_edges_gases. apply map_ext_in. intros g Hg. destruct (gases_in N sel g Hg) as (i & e & H1 & H2 & _).
    destruct (gas_of_size N i e g W H1 H2) as (_ & Sz & _). apply (edge_last_ext g (number_of_states N)); assumption. }
  rewrite !Ed. reflexivity.
Qed.
Lemma evaluate_control_ext N t0 t1 l x c c' v : (forall k, (k < number_of_controls N)%nat -> c' k = c k) ->
  evaluate N t0 t1 l x c' v = evaluate N t0 t1 l x c v.
Proof.
  intro H. unfold evaluate. f_equal. unfold evaluate_writes. f_equal. f_equal.
  assert (Ed : forall sel, on_edges N sel (fun g => edge_evaluate g t0 t1 l x c') = on_edges N sel (fun g => edge_evaluate g t0 t1 l x c)).
  { intro sel. rewrite !on_edges_gases. apply map_ext_in. intros g Hg. destruct (gases_in N sel g Hg) as (i & e & H1 & H2 & _).
    destruct (gas_of_kind N i e g H2) as (_ & _ & K & NL). unfold edge_evaluate. rewrite K. 
    destruct (control_block_spec N i e H1) as (s & E & L).
    assert (Hc : is_control e = true -> c' (fst (control_block N i)) = c (fst (control_block N i))).
    { intro Ic. apply H. rewrite E. cbn. unfold is_control in Ic. destruct (e_type e); try discriminate; cbn in L; lia. }
    unfold is_control in Hc. destruct (e_type e) as [| | | | |G B]; try reflexivity; try (rewrite (Hc eq_refl); reflexivity). exfalso. exact (NL G B eq_refl). }
  rewrite !Ed. reflexivity.
Qed.

(** ** The matrices do not depend on anything *)
Lemma last_matrix N t0 t1 l x c t0' t1' l' x' c' : d_evaluate_d_last_state N t0' t1' l' x' c' = d_evaluate_d_last_state N t0 t1 l x c.
Proof. reflexivity. Qed.
Lemma control_matrix N t0 t1 l x c t0' t1' l' x' c' : d_evaluate_d_control N t0' t1' l' x' c' = d_evaluate_d_control N t0 t1 l x c.
Proof. reflexivity. Qed.

(** ** A function with constant Jacobian is affine *)
Lemma vsum_below n f g : (forall k, (k < n)%nat -> f k = g k) -> vsum n f = vsum n g.
Proof. apply vsum_ext. Qed.
Fixpoint bound_of (n : nat) (h : vec) : R := match n with O => 1 | S m => Rmax (bound_of m h) (Rabs (h m)) end.
Lemma bound_of_ok n h : 1 <= bound_of n h /\ forall k, (k < n)%nat -> Rabs (h k) <= bound_of n h.
Proof.
  induction n as [|n (IH1 & IH2)]; cbn [bound_of]; [split; [lra|lia]|]. split; [eapply Rle_trans; [exact IH1|apply Rmax_l]|].
  intros k Hk. destruct (Nat.eq_dec k n) as [->|D]; [apply Rmax_r|]. eapply Rle_trans; [apply IH2; lia|apply Rmax_l].
Qed.
Lemma affine_of_jacobian m n (f : vec -> outcome vec) (A : mat) :
  (forall u, is_jacobian m n f u A) ->
  (forall u u', (forall k, (k < n)%nat -> u' k = u k) -> f u' = f u) ->
  forall u u' r r', f u = Ok r -> f u' = Ok r' -> changes_by m n A u u' r r'.
Proof.
  intros J X u u' r r' E E' i Hi.
  set (h := fun k => if Nat.ltb k n then u' k - u k else 0).
  set (x := fun s : R => (fun k => u k + s * h k) : vec).
  set (val := fun y : vec => match f y with Ok q => q i | _ => 0 end).
  assert (D : forall s, is_derive (fun s => val (x s)) s (vsum n (fun k => A i k * h k))).
  { intro s. destruct (J (x s)) as (g & G & d & Hd & Eg).
    assert (C : curve_at x s (x s) h).
    { split; [reflexivity|]. intro k. unfold x. auto_derive; [exact Logic.I|ring]. }
    specialize (G i Hi x s h C). apply (is_derive_ext_loc (fun s => g (x s) i)); [|exact G].
    destruct (bound_of_ok n h) as (B1 & B2). assert (Pb : 0 < d / (2 * bound_of n h)) by (apply Rdiv_lt_0_compat; lra).
    exists (mkposreal _ Pb). intros s' Hs'. unfold val. rewrite Eg; [reflexivity|]. intro k. unfold x.
    replace (u k + s' * h k - (u k + s * h k)) with ((s' - s) * h k) by ring. rewrite Rabs_mult.
    change (Rabs (s' - s) < d / (2 * bound_of n h)) in Hs'.
    assert (Hk : Rabs (h k) <= bound_of n h).
    { destruct (Nat.lt_ge_cases k n) as [L|L]; [apply B2; exact L|]. assert (Z : h k = 0) by (unfold h; rewrite (proj2 (Nat.ltb_ge _ _) L); reflexivity). rewrite Z, Rabs_R0. lra. }
    apply Rle_lt_trans with (d / (2 * bound_of n h) * bound_of n h).
    - apply Rmult_le_compat; try apply Rabs_pos; [lra|exact Hk].
    - replace (d / (2 * bound_of n h) * bound_of n h) with (d / 2) by (field; lra). lra. }
  set (c := vsum n (fun k => A i k * h k)) in *.
  assert (K : val (x 1) - 1 * c = val (x 0) - 0 * c).
  { symmetry. apply (eq_is_derive (fun s => val (x s) - s * c)); [|lra]. intros s _.
    replace (@zero R_NormedModule) with (minus c c) by (unfold minus, plus, opp, zero; cbn; ring).
    apply (is_derive_minus (fun s => val (x s)) (fun s => s * c) s c c); [apply D|]. auto_derive; [exact Logic.I|ring]. }
  assert (V0 : val (x 0) = r i) by (unfold val; rewrite (X u (x 0)) by (intros k _; unfold x; ring); rewrite E; reflexivity).
  assert (V1 : val (x 1) = r' i).
  { unfold val. rewrite (X u' (x 1)); [rewrite E'; reflexivity|]. intros k Hk. unfold x, h. rewrite (proj2 (Nat.ltb_lt _ _) Hk). ring. }
  rewrite V0, V1 in K. transitivity c; [lra|]. unfold c. apply vsum_ext. intros k Hk. unfold h. rewrite (proj2 (Nat.ltb_lt _ _) Hk). reflexivity.
Qed.
