(** * Proofs about results: gas edges, power nodes, grids of pipes *)
From Coq Require Import Reals ZArith List Bool Arith Lia Lra String Permutation Sorted.
From Verif Require Import Base Interp_Model Interp_Spec Interp_Proofs Interp_Proofs2 Json_Model Json_Spec Json_Proofs Json_Proofs2 Json_Proofs3
  Defaults_Model Controls_Model Controls_Spec Controls_Proofs Calc Euler_Model Euler_Spec Euler_Proofs
  Net_Model States_Model States_Spec States_Proofs States_Proofs2.
Import ListNotations.
Local Open Scope string_scope.
Local Open Scope list_scope.

(** ** Gas edges *)

Lemma pair_stands w start vals i a b : stands w start vals -> nth_error vals (2 * i) = Some a -> nth_error vals (2 * i + 1) = Some b ->
  pair_at w (start + 2 * i) = Ok (a, b).
Proof.
  intros S A B. unfold pair_at, get. rewrite (S _ _ A). cbn [obind]. rewrite <- Nat.add_assoc, (S _ _ B). reflexivity.
Qed.
Lemma combine_maps {A} (l : list A) (f : A -> R) (g : A -> R) : combine (map f l) (map g l) = map (fun a => (f a, g a)) l.
Proof. induction l as [|a l IH]; [reflexivity|]. cbn. f_equal. exact IH. Qed.

Lemma bar_back y : pressure_ok (y * 10 ^ 5) -> p_bar_from_p_pascal (p (rho (y * 10 ^ 5))) = y.
Proof. intro H. rewrite (proj2 (rho_defined _ H)). unfold p_bar_from_p_pascal, bar. field. Qed.

Lemma saved_gas c rows vals time w : gas_kind (sc_kind c) -> states_for (sc_kind c) rows vals -> stands w (sc_start c) vals ->
  (forall n dx t y, sc_kind c = KPipe n dx -> In t (places (sc_kind c)) -> at_place rows 0 t y -> pressure_ok (y * 10 ^ 5)) ->
  exists l : list (R * (R * R)), map fst l = places (sc_kind c) /\
    saved_entry c time w = Ok (gas_entry time l) /\
    forall i t, nth_error (places (sc_kind c)) i = Some t -> exists y q, nth_error l i = Some (t, (y, q)) /\ at_place rows 0 t y /\ at_place rows 1 t q.
Proof.
  intros Gk [Lv Sv] St Pr. unfold saved_entry. destruct (sc_kind c) as [n dx| | |G B lines values] eqn:Ek; [| | |destruct Gk].
  - assert (Pl : forall i, (i < n)%nat -> nth_error (places (KPipe n dx)) i = Some (INR i * dx)%R).
    { intros i Hi. cbn [places]. rewrite (map_nth_error (fun i => INR i * dx)%R i (seq 0 n) (d := i)); [reflexivity|].
      rewrite (nth_error_nth' (seq 0 n) 0%nat) by (rewrite seq_length; lia). rewrite seq_nth by lia. reflexivity. }
    assert (Ch : forall i, (i < n)%nat -> exists r : R * (R * R), fst r = (INR i * dx)%R /\ at_place rows 0 (fst r) (fst (snd r)) /\ at_place rows 1 (fst r) (snd (snd r)) /\
      omap (fun s => (INR i * dx, (p_bar_from_p_pascal (p (fst s)), snd s))%R) (pair_at w (sc_start c + 2 * i)) = Ok r).
    { intros i Hi. destruct (Sv i _ (Pl i Hi)) as (y & q & Y & Q & A & B). exists (INR i * dx, (y, q))%R. split; [reflexivity|]. split; [exact Y|]. split; [exact Q|].
      rewrite (pair_stands w (sc_start c) vals i _ _ St A B). cbn [omap fst snd first_state].
      rewrite bar_back; [reflexivity|]. apply (Pr n dx (INR i * dx)%R y eq_refl); [|exact Y]. eapply nth_error_In, (Pl i Hi). }
    destruct (choose_list _ _ Ch) as (l & Ll & Hl). exists l.
    assert (Fs : map fst l = places (KPipe n dx)).
    { apply nth_ext with 0%R 0%R; [cbn [places]; rewrite !map_length, seq_length; exact Ll|]. intros i Hi. rewrite map_length in Hi.
      rewrite (nth_indep _ 0%R (fst (0, (0, 0))%R)) by (rewrite map_length; exact Hi). rewrite map_nth.
      destruct (Hl i (nth i l (0, (0, 0))%R) (nth_error_nth' l _ Hi)) as [E _]. rewrite E. symmetry. apply nth_error_nth. apply Pl. lia. }
    split; [exact Fs|]. split.
    + assert (Er : pipe_rows (sc_start c) n dx w = Ok l); [|rewrite Er; reflexivity].
      unfold pipe_rows. apply omapM_Forall2. rewrite <- Ll.
      assert (G : forall k l', (forall i r, nth_error l' i = Some r -> omap (fun s => (INR (k + i) * dx, (p_bar_from_p_pascal (p (fst s)), snd s))%R) (pair_at w (sc_start c + 2 * (k + i))) = Ok r) ->
         Forall2 (fun i r => omap (fun s => (INR i * dx, (p_bar_from_p_pascal (p (fst s)), snd s))%R) (pair_at w (sc_start c + 2 * i)) = Ok r) (seq k (List.length l')) l').
      { intros k l'. revert k. induction l' as [|r l' IH]; intros k H; [constructor|]. cbn [List.length seq]. constructor.
        - specialize (H 0%nat r eq_refl). rewrite Nat.add_0_r in H. exact H.
        - apply IH. intros i r' E. specialize (H (S i) r' E). rewrite Nat.add_succ_r in H. exact H. }
      apply G. intros i r E. apply (Hl i r E).
    + intros i t E. assert (Hi : (i < n)%nat). { assert (Q : nth_error (places (KPipe n dx)) i <> None) by congruence. apply nth_error_Some in Q. cbn [places] in Q. rewrite map_length, seq_length in Q. exact Q. }
      rewrite (Pl i Hi) in E. injection E as <-. destruct (nth_error l i) as [[t [y q]]|] eqn:El; [|apply nth_error_None in El; lia].
      destruct (Hl i _ El) as (E1 & Y & Q & _). cbn [fst snd] in *. subst t. exists y, q. auto.
  - destruct (Sv 0%nat 0%R eq_refl) as (y & q & Y & Q & A & B). destruct (Sv 1%nat 1%R eq_refl) as (y' & q' & Y' & Q' & A' & B').
    exists [(0, (y, q)); (1, (y', q'))]%R. split; [reflexivity|]. split.
    + pose proof (pair_stands w (sc_start c) vals 0 _ _ St A B) as P0. rewrite Nat.add_0_r in P0. rewrite P0. cbn [obind].
      pose proof (pair_stands w (sc_start c) vals 1 _ _ St A' B') as P1. replace (sc_start c + 4 - 2)%nat with (sc_start c + 2 * 1)%nat by lia. rewrite P1. reflexivity.
    + intros [|[|i]] t E; cbn in E; [injection E as <-; exists y, q; auto|injection E as <-; exists y', q'; auto|destruct i; discriminate].
  - destruct (Sv 0%nat 0%R eq_refl) as (y & q & Y & Q & A & B). exists [(0, (y, q))]%R. split; [reflexivity|]. split.
    + pose proof (pair_stands w (sc_start c) vals 0 _ _ St A B) as P0. rewrite Nat.add_0_r in P0. rewrite P0. reflexivity.
    + intros [|i] t E; cbn in E; [injection E as <-; exists y, q; auto|destruct i; discriminate].
Qed.
Lemma gas_entry_result time l : l <> [] -> gas_entry time l = gas_result time (map fst l) (map (fun r => fst (snd r)) l) (map (fun r => snd (snd r)) l).
Proof.
  intro Ne. destruct l as [|r l]; [congruence|]. cbv beta delta [gas_entry gas_result listed]. rewrite !combine_maps, !map_map. reflexivity.
Qed.

(** ** Power nodes *)
Lemma loops_ok (lines : list (R * R * option nat)) state : (forall g b o, In (g, b, o) lines -> o <> None) ->
  forall V phi acc, (exists x, P_loop V phi lines state acc = Ok x) /\ (exists x, Q_loop V phi lines state acc = Ok x).
Proof.
  induction lines as [|[[g b] o] lines IH]; intros H V phi acc; [split; eexists; reflexivity|]. cbn [P_loop Q_loop].
  destruct o as [k|]; [|exfalso; apply (H g b None); [left; reflexivity|reflexivity]]. cbn [other_start obind].
  split; apply IH; intros g' b' o' I; apply (H g' b' o'); right; exact I.
Qed.

Lemma saved_power c G B lines values time state b1 b2 : sc_kind c = KPower G B lines values ->
  (sc_start c + 1 < List.length state)%nat -> (forall g b o, In (g, b, o) lines -> o <> None) ->
  given_values values time b1 b2 -> node_solved values (mkPower (sc_start c) G B lines) b1 b2 (vec_of state) ->
  exists e P_val Q_val, saved_entry c time state = Ok e /\
    P (mkPower (sc_start c) G B lines) (vec_of state) = Ok P_val /\ Q (mkPower (sc_start c) G B lines) (vec_of state) = Ok Q_val /\
    reports e "P" P_val /\ reports e "Q" Q_val /\ reports e "V" (nth (sc_start c) state 0%R) /\ reports e "phi" (nth (sc_start c + 1) state 0%R) /\
    reports e "time" time.
Proof.
  intros Ek L Hl Gv [i [j Ns]]. unfold saved_entry. rewrite Ek. unfold power_entry.
  set (node := mkPower (sc_start c) G B lines) in *.
  assert (Pr : pair_at state (sc_start c) = Ok (nth (sc_start c) state 0%R, nth (sc_start c + 1) state 0%R)).
  { unfold pair_at, get. rewrite (nth_error_nth' state 0%R) by lia. cbn [obind]. rewrite (nth_error_nth' state 0%R) by lia. reflexivity. }
  destruct (loops_ok lines (vec_of state) Hl (vec_of state (sc_start c)) (vec_of state (sc_start c + 1)%nat)
              (0 + G * vec_of state (sc_start c) * vec_of state (sc_start c))%R) as [[x Hp] _].
  destruct (loops_ok lines (vec_of state) Hl (vec_of state (sc_start c)) (vec_of state (sc_start c + 1)%nat)
              (0 - B * vec_of state (sc_start c) * vec_of state (sc_start c))%R) as [_ [y Hq]].
  assert (Ep : P node (vec_of state) = Ok x) by exact Hp. assert (Eq : Q node (vec_of state) = Ok y) by exact Hq. clear Hp Hq.
  rewrite Ep, Eq. rewrite Pr.
  destruct values as [b|b| |b cP cQ]; cbn [equations given_values] in *; unfold power_evaluate in Ns; rewrite ?Ep, ?Eq in Ns; cbn [obind] in Ns.
  - injection Ns as _ Np _ Nq. unfold boundary_at. rewrite Gv. cbn. eexists _, x, y. split; [reflexivity|].
    repeat (split; [reflexivity|]). unfold reports; cbn. repeat split; do 2 f_equal; lra.
  - injection Ns as _ Np _ Nq. unfold boundary_at. rewrite Gv. cbn. eexists _, x, y. split; [reflexivity|].
    repeat (split; [reflexivity|]). unfold reports; cbn. repeat split; do 2 f_equal; lra.
  - cbn. eexists _, x, y. split; [reflexivity|]. repeat (split; [reflexivity|]). reflexivity.
  - injection Ns as _ Np _ Nq. destruct Gv as [-> [-> [m1 [m2 Gv]]]]. unfold boundary_at. rewrite Gv. cbn. eexists _, x, y. split; [reflexivity|].
    repeat (split; [reflexivity|]). unfold reports; cbn. repeat split; do 2 f_equal; lra.
Qed.

(** ** Grids of pipes *)
Lemma pipe_grid length desired : (0 < length)%R -> (0 < desired)%R -> (length / desired < 2 ^ 30)%R ->
  exists n dx, pipe_number_of_points length desired = Ok n /\ pipe_Delta_x length n = Some dx /\
    (2 <= n)%Z /\ (IZR (n - 1) * dx = length)%R /\ (0 < dx <= desired)%R /\
    forall m, (2 <= m)%Z -> (length / IZR (m - 1) <= desired)%R -> (n <= m)%Z.
Proof.
  intros Hl Hd Hb. unfold pipe_number_of_points. destruct (Reqb desired 0) eqn:E0; [apply Reqb_true in E0; lra|].
  set (z := Rceil (length / desired)). destruct (Rceil_spec (length / desired)) as [C1 C2]. fold z in C1, C2.
  assert (Hq : (0 < length / desired)%R) by (apply Rdiv_lt_0_compat; lra).
  assert (Hz : (0 < z)%Z) by (apply lt_IZR; lra).
  assert (Hz2 : (z < 2 ^ 30 + 1)%Z). { apply lt_IZR. rewrite plus_IZR. replace (IZR (2 ^ 30)) with (2 ^ 30)%R by (rewrite pow_IZR; reflexivity). lra. }
  destruct (Z.leb_spec (- 2 ^ 31) z) as [_|B]; [|exfalso; revert B; lia]. destruct (Z.ltb_spec z (2 ^ 31 - 1)) as [_|B]; [|exfalso; revert B; lia]. cbn [andb].
  exists (z + 1)%Z, (length / IZR z)%R. split; [reflexivity|]. unfold pipe_Delta_x. destruct (Z.eqb_spec (z + 1) 1) as [E|_]; [lia|].
  replace (z + 1 - 1)%Z with z by lia. assert (Hz' : (0 < IZR z)%R) by (apply IZR_lt; exact Hz).
  split; [reflexivity|]. split; [lia|]. split; [field; lra|]. split.
  - split; [apply Rdiv_lt_0_compat; lra|]. apply Rmult_le_reg_r with (IZR z); [lra|]. field_simplify; [|lra].
    apply Rmult_le_compat_r with (r := desired) in C1; [|lra]. field_simplify in C1; lra.
  - intros m Hm Hle. assert (Hm' : (0 < IZR (m - 1))%R) by (apply IZR_lt; lia).
    assert (length / desired <= IZR (m - 1))%R.
    { apply Rmult_le_compat_r with (r := IZR (m - 1)) in Hle; [|lra]. field_simplify in Hle; [|lra].
      apply Rmult_le_reg_r with desired; [lra|]. field_simplify; lra. }
    assert (Hzm : (IZR z < IZR (m - 1) + 1)%R) by lra. rewrite <- plus_IZR in Hzm. apply lt_IZR in Hzm. lia.
Qed.
