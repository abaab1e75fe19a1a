From Coq Require Import List Arith Reals Lra Lia ZArith Bool.
From Verif Require Import Base Interp_Model Interp_Spec Interp_Proofs Interp_Proofs2 Ctimes_Model Ctimes_Spec.
Import ListNotations.
Local Open Scope nat_scope.

(** the chosen positions *)
Definition chosen (size n : nat) : list nat :=
  let num := number_of_constrainttimes (size - 1) n in
  map (fun k => if (S k =? num) && negb (size mod n =? 0) then size - 1 else 1 + n * k) (seq 0 num).

Lemma num_bounds s n : 0 < n -> let num := number_of_constrainttimes s n in
  s <= n * num /\ (0 < s -> n * (num - 1) < s /\ 0 < num).
Proof.
  intro Hn. unfold number_of_constrainttimes.
  pose proof (Nat.div_mod s n ltac:(lia)) as D. pose proof (Nat.mod_upper_bound s n ltac:(lia)) as M.
  destruct (s mod n =? 0) eqn:E; [apply Nat.eqb_eq in E|apply Nat.eqb_neq in E]; cbv zeta.
  - split; [lia|]. intro Hs. assert (0 < s / n) by (destruct (s / n); lia).
    split; [|lia]. replace (s / n) with (S (s / n - 1)) in D by lia. nia.
  - split; [nia|]. intro Hs. split; [|lia]. replace (s / n + 1 - 1) with (s / n) by lia. lia.
Qed.

Lemma effective_pos z : 0 < effective_n z.
Proof. unfold effective_n. destruct (z <=? 0)%Z eqn:E; [lia|]. apply Z.leb_gt in E. lia. Qed.

Lemma omapM_ok {A B} (f : A -> outcome B) l g : (forall x, In x l -> f x = Ok (g x)) ->
  omapM f l = Ok (map g l).
Proof.
  induction l as [|x l IH]; intro H; simpl; [reflexivity|].
  rewrite (H x) by (left; auto). simpl. rewrite IH by (intros; apply H; right; auto). reflexivity.
Qed.

Lemma chosen_length size n : length (chosen size n) = number_of_constrainttimes (size - 1) n.
Proof. unfold chosen. rewrite map_length, seq_length. reflexivity. Qed.

Lemma chosen_nth size n k : k < number_of_constrainttimes (size - 1) n ->
  nth_error (chosen size n) k = Some (if (S k =? number_of_constrainttimes (size - 1) n)
     && negb (size mod n =? 0) then size - 1 else 1 + n * k).
Proof.
  intro Hk. unfold chosen. rewrite nth_error_map.
  rewrite (nth_error_nth' _ 0) by (rewrite seq_length; auto). rewrite seq_nth by auto. reflexivity.
Qed.

Lemma removelast_map_seq (f : nat -> R) m : removelast (map f (seq 0 (S m))) = map f (seq 0 m).
Proof. rewrite seq_S, map_app. simpl. apply removelast_last. Qed.

Lemma select_ok state z : 2 <= length state ->
  select_constraint_times state z
  = Ok (map (fun i => nth i state 0%R) (chosen (length state) (effective_n z))).
Proof.
  intro Hs. unfold select_constraint_times. set (n := effective_n z).
  assert (Hn : 0 < n) by apply effective_pos.
  destruct state as [|x0 st] eqn:E0; [simpl in Hs; lia|]. rewrite <- E0 in *.
  set (S := length state) in *. set (num := number_of_constrainttimes (S - 1) n).
  pose proof (num_bounds (S - 1) n Hn) as NB. cbv zeta in NB. fold num in NB.
  destruct NB as [NB1 NB2]. specialize (NB2 ltac:(lia)). destruct NB2 as [NB2 NB3].
  rewrite (omapM_ok _ _ (fun index => nth (1 + n * index) state 0%R)).
  2:{ intros k Hk. apply in_seq in Hk. apply get_Ok. apply nth_error_nth'. fold S. nia. }
  cbn [obind].
  assert (G : get state (S - 1) = Ok (nth (S - 1) state 0%R)).
  { apply get_Ok, nth_error_nth'. fold S. lia. }
  destruct (S mod n =? 0) eqn:Em; cbn [negb].
  - f_equal. unfold chosen. fold num. rewrite map_map. apply map_ext. intro k.
    rewrite Em. cbn [negb]. rewrite andb_false_r. reflexivity.
  - rewrite G. cbn [obind]. unfold set_back.
    destruct num as [|num'] eqn:En; [lia|].
    destruct (map (fun index => nth (1 + n * index) state 0%R) (seq 0 (Datatypes.S num'))) as [|y ys] eqn:Em'.
    { simpl in Em'. discriminate. }
    rewrite <- Em'. f_equal. rewrite removelast_map_seq.
    unfold chosen. fold num. rewrite En. rewrite seq_S at 1.
    rewrite !map_app. f_equal.
    + rewrite map_map. apply map_ext_in. intros k Hk. apply in_seq in Hk.
      assert (Hne : (Datatypes.S k =? Datatypes.S num') = false) by (apply Nat.eqb_neq; lia).
      rewrite Hne. reflexivity.
    + cbn [map seq]. rewrite Nat.add_0_l, Nat.eqb_refl, Em. reflexivity.
Qed.

Lemma chosen_positions size n : 2 <= size -> 0 < n ->
  positions_after_start size (chosen size n) /\ gaps_at_most (2 * n - 1) (chosen size n) /\
  chosen size n <> [] /\
  (forall i, nth_error (chosen size n) 0 = Some i -> i <= n) /\
  (forall k i, nth_error (chosen size n) k = Some i -> S k < length (chosen size n) -> i = 1 + n * k).
Proof.
  intros Hs Hn. set (num := number_of_constrainttimes (size - 1) n).
  pose proof (num_bounds (size - 1) n Hn) as NB. cbv zeta in NB. fold num in NB.
  destruct NB as [NB1 NB2]. specialize (NB2 ltac:(lia)). destruct NB2 as [NB2 NB3].
  assert (L : length (chosen size n) = num) by apply chosen_length.
  assert (V : forall k i, nth_error (chosen size n) k = Some i ->
     k < num /\ ((S k = num /\ size mod n <> 0 /\ i = size - 1) \/ i = 1 + n * k)).
  { intros k i Hk. assert (Hlt : k < num) by (rewrite <- L; eapply nth_error_lt_inv; eauto).
    split; [auto|]. rewrite (chosen_nth size n k Hlt) in Hk. fold num in Hk.
    destruct (S k =? num) eqn:E1; [apply Nat.eqb_eq in E1|]; cbn [andb] in Hk; [|right; congruence].
    destruct (size mod n =? 0) eqn:E2; [apply Nat.eqb_eq in E2|apply Nat.eqb_neq in E2]; cbn [negb] in Hk;
      [right; congruence|left; repeat split; auto; congruence]. }
  assert (Hk1 : forall k, k < num -> 1 + n * k < size) by (intros; nia).
  repeat split.
  - destruct (V _ _ H) as [A [[B1 [B2 B3]]|B]]; [lia|]. specialize (Hk1 k A). lia.
  - destruct (V _ _ H) as [A [[B1 [B2 B3]]|B]]; [lia|]. specialize (Hk1 k A). lia.
  - intros k i i' Hi Hi'. destruct (V _ _ Hi) as [A B]. destruct (V _ _ Hi') as [A' B'].
    destruct B as [[B1 _]|B]; [lia|].
    assert (1 + n * S k < size) by (apply Hk1; auto).
    destruct B' as [[_ [_ B']]|B']; subst; nia.
  - intros k i i' Hi Hi'. destruct (V _ _ Hi) as [A B]. destruct (V _ _ Hi') as [A' B'].
    destruct B as [[B1 _]|B]; [lia|].
    destruct B' as [[B1 [_ B']]|B']; subst; [|nia].
    rewrite <- B1 in NB1. replace (n * S (S k)) with (n * k + 2 * n) in NB1 by lia. lia.
  - intro Z. rewrite Z in L. simpl in L. lia.
  - intros i Hi. destruct (V _ _ Hi) as [A [[B1 [B2 B3]]|B]]; [|nia]. assert (num = 1) by lia. nia.
  - intros k i Hi Hlt. destruct (V _ _ Hi) as [A [[B1 [B2 B3]]|B]]; [lia|auto].
Qed.

(** ** The scan of the constructor *)
Definition indices_ok (lo : nat) (idx : list nat) (size : nat) : Prop :=
  (forall k i, nth_error idx k = Some i -> lo <= i < size) /\
  (forall k i i', nth_error idx k = Some i -> nth_error idx (S k) = Some i' -> i < i').

Lemma indices_tail lo i idx size : indices_ok lo (i :: idx) size -> indices_ok (S i) idx size.
Proof.
  intros [A B]. split.
  - intros k j Hk. split; [|apply (A (S k) j Hk)].
    revert j Hk. induction k as [|k IH]; intros j Hk.
    + apply (B 0 i j); simpl; auto.
    + destruct (nth_error idx k) as [j'|] eqn:E.
      * specialize (IH j' eq_refl). pose proof (B (S k) j' j E Hk). lia.
      * apply nth_error_None in E. apply nth_error_lt_inv in Hk. lia.
  - intros k a b Ha Hb. apply (B (S k)); auto.
Qed.

Lemma scan_ok state : increasing state -> forall len lo idx,
  lo + len = length state -> indices_ok lo idx (length state) ->
  scan_constraints (skipn lo state) (map (fun i => nth i state 0%R) idx) = Ok [].
Proof.
  intro Hinc. induction len as [|len IH]; intros lo idx Hlen Hidx.
  - assert (E : skipn lo state = []) by (apply skipn_all2; lia). rewrite E.
    destruct idx as [|i idx]; [reflexivity|]. destruct Hidx as [A _]. specialize (A 0 i eq_refl). lia.
  - assert (E : skipn lo state = nth lo state 0%R :: skipn (S lo) state).
    { assert (Hlt : lo < length state) by lia. clear -Hlt. revert lo Hlt.
      induction state as [|s state IHs]; intros lo Hlt; [simpl in Hlt; lia|].
      destruct lo as [|lo]; [reflexivity|]. simpl in Hlt. cbn [skipn nth]. apply IHs. lia. }
    rewrite E. destruct idx as [|i idx]; [reflexivity|]. cbn [scan_constraints map].
    assert (Hi : lo <= i < length state) by (destruct Hidx as [A _]; apply (A 0); reflexivity).
    assert (N : forall k, k < length state -> nth_error state k = Some (nth k state 0%R))
      by (intros; apply nth_error_nth'; auto).
    destruct (Nat.eq_dec lo i) as [<-|Hne].
    + rewrite (proj2 (Rltb_false _ _)) by lra. rewrite (proj2 (Reqb_true _ _)) by reflexivity.
      apply IH; [lia|]. eapply indices_tail; eauto.
    + assert (nth lo state 0%R < nth i state 0%R)%R.
      { apply (increasing_nth state Hinc lo i); try apply N; lia. }
      rewrite (proj2 (Rltb_true _ _)) by auto.
      change (nth i state 0%R :: map (fun i0 => nth i0 state 0%R) idx) with (map (fun i0 => nth i0 state 0%R) (i :: idx)).
      apply IH; [lia|].
      assert (T : indices_ok (S i) idx (length state)) by (eapply indices_tail; eauto).
      destruct Hidx as [A B]. split; [|auto].
      intros k j Hk. destruct k as [|k]; simpl in Hk.
      * injection Hk as <-. lia.
      * destruct T as [T _]. specialize (T k j Hk). lia.
Qed.

Lemma is_sorted_increasing l : increasing l -> is_sorted l = true.
Proof.
  induction l as [|a [|b l] IH]; intro H; [reflexivity|reflexivity|].
  assert (a < b)%R by (apply (increasing_nth (a :: b :: l) H 0 1); auto).
  inversion H; subst. cbn [is_sorted]. rewrite (proj2 (Rltb_false _ _)) by lra.
  cbn [negb andb]. apply IH. auto.
Qed.

Lemma chosen_increasing state idx : increasing state -> positions_after_start (length state) idx ->
  increasing (map (fun i => nth i state 0%R) idx).
Proof.
  intros Hinc [A B]. apply increasing_of_nth. intros k a b Ha Hb.
  rewrite nth_error_map in Ha, Hb.
  destruct (nth_error idx k) as [i|] eqn:Ei; [|discriminate].
  destruct (nth_error idx (S k)) as [i'|] eqn:Ei'; [|discriminate].
  simpl in Ha, Hb. injection Ha as <-. injection Hb as <-.
  pose proof (A _ _ Ei). pose proof (A _ _ Ei'). pose proof (B _ _ _ Ei Ei').
  apply (increasing_nth state Hinc i i'); try (apply nth_error_nth'; lia). lia.
Qed.

Lemma selection_full : forall state z control, increasing state -> 2 <= length state ->
  increasing control -> control <> [] ->
  (nth 0 control 0 <= nth 0 state 0)%R -> (last state 0 <= last control 0 + tolerance)%R ->
  exists cons idx, select_constraint_times state z = Ok cons /\
    positions_after_start (length state) idx /\ times_at state idx cons /\ increasing cons /\
    cons <> [] /\
    gaps_at_most (2 * effective_n z - 1) idx /\
    (forall i, nth_error idx 0 = Some i -> i <= effective_n z) /\
    ctor_time_checks state control cons = Ok tt.
Proof.
  intros state z control Hinc Hs Hcinc Hcne H0 Hl.
  set (n := effective_n z). assert (Hn : 0 < n) by apply effective_pos.
  destruct (chosen_positions (length state) n Hs Hn) as (P & G & Ne & F & _).
  exists (map (fun i => nth i state 0%R) (chosen (length state) n)), (chosen (length state) n).
  pose proof (chosen_increasing state _ Hinc P) as Hci.
  split; [apply select_ok; auto|]. split; [exact P|]. split.
  { split; [apply map_length|]. intros k i Hk. rewrite nth_error_map, Hk. simpl.
    symmetry. apply nth_error_nth'. apply (proj1 P k i Hk). }
  split; [auto|]. split. { intro Z. apply map_eq_nil in Z. auto. }
  split; [auto|]. split; [auto|].
  unfold ctor_time_checks. rewrite !is_sorted_increasing by auto. cbn [negb].
  destruct control as [|c0 control'] eqn:Ec; [congruence|]. rewrite <- Ec in *.
  destruct state as [|s0 state'] eqn:Es; [simpl in Hs; lia|]. rewrite <- Es in *.
  rewrite (proj2 (Rltb_false _ _)) by (exact Hl).
  rewrite (proj2 (Rltb_false _ _)) by (subst; simpl in H0; auto).
  replace state' with (skipn 1 state) by (rewrite Es; reflexivity).
  rewrite (scan_ok state Hinc (length state - 1) 1); [reflexivity|lia|].
  exact P.
Qed.

(** ** The final time *)
Lemma last_chosen size n : 2 <= size -> 0 < n ->
  nth_error (chosen size n) (length (chosen size n) - 1) = Some
    (if size mod n =? 0 then 1 + n * (number_of_constrainttimes (size - 1) n - 1) else size - 1).
Proof.
  intros Hs Hn. rewrite chosen_length.
  pose proof (num_bounds (size - 1) n Hn) as NB. cbv zeta in NB.
  destruct NB as [NB1 NB2]. specialize (NB2 ltac:(lia)). destruct NB2 as [NB2 NB3].
  rewrite chosen_nth by lia.
  replace (S (number_of_constrainttimes (size - 1) n - 1)) with (number_of_constrainttimes (size - 1) n) by lia.
  rewrite Nat.eqb_refl. cbn [andb]. destruct (size mod n =? 0); reflexivity.
Qed.

Lemma last_position size n : 2 <= size -> 0 < n -> size mod n = 0 ->
  (1 + n * (number_of_constrainttimes (size - 1) n - 1) = size - 1 <-> n <= 2).
Proof.
  intros Hs Hn Hm. pose proof (Nat.div_mod size n ltac:(lia)) as D.
  pose proof (num_bounds (size - 1) n Hn) as NB. cbv zeta in NB.
  destruct NB as [NB1 NB2]. specialize (NB2 ltac:(lia)). destruct NB2 as [NB2 NB3].
  set (num := number_of_constrainttimes (size - 1) n) in *. set (q := size / n) in *.
  rewrite Hm, Nat.add_0_r in D. destruct (Nat.eq_dec n 1) as [->|N1].
  - split; [lia|]. intros _. lia.
  - assert (Hnum : num = q) by nia. rewrite Hnum in *.
    assert (Hq : n * (q - 1) + n = n * q) by nia. lia.
Qed.

Lemma final_time_iff : forall state z cons, increasing state -> 2 <= length state ->
  select_constraint_times state z = Ok cons ->
  (In (last state 0%R) cons <->
   ~ (exists k, length state = k * effective_n z) \/ effective_n z <= 2).
Proof.
  intros state z cons Hinc Hs E. rewrite (select_ok state z Hs) in E. injection E as <-.
  set (n := effective_n z). assert (Hn : 0 < n) by apply effective_pos.
  destruct (chosen_positions (length state) n Hs Hn) as (P & _ & Ne & _ & _).
  pose proof (last_chosen (length state) n Hs Hn) as Hl.
  assert (Hne : state <> []) by (intro Z; rewrite Z in Hs; simpl in Hs; lia).
  pose proof (nth_error_last state 0%R Hne) as Hlast.
  assert (Hmod : (exists k, length state = k * n) <-> length state mod n = 0).
  { split.
    - intros [k ->]. apply Nat.mod_mul. lia.
    - intro M. exists (length state / n). pose proof (Nat.div_mod (length state) n ltac:(lia)). lia. }
  rewrite Hmod.
  assert (Hin : In (last state 0%R) (map (fun i => nth i state 0%R) (chosen (length state) n)) <->
                In (length state - 1) (chosen (length state) n)).
  { split; intro I.
    - apply in_map_iff in I. destruct I as (i & E & I). apply In_nth_error in I. destruct I as [k Hk].
      pose proof (proj1 P k i Hk) as B.
      assert (i = length state - 1).
      { destruct (Nat.eq_dec i (length state - 1)) as [->|N]; [auto|].
        assert (nth i state 0 < last state 0)%R.
        { apply (increasing_nth state Hinc i (length state - 1)); auto; try lia. apply nth_error_nth'; lia. }
        lra. }
      subst i. eapply nth_error_In; eauto.
    - apply in_map_iff. exists (length state - 1). split; [|auto].
      apply nth_error_nth with (d := 0%R) in Hlast. auto. }
  rewrite Hin.
  assert (Hmax : In (length state - 1) (chosen (length state) n) <->
     (if length state mod n =? 0 then 1 + n * (number_of_constrainttimes (length state - 1) n - 1) else length state - 1) = length state - 1).
  { split; intro I.
    - apply In_nth_error in I. destruct I as [k Hk].
      assert (k < length (chosen (length state) n)) by (eapply nth_error_lt_inv; eauto).
      destruct (Nat.eq_dec k (length (chosen (length state) n) - 1)) as [->|N]; [congruence|].
      exfalso. destruct (nth_error_lt (chosen (length state) n) (S k)) as [i' Hi']; [lia|].
      pose proof (proj2 P _ _ _ Hk Hi'). pose proof (proj1 P _ _ Hi'). lia.
    - rewrite I in Hl. eapply nth_error_In; eauto. }
  rewrite Hmax. destruct (length state mod n =? 0) eqn:Em; [apply Nat.eqb_eq in Em|apply Nat.eqb_neq in Em].
  - rewrite (last_position (length state) n Hs Hn Em). fold n. split; [auto|]. intros [A|A]; [contradiction|auto].
  - split; auto.
Qed.

Lemma final_time_missed : exists state z cons, increasing state /\ 2 <= length state /\ (0 < z)%Z /\
  select_constraint_times state z = Ok cons /\ ~ In (last state 0%R) cons.
Proof.
  exists [0; 1; 2; 3; 4; 5]%R, 3%Z, [1; 4]%R.
  split; [repeat constructor; lra|]. split; [simpl; lia|]. split; [lia|]. split; [reflexivity|].
  simpl. intros [A|[A|A]]; [lra|lra|auto].
Qed.

Lemma nonpositive_setting : forall state z, (z <= 0)%Z ->
  select_constraint_times state z = select_constraint_times state 1 /\ effective_n z = 1.
Proof.
  intros state z Hz. assert (E : effective_n z = 1).
  { unfold effective_n. rewrite (proj2 (Z.leb_le z 0)) by auto. reflexivity. }
  split; [|auto]. unfold select_constraint_times. rewrite E. reflexivity.
Qed.
