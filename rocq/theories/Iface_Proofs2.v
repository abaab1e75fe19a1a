From Coq Require Import List Arith Reals ZArith Bool Lra Lia.
From Verif Require Import Base Interp_Model Interp_Spec Interp_Proofs Interp_Proofs2 Ctimes_Model Ctimes_Spec
  Jac_Model Jac_Spec Jac_Proofs Iface_Model Iface_Spec Iface_Proofs.
Import ListNotations.
Open Scope R_scope.

(** ** Constraint times as a subsequence *)
Inductive sub : list R -> list R -> Prop :=
| sub_nil l : sub l []
| sub_skip a l c : sub l c -> sub (a :: l) c
| sub_take a l c : sub l c -> sub (a :: l) (a :: c).

Definition at_positions (l : list R) (idx : list nat) (c : list R) : Prop :=
  (forall k i, nth_error idx k = Some i -> (i < length l)%nat) /\
  (forall k i i', nth_error idx k = Some i -> nth_error idx (S k) = Some i' -> (i < i')%nat) /\
  times_at l idx c.

Lemma nth_error_mapS idx k : nth_error (map S idx) k = option_map S (nth_error idx k).
Proof. revert k. induction idx as [|i idx IH]; intros [|k]; cbn; auto. Qed.
Lemma shift_positions a l idx c : at_positions l idx c -> at_positions (a :: l) (map S idx) c.
Proof.
  intros (H1 & H2 & H3 & H4). split; [|split; [|split]].
  - intros k i H. rewrite nth_error_mapS in H. destruct (nth_error idx k) as [x|] eqn:E; [|discriminate]. injection H as <-.
    specialize (H1 k x E). cbn. lia.
  - intros k i i' H H'. rewrite nth_error_mapS in H, H'.
    destruct (nth_error idx k) as [x|] eqn:E; [|discriminate]. destruct (nth_error idx (S k)) as [y|] eqn:E'; [|discriminate].
    injection H as <-. injection H' as <-. specialize (H2 k x y E E'). lia.
  - rewrite map_length. exact H3.
  - intros k i H. rewrite nth_error_mapS in H. destruct (nth_error idx k) as [x|] eqn:E; [|discriminate]. injection H as <-.
    cbn. apply (H4 k x E).
Qed.
Lemma sub_positions l c : sub l c -> exists idx, at_positions l idx c.
Proof.
  induction 1 as [l|a l c _ [idx IH]|a l c _ [idx IH]].
  - exists []. repeat split; intros [|k]; discriminate.
  - exists (map S idx). apply shift_positions, IH.
  - exists (0%nat :: map S idx). pose proof (shift_positions a l idx c IH) as (H1 & H2 & H3 & H4). split; [|split; [|split]].
    + intros [|k] i H; [injection H as <-; cbn; lia|apply (H1 k i H)].
    + intros [|k] i i' H H'.
      * injection H as <-. change (nth_error (map S idx) 0 = Some i') in H'. rewrite nth_error_mapS in H'. destruct (nth_error idx 0); [|discriminate].
        injection H' as <-. lia.
      * apply (H2 k i i' H H').
    + cbn. rewrite H3. reflexivity.
    + intros [|k] i H; [injection H as <-; reflexivity|apply (H4 k i H)].
Qed.
Lemma later_positions l idx c : at_positions l idx c -> forall k i0, nth_error idx 0 = Some i0 -> forall i, nth_error idx (S k) = Some i -> (i0 < i)%nat.
Proof.
  intros (_ & H2 & _) k i0 H0. induction k as [|k IH]; intros i Hi; [apply (H2 0%nat _ _ H0 Hi)|].
  destruct (nth_error idx (S k)) as [j|] eqn:E.
  - specialize (IH j eq_refl). specialize (H2 (S k) j i E Hi). lia.
  - apply nth_error_None in E. pose proof (nth_error_lt_inv _ _ _ Hi). lia.
Qed.
Lemma unshift_positions a l idx c : at_positions (a :: l) idx c -> (forall i, In i idx -> (1 <= i)%nat) -> at_positions l (map pred idx) c.
Proof.
  intros (H1 & H2 & H3 & H4) P.
  assert (N : forall k, nth_error (map pred idx) k = option_map pred (nth_error idx k)).
  { clear. induction idx as [|i idx IH]; intros [|k]; cbn; auto. }
  split; [|split; [|split]].
  - intros k i H. rewrite N in H. destruct (nth_error idx k) as [x|] eqn:E; [|discriminate]. injection H as <-.
    specialize (H1 k x E). specialize (P x (nth_error_In _ _ E)). cbn in H1. lia.
  - intros k i i' H H'. rewrite N in H, H'.
    destruct (nth_error idx k) as [x|] eqn:E; [|discriminate]. destruct (nth_error idx (S k)) as [y|] eqn:E'; [|discriminate].
    injection H as <-. injection H' as <-. specialize (H2 k x y E E'). pose proof (P x (nth_error_In _ _ E)). lia.
  - rewrite map_length. exact H3.
  - intros k i H. rewrite N in H. destruct (nth_error idx k) as [x|] eqn:E; [|discriminate]. injection H as <-.
    specialize (H4 k x E). pose proof (P x (nth_error_In _ _ E)). destruct x as [|x]; [lia|]. exact H4.
Qed.
Lemma positions_sub l : forall idx c, at_positions l idx c -> sub l c.
Proof.
  induction l as [|a l IH]; intros idx c H.
  - destruct idx as [|i idx]; [|destruct H as (H1 & _); specialize (H1 0%nat i eq_refl); cbn in H1; lia].
    destruct H as (_ & _ & H & _). destruct c; [constructor|discriminate].
  - destruct idx as [|i idx].
    + destruct H as (_ & _ & H & _). destruct c; [constructor|discriminate].
    + assert (G : forall j, In j idx -> (i < j)%nat).
      { intros j Hj. apply In_nth_error in Hj. destruct Hj as [k Hk]. apply (later_positions _ _ _ H k i eq_refl j Hk). }
      destruct i as [|i].
      * destruct c as [|x c]; [destruct H as (_ & _ & H & _); discriminate|].
        assert (x = a). { destruct H as (_ & _ & _ & H). specialize (H 0%nat 0%nat eq_refl). cbn in H. congruence. }
        subst x. apply sub_take. apply (IH (map pred idx)). apply (unshift_positions a); [|intros j Hj; specialize (G j Hj); lia].
        destruct H as (H1 & H2 & H3 & H4). split; [|split; [|split]].
        -- intros k j Hk. apply (H1 (S k) j Hk).
        -- intros k j j' Hk Hk'. apply (H2 (S k) j j' Hk Hk').
        -- cbn in H3. lia.
        -- intros k j Hk. apply (H4 (S k) j Hk).
      * apply sub_skip. apply (IH (map pred (S i :: idx))). apply (unshift_positions a); auto.
        intros j [<-|Hj]; [lia|]. specialize (G j Hj). lia.
Qed.
Lemma constraint_times_iff s0 st cons : constraint_times_of (s0 :: st) cons <-> sub st cons.
Proof.
  split.
  - intros (idx & [P1 P2] & T). apply (positions_sub st (map pred idx)). apply (unshift_positions s0).
    + split; [|split; auto]. intros k i H. apply (P1 k i H).
    + intros i Hi. apply In_nth_error in Hi. destruct Hi as [k Hk]. apply (P1 k i Hk).
  - intro H. destruct (sub_positions st cons H) as [idx Hi]. exists (map S idx).
    pose proof (shift_positions s0 st idx cons Hi) as (H1 & H2 & H3). split; [split|]; auto.
    intros k i Hk. split; [|apply (H1 k i Hk)]. rewrite nth_error_mapS in Hk. destruct (nth_error idx k); [|discriminate].
    injection Hk as <-. lia.
Qed.
Lemma sub_In l c : sub l c -> forall x, In x c -> In x l.
Proof.
  induction 1 as [l|a l c _ IH|a l c _ IH]; cbn; intros x Hx; [tauto|auto|].
  destruct Hx; auto.
Qed.
Lemma sub_drop l k : sub l k -> forall t c, k = t :: c -> sub l c.
Proof.
  induction 1 as [l|a l k _ IH|a l k H IH]; intros t c E; [discriminate|apply sub_skip; eauto|].
  injection E as -> ->. apply sub_skip. auto.
Qed.
Lemma scan_iff st : nondecreasing st -> forall cons, (scan_constraints st cons = Ok [] <-> sub st cons) /\ scan_constraints st cons <> UB.
Proof.
  induction st as [|t st IH]; intros S cons.
  - cbn. split; [|discriminate]. split; [injection 1 as ->; constructor|]. intro H. inversion H. reflexivity.
  - pose proof (nondecreasing_tail _ _ S) as S'. specialize (IH S'). cbn [scan_constraints]. destruct cons as [|c cons].
    + split; [|discriminate]. split; [constructor|auto].
    + destruct (Rltb t c) eqn:E1.
      * apply Rltb_true in E1. destruct (IH (c :: cons)) as [I1 I2]. split; auto. rewrite I1. split; [apply sub_skip|].
        intro H. inversion H; subst; auto. lra.
      * apply Rltb_false in E1. destruct (Reqb t c) eqn:E2.
        -- apply Reqb_true in E2. subst c. destruct (IH cons) as [I1 I2]. split; auto. rewrite I1. split; [apply sub_take|].
           intro H. inversion H; subst; auto. eapply sub_drop; [eassumption|reflexivity].
        -- apply Reqb_false in E2. split; [|discriminate]. split; [discriminate|]. intro H. exfalso.
           pose proof (sub_In _ _ H c (or_introl eq_refl)) as I. pose proof (nondecreasing_head _ _ S I). cbn in H0. lra.
Qed.

(** ** The checks of the constructor *)
Lemma time_checks_iff st ct cons : st <> [] -> ct <> [] ->
  (ctor_time_checks st ct cons = Ok tt <-> nondecreasing st /\ nondecreasing ct /\ nondecreasing cons /\
     nth 0 ct 0 <= nth 0 st 0 /\ last st 0 <= last ct 0 + EPSILON /\ constraint_times_of st cons) /\
  ctor_time_checks st ct cons <> UB.
Proof.
  intros Hs Hc. unfold ctor_time_checks.
  destruct (is_sorted st) eqn:E1; cbn [negb];
    [apply is_sorted_nondecreasing in E1|split; [|discriminate]; split; [discriminate|];
       intros (H & _); apply is_sorted_nondecreasing in H; congruence].
  destruct (is_sorted ct) eqn:E2; cbn [negb];
    [apply is_sorted_nondecreasing in E2|split; [|discriminate]; split; [discriminate|];
       intros (_ & H & _); apply is_sorted_nondecreasing in H; congruence].
  destruct (is_sorted cons) eqn:E3; cbn [negb];
    [apply is_sorted_nondecreasing in E3|split; [|discriminate]; split; [discriminate|];
       intros (_ & _ & H & _); apply is_sorted_nondecreasing in H; congruence].
  destruct ct as [|c0 ct]; [congruence|]. destruct st as [|s0 st]; [congruence|]. cbn [nth].
  destruct (Rltb _ (last (s0 :: st) 0)) eqn:E4; [apply Rltb_true in E4; split; [|discriminate]; split; [discriminate|]; intros (_ & _ & _ & _ & Q & _); exfalso; lra|].
  apply Rltb_false in E4.
  destruct (Rltb s0 c0) eqn:E5; [apply Rltb_true in E5; split; [|discriminate]; split; [discriminate|]; intros (_ & _ & _ & Q & _); exfalso; lra|].
  apply Rltb_false in E5. destruct (scan_iff st (nondecreasing_tail _ _ E1) cons) as [I1 I2]. rewrite constraint_times_iff, <- I1.
  destruct (scan_constraints st cons) as [[|r rest]| |]; cbn [obind]; [split; [|discriminate]; split; [intros _; repeat (split; [assumption|]); reflexivity|auto]| | |congruence].
  - split; [|discriminate]. split; [discriminate|]. intros (_ & _ & _ & _ & _ & Q). discriminate.
  - split; [|discriminate]. split; [discriminate|]. intros (_ & _ & _ & _ & _ & Q). discriminate.
Qed.

Definition grids_fit nx nu ng (x0 : list R) (iv : init_values) : Prop :=
  length x0 = nx /\
  (exists p, same_grid nu p [initial_controls iv; lower_bounds iv; upper_bounds iv]) /\
  (exists q, same_grid ng q [constraint_lower_bounds iv; constraint_upper_bounds iv]).

Lemma ctor_inner nx nu ng x0 iv (k : outcome optimizer) :
  exists r : outcome optimizer,
   (if negb (nu =? iinner (initial_controls iv))%nat then Exc else
    if negb (have_same_structure (initial_controls iv) (lower_bounds iv)) then Exc else
    if negb (have_same_structure (lower_bounds iv) (upper_bounds iv)) then Exc else
    if negb (have_same_structure (constraint_lower_bounds iv) (constraint_upper_bounds iv)) then Exc else
    if negb (ng =? iinner (constraint_lower_bounds iv))%nat then Exc else
    if negb (nx =? length x0)%nat then Exc else k) = r /\
   ((grids_fit nx nu ng x0 iv /\ r = k) \/ (~ grids_fit nx nu ng x0 iv /\ r = Exc)).
Proof.
  eexists. split; [reflexivity|]. unfold grids_fit, same_grid.
  destruct (Nat.eqb_spec nu (iinner (initial_controls iv))) as [A1|A1]; cbn [negb].
  2:{ right. split; auto. intros (_ & [p H] & _). destruct (H (initial_controls iv)); cbn; auto. }
  destruct (have_same_structure (initial_controls iv) (lower_bounds iv)) eqn:A2; cbn [negb].
  2:{ right. split; auto. intros (_ & [p H] & _). destruct (H (initial_controls iv)); cbn; auto.
      destruct (H (lower_bounds iv)); cbn; auto. enough (have_same_structure (initial_controls iv) (lower_bounds iv) = true) by congruence.
      apply same_structure_iff. split; congruence. }
  destruct (have_same_structure (lower_bounds iv) (upper_bounds iv)) eqn:A3; cbn [negb].
  2:{ right. split; auto. intros (_ & [p H] & _). destruct (H (lower_bounds iv)); cbn; auto.
      destruct (H (upper_bounds iv)); cbn; auto. enough (have_same_structure (lower_bounds iv) (upper_bounds iv) = true) by congruence.
      apply same_structure_iff. split; congruence. }
  destruct (have_same_structure (constraint_lower_bounds iv) (constraint_upper_bounds iv)) eqn:A4; cbn [negb].
  2:{ right. split; auto. intros (_ & _ & [p H]). destruct (H (constraint_lower_bounds iv)); cbn; auto.
      destruct (H (constraint_upper_bounds iv)); cbn; auto.
      enough (have_same_structure (constraint_lower_bounds iv) (constraint_upper_bounds iv) = true) by congruence.
      apply same_structure_iff. split; congruence. }
  destruct (Nat.eqb_spec ng (iinner (constraint_lower_bounds iv))) as [A5|A5]; cbn [negb].
  2:{ right. split; auto. intros (_ & _ & [p H]). destruct (H (constraint_lower_bounds iv)); cbn; auto. }
  destruct (Nat.eqb_spec nx (length x0)) as [A6|A6]; cbn [negb].
  2:{ right. split; auto. intros (H & _). auto. }
  left. split; auto. apply same_structure_iff in A2, A3, A4. destruct A2 as [A2 A2'], A3 as [A3 A3'], A4 as [A4 A4'].
  split; auto. split.
  - exists (ipoints (initial_controls iv)). intros v [<-|[<-|[<-|[]]]]; split; congruence.
  - exists (ipoints (constraint_lower_bounds iv)). intros v [<-|[<-|[]]]; split; congruence.
Qed.

Lemma ctor_result nx nu ng st ct cons x0 iv :
  (nondecreasing ct /\ controlled ct st /\
     exists pairs l, index_lambda_vector ct st = Ok pairs /\ make_data ng nu cons ct = Some (Ok l) /\
       ((fits nx nu ng st ct cons x0 iv /\ optimizer_ctor nx nu ng st ct cons x0 iv
           = Ok (mk_optimizer nx nu ng st ct cons x0 iv pairs (quadrature_weights st) l)) \/
        (~ fits nx nu ng st ct cons x0 iv /\ optimizer_ctor nx nu ng st ct cons x0 iv = Exc))) \/
  (~ (nondecreasing ct /\ controlled ct st) /\ optimizer_ctor nx nu ng st ct cons x0 iv = UB).
Proof.
  destruct st as [|s0 st'] eqn:Est.
  { right. split; [intros (_ & _ & H & _); congruence|]. reflexivity. }
  rewrite <- Est in *. assert (Hs : st <> []) by (rewrite Est; discriminate).
  destruct (pairs_iff ct st Hs) as [P1 P2]. unfold optimizer_ctor.
  destruct (index_lambda_vector ct st) as [pairs| |] eqn:E; [|congruence|]; cbn [obind].
  2:{ right. split; auto. intro H. apply P1 in H. destruct H. discriminate. }
  destruct (proj1 P1 (ex_intro _ pairs eq_refl)) as [N C]. left. split; auto. split; auto.
  destruct C as (Hc & _ & C). destruct (make_data_total ng nu cons ct Hc) as [l Hl]. exists pairs, l. split; auto. split; auto.
  replace (weights st) with (Ok (quadrature_weights st)) by (rewrite Est; reflexivity). cbn [obind].
  rewrite (proj2 (is_sorted_nondecreasing ct) N). cbn [negb]. rewrite Hl.
  destruct (time_checks_iff st ct cons Hs Hc) as [T1 T2].
  match goal with |- context [obind (ctor_time_checks st ct cons) ?f] => set (k := obind (ctor_time_checks st ct cons) f) end.
  destruct (ctor_inner nx nu ng x0 iv k) as (r & E1 & R). rewrite E1. clear E1.
  destruct R as [[G ->]|[G ->]].
  2:{ right. split; auto. intros (F1 & F2 & F3 & _). apply G. repeat split; auto. }
  unfold k. destruct (ctor_time_checks st ct cons) as [[]| |] eqn:E2; [| |congruence]; cbn [obind].
  - left. split; auto. destruct G as (G1 & G2 & G3). destruct (proj1 T1 eq_refl) as (T3 & T4 & T5 & T6 & T7 & T8).
    split; auto. split; auto. split; auto. split; auto. split; auto. split; auto. split; auto. split; auto.
  - right. split; auto. intros (_ & _ & _ & F1 & F2 & F3 & F4 & F5).
    enough (@Exc unit = Ok tt) by discriminate. apply T1. split; auto. split; auto. split; auto. split.
    + apply C. apply in_head; auto.
    + split; auto. specialize (C (last st 0) (in_last st 0 Hs)). change tolerance with EPSILON in C. lra.
Qed.
