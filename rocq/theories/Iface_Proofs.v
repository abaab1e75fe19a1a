From Coq Require Import List Arith Reals ZArith Bool Lra Lia.
From Verif Require Import Base Interp_Model Interp_Spec Interp_Proofs Interp_Proofs2 Ctimes_Model Ctimes_Spec Ctimes_Proofs
  Jac_Model Jac_Spec Jac_Proofs Iface_Model Iface_Spec.
Import ListNotations.
Open Scope R_scope.

(** ** make_data always ends *)
Lemma make_data_loop_total cons ct fuel : forall ci ui lh lc offs,
  (ci <= length cons)%nat -> (ui <= length ct)%nat -> (length cons - ci + (length ct - ui) < fuel)%nat ->
  exists r, make_data_loop fuel cons ct ci ui lh lc offs = Some (Ok r).
Proof.
  induction fuel as [|fuel IH]; intros ci ui lh lc offs Hc Hu Hf; [lia|]. cbn [make_data_loop].
  destruct (Nat.eqb_spec ui (length ct)); [eauto|].
  destruct (Nat.eqb_spec ci (length cons)); [apply IH; lia|].
  unfold get. destruct (nth_error cons ci) eqn:E; [|apply nth_error_None in E; lia].
  destruct (Rltb lc r); [|apply IH; lia].
  destruct (nth_error ct ui) eqn:E2; [apply IH; lia|apply nth_error_None in E2; lia].
Qed.
Lemma make_data_total bh bw cons ct : ct <> [] -> exists l, make_data bh bw cons ct = Some (Ok l).
Proof.
  intro H. unfold make_data. destruct ct as [|u0 ct]; [congruence|].
  destruct (make_data_loop_total cons (u0 :: ct) (S (length (u0 :: ct) + length cons)) 0 1 (length cons) u0 [0%nat]) as [[h o] E];
    [lia|cbn; lia|cbn; lia|]. rewrite E. eauto.
Qed.

(** ** Sorted lists *)
Lemma is_sorted_nondecreasing l : is_sorted l = true <-> nondecreasing l.
Proof.
  induction l as [|a [|b l] IH].
  - split; [intros _ i j x y _ H; destruct i; discriminate|auto].
  - split; auto. intros _ [|i] [|j] x y L H1 H2; cbn in *; try (destruct i; discriminate); try (destruct j; discriminate).
    injection H1 as <-. injection H2 as <-. lra.
  - cbn [is_sorted]. fold (is_sorted (b :: l)). rewrite andb_true_iff, negb_true_iff, Rltb_false, IH. split.
    + intros [H1 H2] i j x y L Hx Hy. destruct i as [|i]; destruct j as [|j]; [| |lia|].
      * cbn in *. injection Hx as <-. injection Hy as <-. lra.
      * cbn in Hx. injection Hx as <-. cbn in Hy. apply (Rle_trans _ b); [exact H1|].
        apply (H2 0%nat j b y); auto; lia.
      * apply (H2 i j x y); auto; lia.
    + intro H. split; [apply (H 0%nat 1%nat); auto|]. intros i j x y L Hx Hy. apply (H (S i) (S j)); auto. lia.
Qed.
Lemma nondecreasing_head l t : nondecreasing l -> In t l -> nth 0 l 0 <= t.
Proof.
  intros H I. apply In_nth_error in I. destruct I as [i Hi]. destruct l as [|a l]; [destruct i; discriminate|].
  apply (H 0%nat i a t); auto. lia.
Qed.
Lemma nondecreasing_last l t : nondecreasing l -> In t l -> t <= last l 0.
Proof.
  intros H I. apply In_nth_error in I. destruct I as [i Hi].
  assert (l <> []) by (destruct l; [destruct i; discriminate|discriminate]).
  apply (H i (length l - 1)%nat t (last l 0)); auto.
  - pose proof (nth_error_lt_inv _ _ _ Hi). lia.
  - apply nth_error_last; auto.
Qed.
Lemma in_last {A} (l : list A) d : l <> [] -> In (last l d) l.
Proof. intro H. apply (nth_error_In _ (length l - 1)). apply nth_error_last; auto. Qed.
Lemma in_head (l : list R) d : l <> [] -> In (nth 0 l d) l.
Proof. destruct l; [congruence|cbn; auto]. Qed.

(** ** The pairs of indices and weights *)
Lemma index_lambda_iff ct t : nondecreasing ct ->
  ((exists r, compute_index_lambda ct t = Ok r) <-> ct <> [] /\ nth 0 ct 0 <= t < last ct 0 + tolerance) /\
  compute_index_lambda ct t <> Exc.
Proof.
  intro S. unfold compute_index_lambda. destruct ct as [|p0 ct]; [split; [split; [intros [r H]; discriminate|tauto]|discriminate]|].
  change tolerance with EPSILON. pose proof EPSILON_pos. cbn [nth].
  set (l := p0 :: ct) in *. set (b := last l 0).
  destruct (Rltb t p0) eqn:E1; [apply Rltb_true in E1; split; [split; [intros [r H0]; discriminate|intros [_ Q]; exfalso; fold b in Q; lra]|discriminate]|].
  apply Rltb_false in E1.
  destruct (Rltb (b + EPSILON) t) eqn:E2; [apply Rltb_true in E2; split; [split; [intros [r H0]; discriminate|intros [_ Q]; exfalso; fold b in Q; lra]|discriminate]|].
  apply Rltb_false in E2.
  destruct (Rltb b t && Rltb t (b + EPSILON)) eqn:E3.
  { apply andb_true_iff in E3. rewrite !Rltb_true in E3. split; [split; [intros _; split; [discriminate|lra]|eauto]|discriminate]. }
  apply andb_false_iff in E3. rewrite !Rltb_false in E3.
  destruct (Rle_lt_dec t b) as [Hb|Hb].
  - assert (L : (lower_bound l t < length l)%nat).
    { destruct (le_lt_dec (length l) (lower_bound l t)) as [Hl|]; auto. exfalso.
      pose proof (nth_error_last l 0 ltac:(discriminate)) as N.
      assert (b < t); [|lra]. eapply (lower_bound_before l t); [|exact N]. assert (0 < length l)%nat by (unfold l; cbn; lia). lia. }
    destruct (nth_error_lt l _ L) as [a Ha]. unfold get. rewrite Ha. cbn [obind].
    assert (D : exists r, (if (lower_bound l t =? 0)%nat then Ok (lower_bound l t, 1)
      else obind (match nth_error l (lower_bound l t - 1) with Some x => Ok x | None => UB end)
             (fun time_lower => Ok (lower_bound l t, (t - time_lower) / (a - time_lower)))) = Ok r).
    { destruct (Nat.eqb_spec (lower_bound l t) 0); [eauto|].
      destruct (nth_error_lt l (lower_bound l t - 1)) as [c Hc]; [lia|]. rewrite Hc. cbn. eauto. }
    destruct D as [r D]. rewrite D. split; [split; [intros _; split; [discriminate|lra]|eauto]|discriminate].
  - assert (t = b + EPSILON) by lra.
    assert (L : lower_bound l t = length l).
    { apply lower_bound_past. intros a Ha. pose proof (nondecreasing_last l a S Ha). fold b in H1. lra. }
    rewrite L. unfold get. rewrite (proj2 (nth_error_None l (length l)) ltac:(lia)). cbn [obind].
    split; [split; [intros [r H1]; discriminate|intros [_ Q]; exfalso; fold b in Q; lra]|discriminate].
Qed.
Lemma omapM_iff {A B} (f : A -> outcome B) l : (exists r, omapM f l = Ok r) <-> forall x, In x l -> exists y, f x = Ok y.
Proof.
  induction l as [|a l IH]; cbn; [split; [tauto|eauto]|]. split.
  - intros [r H] x [<-|Hx].
    + destruct (f a); cbn in H; [eauto|discriminate..].
    + apply IH; auto. destruct (f a); cbn in H; [|discriminate..]. destruct (omapM f l); cbn in H; [eauto|discriminate..].
  - intro H. destruct (H a (or_introl eq_refl)) as [y Hy]. rewrite Hy. cbn.
    destruct (proj2 IH (fun x Hx => H x (or_intror Hx))) as [r Hr]. rewrite Hr. cbn. eauto.
Qed.
Lemma omapM_noexc {A B} (f : A -> outcome B) l : (forall x, f x <> Exc) -> omapM f l <> Exc.
Proof.
  intro H. induction l as [|a l IH]; cbn; [discriminate|]. specialize (H a). destruct (f a); cbn; try congruence.
  destruct (omapM f l); cbn; congruence.
Qed.
Lemma pairs_iff ct st : st <> [] ->
  ((exists r, index_lambda_vector ct st = Ok r) <-> nondecreasing ct /\ controlled ct st) /\ index_lambda_vector ct st <> Exc.
Proof.
  intro Hs. unfold index_lambda_vector. destruct (is_sorted ct) eqn:E.
  - apply is_sorted_nondecreasing in E. split.
    + rewrite omapM_iff. unfold controlled. split.
      * intro H. split; auto. assert (Hc : ct <> []).
        { destruct st as [|s st]; [congruence|]. destruct (H s (or_introl eq_refl)) as [y Hy].
          apply (proj1 (proj1 (index_lambda_iff ct s E))). eauto. }
        split; auto. split; auto. intros t Ht. apply (proj1 (index_lambda_iff ct t E)). auto.
      * intros (_ & Hc & _ & H) t Ht. apply (proj1 (index_lambda_iff ct t E)). auto.
    + apply omapM_noexc. intro t. apply (index_lambda_iff ct t E).
  - assert (N : ~ nondecreasing ct) by (intro H; apply is_sorted_nondecreasing in H; congruence).
    split; [|apply omapM_noexc; discriminate]. rewrite omapM_iff. split; [|tauto].
    intro H. destruct st as [|s st]; [congruence|]. destruct (H s (or_introl eq_refl)). discriminate.
Qed.

(** ** The same structure *)
Lemma combine_eq (a : list R) : forall b, length a = length b -> forallb (fun '(x, y) => Reqb x y) (combine a b) = true <-> a = b.
Proof.
  induction a as [|x a IH]; intros [|y b] L; try discriminate; cbn; [tauto|].
  rewrite andb_true_iff, Reqb_true, IH by (cbn in L; lia). split; [intros [-> ->]; auto|injection 1; auto].
Qed.
Lemma same_structure_iff a b : have_same_structure a b = true <-> iinner a = iinner b /\ ipoints a = ipoints b.
Proof.
  unfold have_same_structure. destruct (Nat.eqb_spec (iinner a) (iinner b)); cbn; [|split; [discriminate|tauto]].
  destruct (Nat.eqb_spec (length (ipoints a)) (length (ipoints b))); cbn.
  - rewrite combine_eq by auto. tauto.
  - split; [discriminate|intros [_ H]; rewrite H in n; congruence].
Qed.
