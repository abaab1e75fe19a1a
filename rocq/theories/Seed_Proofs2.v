(** * Proofs about seed sequences: mixing and its inverse *)
From Coq Require Import ZArith List Lia Bool Arith.
From Verif Require Import Base Seed_Model Seed_Spec Seed_Proofs.
Import ListNotations.
Local Open Scope Z_scope.

(** ** Lists of words *)
Lemma set_length m : forall i v, length (set_word m i v) = length m.
Proof. induction m as [|a r IH]; intros [|i] v; cbn; auto. Qed.
Lemma set_words n m i v : words n m -> is_word v -> words n (set_word m i v).
Proof.
  intros [L F] Hv. split; [rewrite set_length; exact L|]. clear L. revert i.
  induction F as [|a r Ha F IH]; intros [|i]; cbn; constructor; auto.
Qed.
Lemma at_word n m i : words n m -> is_word (word_at m i).
Proof.
  intros [_ F]. unfold word_at. destruct (Nat.ltb_spec i (length m)).
  - rewrite Forall_forall in F. apply F, nth_In. assumption.
  - rewrite nth_overflow by lia. split; reflexivity || (cbn; lia).
Qed.
Lemma at_set_same m : forall i v, (i < length m)%nat -> word_at (set_word m i v) i = v.
Proof. induction m as [|a r IH]; intros [|i] v H; cbn in *; try lia; auto. apply IH. lia. Qed.
Lemma at_set_other m : forall i j v, i <> j -> word_at (set_word m i v) j = word_at m j.
Proof. induction m as [|a r IH]; intros [|i] [|j] v H; cbn in *; try congruence; auto. apply IH. congruence. Qed.
Lemma set_set m : forall i v w, set_word (set_word m i v) i w = set_word m i w.
Proof. induction m as [|a r IH]; intros [|i] v w; cbn; auto. rewrite IH. reflexivity. Qed.
Lemma set_at m : forall i, set_word m i (word_at m i) = m.
Proof. induction m as [|a r IH]; intros [|i]; cbn; auto. f_equal. apply IH. Qed.

(** ** One step forth and back *)
Definition good (n : nat) (st : list Z * Z) : Prop :=
  words n (fst st) /\ is_word (snd st) /\ Z.odd (snd st) = true.
Definition inside (n : nat) (sd : nat * nat) : Prop := (fst sd < n)%nat /\ (snd sd < n)%nat.

Lemma mix_step_eq m h s d : s <> d ->
  mix_step (m, h) (s, d) = (set_word m d (mix (word_at m d) (fst (hash h (word_at m s)))), w32 (h * MULT_A)).
Proof. intro H. unfold mix_step. apply Nat.eqb_neq in H. rewrite H. reflexivity. Qed.
Lemma unmix_step_eq m h s d : s <> d -> is_word h ->
  unmix_step INV_A MIX_INV_L (m, w32 (h * MULT_A)) (s, d)
  = (set_word m d (unmix (word_at m d) (fst (hash h (word_at m s)))), h).
Proof.
  intros H Hh. unfold unmix_step. apply Nat.eqb_neq in H. rewrite H. rewrite forth_back by exact Hh. reflexivity.
Qed.

Lemma mix_step_good n st sd : good n st -> good n (mix_step st sd).
Proof.
  destruct st as [m h], sd as [s d]. intros [W [Hh Ho]]. cbn [fst snd] in *.
  destruct (Nat.eq_dec s d) as [->|N].
  - unfold mix_step. rewrite Nat.eqb_refl. repeat split; try assumption; apply W || apply Hh.
  - rewrite mix_step_eq by exact N. split; [apply set_words; [exact W|apply mix_word]|].
    split; [apply w32_word|apply odd_step, Ho].
Qed.
Lemma unmix_step_good n st sd : good n st -> good n (unmix_step INV_A MIX_INV_L st sd).
Proof.
  destruct st as [m h], sd as [s d]. intros [W [Hh Ho]]. cbn [fst snd] in *.
  unfold unmix_step. destruct (Nat.eqb s d).
  - repeat split; try assumption; apply W || apply Hh.
  - split; [apply set_words; [exact W|apply w32_word]|]. split; [apply w32_word|apply odd_back, Ho].
Qed.
Lemma unmix_mix_step n st sd : good n st -> inside n sd ->
  unmix_step INV_A MIX_INV_L (mix_step st sd) sd = st.
Proof.
  destruct st as [m h], sd as [s d]. intros [W [Hh Ho]] [Hs Hd]. cbn [fst snd] in *.
  destruct (Nat.eq_dec s d) as [->|N].
  - unfold mix_step, unmix_step. rewrite Nat.eqb_refl. reflexivity.
  - rewrite mix_step_eq, unmix_step_eq by assumption.
    rewrite (at_set_other m d s) by congruence. rewrite at_set_same by (destruct W as [-> _]; exact Hd).
    rewrite unmix_mix by (eapply at_word, W). rewrite set_set, set_at. reflexivity.
Qed.
Lemma mix_unmix_step n st sd : good n st -> inside n sd ->
  mix_step (unmix_step INV_A MIX_INV_L st sd) sd = st.
Proof.
  destruct st as [m c], sd as [s d]. intros [W [Hh Ho]] [Hs Hd]. cbn [fst snd] in *.
  destruct (Nat.eq_dec s d) as [->|N].
  - unfold mix_step, unmix_step. rewrite Nat.eqb_refl. reflexivity.
  - rewrite <- (back_forth c Hh). rewrite unmix_step_eq; [|exact N|apply w32_word].
    rewrite mix_step_eq by exact N. rewrite (at_set_other m d s) by congruence.
    rewrite at_set_same by (destruct W as [-> _]; exact Hd).
    rewrite mix_unmix by (eapply at_word, W). rewrite set_set, set_at. reflexivity.
Qed.

Lemma fold_good {A} n (f : list Z * Z -> A -> list Z * Z) :
  (forall st a, good n st -> good n (f st a)) -> forall l st, good n st -> good n (fold_left f l st).
Proof. intros H l. induction l as [|a r IH]; intros st G; cbn; auto. Qed.

Lemma fold_undo {A} n (f g : list Z * Z -> A -> list Z * Z) (P : A -> Prop) :
  (forall st a, good n st -> good n (f st a)) ->
  (forall st a, good n st -> P a -> g (f st a) a = st) ->
  forall l st, good n st -> Forall P l -> fold_left g (rev l) (fold_left f l st) = st.
Proof.
  intros Hg H l. induction l as [|a r IH]; intros st G F; [reflexivity|]. inversion F; subst.
  cbn [fold_left rev]. rewrite fold_left_app. rewrite IH by auto. cbn. apply H; assumption.
Qed.

(** ** The order of the pairs *)
Lemma nested_rev a b : nested (rev a) (rev b) = rev (nested a b).
Proof.
  unfold nested. induction a as [|x a IH]; [reflexivity|]. cbn [rev flat_map].
  rewrite flat_map_app, IH. cbn [flat_map]. rewrite app_nil_r, rev_app_distr, map_rev. reflexivity.
Qed.
Lemma nested_inside n : Forall (inside n) (nested (seq 0 n) (seq 0 n)).
Proof.
  apply Forall_forall. intros [s d] H. unfold nested in H. apply in_flat_map in H. destruct H as [x [Hx H]].
  apply in_map_iff in H. destruct H as [y [E Hy]]. injection E as <- <-. apply in_seq in Hx, Hy. split; cbn; lia.
Qed.

(** ** The hash constant counts the hashes *)
Definition differ (sd : nat * nat) : bool := negb (Nat.eqb (fst sd) (snd sd)).
Lemma fold_const l : forall m h, is_word h ->
  snd (fold_left mix_step l (m, h)) = w32 (h * MULT_A ^ Z.of_nat (length (filter differ l))).
Proof.
  induction l as [|[s d] r IH]; intros m h Hh.
  - cbn [fold_left filter length snd Z.of_nat]. rewrite Z.pow_0_r, Z.mul_1_r. symmetry. apply w32_id, Hh.
  - cbn [fold_left]. destruct (Nat.eq_dec s d) as [->|N].
    + replace (mix_step (m, h) (d, d)) with (m, h) by (unfold mix_step; rewrite Nat.eqb_refl; reflexivity).
      rewrite IH by exact Hh. cbn [filter]. unfold differ at 2. cbn [fst snd]. rewrite Nat.eqb_refl. reflexivity.
    + rewrite mix_step_eq by exact N. rewrite IH by apply w32_word. cbn [filter]. unfold differ at 2. cbn [fst snd].
      rewrite (proj2 (Nat.eqb_neq s d) N). cbn [negb length]. rewrite Nat2Z.inj_succ, Z.pow_succ_r by lia.
      rewrite w32_mul_l. f_equal. ring.
Qed.
Lemma count_row n s k : (s < n)%nat -> (k <= n)%nat ->
  length (filter differ (map (fun d => (s, d)) (seq k (n - k)))) = (if (s <? k)%nat then n - k else n - k - 1)%nat.
Proof.
  intros Hs. remember (n - k)%nat as j eqn:E. revert k E. induction j as [|j IH]; intros k E Hk.
  - destruct (s <? k)%nat; reflexivity.
  - cbn [seq map filter]. unfold differ at 1. cbn [fst snd]. specialize (IH (S k) ltac:(lia) ltac:(lia)).
    destruct (Nat.eqb_spec s k) as [->|N]; cbn [negb length]; rewrite IH;
      repeat match goal with |- context [(?a <? ?b)%nat] => destruct (Nat.ltb_spec a b) end; try lia.
Qed.
Lemma count_pairs n : length (filter differ (nested (seq 0 n) (seq 0 n))) = (n * (n - 1))%nat.
Proof.
  unfold nested. assert (H : forall l, (forall s, In s l -> (s < n)%nat) ->
    length (filter differ (flat_map (fun s => map (fun d => (s, d)) (seq 0 n)) l)) = (length l * (n - 1))%nat).
  { induction l as [|s l IH]; intro Hl; [reflexivity|]. cbn [flat_map]. rewrite filter_app, app_length.
    rewrite IH by (intros; apply Hl; right; assumption).
    pose proof (count_row n s 0 (Hl s (or_introl eq_refl)) ltac:(lia)) as C.
    replace (n - 0)%nat with n in C by lia. rewrite C. cbn. lia. }
  rewrite H, seq_length; [reflexivity|]. intros s Hs. apply in_seq in Hs. lia.
Qed.

(** ** The first loop *)
Fixpoint const_after (k : nat) (h : Z) : Z := match k with O => h | S k' => const_after k' (w32 (h * MULT_A)) end.
Lemma const_after_eq k : forall h, is_word h -> const_after k h = w32 (h * MULT_A ^ Z.of_nat k).
Proof.
  induction k as [|k IH]; intros h Hh; cbn [const_after].
  - cbn [Z.of_nat]. rewrite Z.pow_0_r, Z.mul_1_r. symmetry. apply w32_id, Hh.
  - rewrite IH by apply w32_word. rewrite w32_mul_l, Nat2Z.inj_succ, Z.pow_succ_r by lia. f_equal. ring.
Qed.
Lemma const_after_good k : forall h, is_word h -> Z.odd h = true -> is_word (const_after k h) /\ Z.odd (const_after k h) = true.
Proof.
  induction k as [|k IH]; intros h Hh Ho; cbn [const_after]; [auto|]. apply IH; [apply w32_word|apply odd_step, Ho].
Qed.

Fixpoint hash_all (h : Z) (l : list Z) : list Z :=
  match l with [] => [] | v :: r => fst (hash h v) :: hash_all (w32 (h * MULT_A)) r end.
Lemma fill_eq k : forall h input, length input = k -> forall rest,
  fill k h (input ++ rest) = (hash_all h input, const_after k h, rest).
Proof.
  induction k as [|k IH]; intros h input L rest; destruct input as [|v r]; try discriminate; [reflexivity|].
  injection L as L. cbn [app fill hash_all const_after]. destruct (hash h v) as [a c] eqn:E.
  pose proof (hash_const_next h v) as Hc. rewrite E in Hc. cbn in Hc. subst c. rewrite (IH _ r L rest). reflexivity.
Qed.
Lemma hash_all_words l : forall h, words (length l) (hash_all h l).
Proof.
  induction l as [|v r IH]; intro h; cbn [hash_all length]; [split; [reflexivity|constructor]|].
  destruct (IH (w32 (h * MULT_A))) as [L F]. split; [cbn; congruence|]. constructor; [apply hash_word|exact F].
Qed.
Lemma zeros_fill k : forall h, fill k h [] = fill k h (repeat 0 k).
Proof.
  induction k as [|k IH]; intro h; [reflexivity|]. cbn [fill repeat]. destruct (hash h 0). rewrite IH. reflexivity.
Qed.
Lemma short_fill k : forall h input, (length input <= k)%nat ->
  fill k h input = fill k h (input ++ repeat 0 (k - length input)).
Proof.
  induction k as [|k IH]; intros h input L.
  - destruct input; [reflexivity|cbn in L; lia].
  - destruct input as [|v r].
    + cbn [app length Nat.sub]. apply zeros_fill.
    + cbn [app fill length Nat.sub]. destruct (hash h v). rewrite IH by (cbn in L; lia). reflexivity.
Qed.

(** The inverse of the first loop, from the end. *)
Lemma unhash_fold l : forall pre h m, is_word h -> Z.odd h = true -> Forall is_word l ->
  m = pre ++ hash_all h l ->
  fold_left (unhash_step INV_A) (rev (seq (length pre) (length l))) (m, const_after (length l) h) = (pre ++ l, h).
Proof.
  induction l as [|v r IH]; intros pre h m Hh Ho F E.
  - cbn. rewrite E. cbn. reflexivity.
  - cbn [length seq rev const_after]. inversion F; subst. rewrite fold_left_app.
    specialize (IH (pre ++ [fst (hash h v)]) (w32 (h * MULT_A)) (pre ++ hash_all h (v :: r)) (w32_word _) (odd_step _ Ho) H2).
    rewrite app_length in IH. cbn [length] in IH. replace (length pre + 1)%nat with (S (length pre)) in IH by lia.
    rewrite IH by (cbn [hash_all]; rewrite <- app_assoc; reflexivity).
    cbn [fold_left]. unfold unhash_step. rewrite forth_back by exact Hh.
    assert (P : forall p a q, word_at (p ++ a :: q) (length p) = a).
    { intros p a q. unfold word_at. rewrite app_nth2, Nat.sub_diag by lia. reflexivity. }
    assert (Q : forall p a q b, set_word (p ++ a :: q) (length p) b = p ++ b :: q).
    { induction p as [|c p IHp]; intros a q b; cbn; [reflexivity|]. rewrite IHp. reflexivity. }
    rewrite <- app_assoc. cbn [app]. rewrite P, Q. f_equal. f_equal. f_equal. apply unhash_hash; assumption.
Qed.

(** ** param is the inverse of seed *)
Definition mixed (n : nat) (l : list Z) : list Z * Z :=
  fold_left mix_step (nested (seq 0 n) (seq 0 n)) (hash_all INIT_A l, const_after n INIT_A).
Lemma init_word : is_word INIT_A. Proof. split; reflexivity || discriminate. Qed.
Lemma start_good n l : words n l -> good n (hash_all INIT_A l, const_after n INIT_A).
Proof.
  intros [L F]. split; [rewrite <- L; apply hash_all_words|]. apply const_after_good; [apply init_word|reflexivity].
Qed.
Lemma mixed_good n l : words n l -> good n (mixed n l).
Proof. intro W. apply fold_good; [apply mix_step_good|apply start_good, W]. Qed.
Lemma mixed_const n l : words n l -> snd (mixed n l) = w32 (INIT_A * fast_exp MULT_A (w32 (Z.of_nat (n * n)))).
Proof.
  intro W. unfold mixed. rewrite fold_const by apply (start_good n l W). rewrite count_pairs, const_after_eq by apply init_word.
  rewrite w32_mul_l, <- Z.mul_assoc, <- Z.pow_add_r by lia. rewrite fast_exp_power by apply w32_word.
  rewrite power_reduced by (reflexivity || lia). rewrite w32_mul_r. f_equal. f_equal. f_equal. rewrite <- Nat2Z.inj_add. f_equal.
  destruct n; cbn; lia.
Qed.
Lemma mix_entropy_exact n l : words n l -> mix_entropy n l = fst (mixed n l).
Proof.
  intros [L F]. unfold mix_entropy. rewrite <- (app_nil_r l) at 1. rewrite (fill_eq n INIT_A l L []). reflexivity.
Qed.
Lemma param_round_mix n l : words n l -> param_round n (mix_entropy n l) = l.
Proof.
  intro W. rewrite mix_entropy_exact by exact W. unfold param_round. fold INV_A MIX_INV_L.
  rewrite <- (mixed_const n l W). rewrite <- surjective_pairing. rewrite nested_rev. unfold mixed.
  rewrite (fold_undo n mix_step (unmix_step INV_A MIX_INV_L) (inside n));
    [|apply mix_step_good|apply unmix_mix_step|apply start_good, W|apply nested_inside].
  destruct W as [L F]. rewrite <- L.
  pose proof (unhash_fold l [] INIT_A (hash_all INIT_A l) init_word eq_refl F eq_refl) as U.
  cbn [length app] in U. rewrite U. reflexivity.
Qed.

(** and the other way round: every mixer comes from some input. *)
Fixpoint unhash_all (h : Z) (l : list Z) : list Z :=
  match l with [] => [] | v :: r => unhash (w32 (h * MULT_A)) h v :: unhash_all (w32 (h * MULT_A)) r end.
Lemma unhash_all_words l : forall h, is_word h -> words (length l) (unhash_all h l).
Proof.
  induction l as [|v r IH]; intros h Hh; cbn [unhash_all length]; [split; [reflexivity|constructor]|].
  destruct (IH (w32 (h * MULT_A)) (w32_word _)) as [L F]. split; [cbn; congruence|].
  constructor; [apply unhash_word, Hh|exact F].
Qed.
Lemma hash_unhash_all l : forall h, is_word h -> Z.odd h = true -> Forall is_word l -> hash_all h (unhash_all h l) = l.
Proof.
  induction l as [|v r IH]; intros h Hh Ho F; cbn [unhash_all hash_all]; [reflexivity|]. inversion F; subst.
  rewrite hash_unhash by assumption. rewrite IH; auto using w32_word, odd_step.
Qed.
Lemma back_const_ge k : forall h, is_word h -> Z.odd h = true -> exists c, is_word c /\ Z.odd c = true /\ const_after k c = h.
Proof.
  induction k as [|k IH]; intros h Hh Ho; [exists h; auto|]. destruct (IH h Hh Ho) as [c [Hc [Hoc E]]].
  exists (w32 (c * INV_A)). split; [apply w32_word|]. split; [apply odd_back, Hoc|]. cbn [const_after].
  rewrite back_forth by exact Hc. exact E.
Qed.

Lemma mul_cancel a b p : Z.odd p = true -> is_word a -> is_word b -> w32 (a * p) = w32 (b * p) -> a = b.
Proof.
  intros Hp Ha Hb E. rewrite <- (w32_id a Ha), <- (w32_id b Hb).
  assert (K : forall x, w32 x = w32 (w32 (x * p) * fast_exp p (w32 (-1)))).
  { intro x. rewrite w32_mul_l, <- Z.mul_assoc, <- w32_mul_r, inverse by exact Hp. rewrite Z.mul_1_r. reflexivity. }
  rewrite (K a), (K b), E. reflexivity.
Qed.
Lemma undone_const n l : forall m h, snd (fold_left (unmix_step INV_A MIX_INV_L) l (m, h)) =
  snd (fold_left (unmix_step INV_A MIX_INV_L) l (repeat 0 n, h)).
Proof.
  assert (H : forall l st st', snd st = snd st' -> snd (fold_left (unmix_step INV_A MIX_INV_L) l st) =
     snd (fold_left (unmix_step INV_A MIX_INV_L) l st')).
  { induction l0 as [|[s d] r IH]; intros [m h] [m' h'] E; [exact E|]. cbn [fold_left]. apply IH. cbn in E. subst h'.
    unfold unmix_step. destruct (Nat.eqb s d); reflexivity. }
  intros. apply H. reflexivity.
Qed.

Lemma mix_param_round n m : words n m ->
  words n (param_round n m) /\ mix_entropy n (param_round n m) = m.
Proof.
  intro W.
  set (c := w32 (INIT_A * fast_exp MULT_A (w32 (Z.of_nat (n * n))))).
  set (back := fold_left (unmix_step INV_A MIX_INV_L) (rev (nested (seq 0 n) (seq 0 n))) (m, c)).
  assert (Z0 : words n (repeat 0 n)).
  { split; [apply repeat_length|]. apply Forall_forall. intros x Hx. apply repeat_spec in Hx. subst. split; reflexivity || discriminate. }
  assert (Gc : good n (m, c)).
  { split; [exact W|]. unfold c. rewrite <- (mixed_const n _ Z0). apply (mixed_good n _ Z0). }
  assert (Gb : good n back) by (apply fold_good; [apply unmix_step_good|exact Gc]).
  assert (Hc : snd back = const_after n INIT_A).
  { unfold back, c. rewrite (undone_const n).
    rewrite <- (undone_const n _ (fst (mixed n (repeat 0 n)))). rewrite <- (mixed_const n _ Z0). rewrite <- surjective_pairing. unfold mixed.
    rewrite (fold_undo n mix_step (unmix_step INV_A MIX_INV_L) (inside n));
    [|apply mix_step_good|apply unmix_mix_step|apply start_good, Z0|apply nested_inside]. reflexivity. }
  set (l := unhash_all INIT_A (fst back)).
  destruct Gb as [[Lb Fb] Kb].
  assert (Wl : words n l) by (unfold l; rewrite <- Lb; apply unhash_all_words, init_word).
  assert (Hl : hash_all INIT_A l = fst back) by (apply hash_unhash_all; [apply init_word|reflexivity|exact Fb]).
  assert (Hm : mixed n l = (m, c)).
  { unfold mixed. rewrite Hl, <- Hc, <- surjective_pairing. unfold back.
    pose proof (fold_undo n (unmix_step INV_A MIX_INV_L) mix_step (inside n) (unmix_step_good n) (mix_unmix_step n)
      (rev (nested (seq 0 n) (seq 0 n))) (m, c) Gc) as U. rewrite rev_involutive in U. apply U.
    apply Forall_rev, nested_inside. }
  assert (E : mix_entropy n l = m) by (rewrite mix_entropy_exact, Hm by exact Wl; reflexivity).
  assert (Ep : param_round n m = l) by (rewrite <- E; apply param_round_mix, Wl).
  rewrite Ep. split; [exact Wl|exact E].
Qed.
