(** * Proofs about seed sequences: additional words, generated words, seeds of the program *)
From Coq Require Import ZArith List Lia Bool Arith.
From Verif Require Import Base Seed_Model Seed_Spec Seed_Proofs Seed_Proofs2.
Import ListNotations.
Local Open Scope Z_scope.

Lemma bijective_inverse n (f g : list Z -> list Z) :
  (forall l, words n l -> words n (f l)) -> (forall l, words n l -> words n (g l)) ->
  (forall l, words n l -> g (f l) = l) -> (forall l, words n l -> f (g l) = l) -> bijective n f.
Proof.
  intros Hf Hg Hgf Hfg. split; [exact Hf|]. split.
  - intros l l' W W' E. rewrite <- (Hgf l W), <- (Hgf l' W'), E. reflexivity.
  - intros m W. exists (g m). auto.
Qed.
Lemma bijective_comp n (f g : list Z -> list Z) : bijective n f -> bijective n g -> bijective n (fun l => g (f l)).
Proof.
  intros [F1 [F2 F3]] [G1 [G2 G3]]. split; [auto|]. split.
  - intros l l' W W' E. apply F2; auto.
  - intros m W. destruct (G3 m W) as [u [Wu Eu]]. destruct (F3 u Wu) as [l [Wl El]]. exists l. split; [exact Wl|]. rewrite El. exact Eu.
Qed.
Lemma bijective_ext n (f g : list Z -> list Z) : (forall l, words n l -> f l = g l) -> bijective n f -> bijective n g.
Proof.
  intros H [F1 [F2 F3]]. split; [intros l W; rewrite <- H by exact W; auto|]. split.
  - intros l l' W W' E. rewrite <- !H in E by assumption. auto.
  - intros m W. destruct (F3 m W) as [l [Wl El]]. exists l. rewrite <- H by exact Wl. auto.
Qed.

(** ** seed and param *)
Lemma mix_entropy_words n l : words n l -> words n (mix_entropy n l).
Proof. intro W. rewrite mix_entropy_exact by exact W. apply mixed_good, W. Qed.
Lemma seed_words n l : words n l -> words n (seed n l).
Proof.
  intro W. unfold seed, mix_rounds. destruct (n <=? 2)%nat; cbn [Nat.sub stir]; repeat apply mix_entropy_words; exact W.
Qed.
Lemma param_seed n l : words n l -> param n (seed n l) = l.
Proof.
  intro W. unfold param, seed, mix_rounds. destruct (n <=? 2)%nat; cbn [Nat.sub stir param_rounds];
    rewrite !param_round_mix; auto using mix_entropy_words.
Qed.
Lemma seed_param n m : words n m -> words n (param n m) /\ seed n (param n m) = m.
Proof.
  intro W. unfold param, seed, mix_rounds. destruct (n <=? 2)%nat; cbn [Nat.sub stir param_rounds].
  - destruct (mix_param_round n m W) as [W1 E1]. destruct (mix_param_round n _ W1) as [W2 E2].
    split; [exact W2|]. rewrite E2. exact E1.
  - apply mix_param_round, W.
Qed.

(** ** Additional words *)
Lemma fold_bijective {A} n (f g : list Z * Z -> A -> list Z * Z) (P : A -> Prop) :
  (forall st a, good n st -> good n (f st a)) -> (forall st a, good n st -> good n (g st a)) ->
  (forall st a, good n st -> P a -> g (f st a) a = st) -> (forall st a, good n st -> P a -> f (g st a) a = st) ->
  (forall st st' a, snd st = snd st' -> snd (f st a) = snd (f st' a)) ->
  (forall st st' a, snd st = snd st' -> snd (g st a) = snd (g st' a)) ->
  forall l h, Forall P l -> is_word h -> Z.odd h = true -> bijective n (fun m => fst (fold_left f l (m, h))).
Proof.
  intros Hf Hg Hgf Hfg Cf Cg l h F Hh Ho.
  assert (CF : forall l st st', snd st = snd st' -> snd (fold_left f l st) = snd (fold_left f l st')).
  { induction l0 as [|a r IH]; intros st st' E; [exact E|]. cbn. apply IH, Cf, E. }
  assert (CG : forall l st st', snd st = snd st' -> snd (fold_left g l st) = snd (fold_left g l st')).
  { induction l0 as [|a r IH]; intros st st' E; [exact E|]. cbn. apply IH, Cg, E. }
  assert (Z0 : words n (repeat 0 n)).
  { split; [apply repeat_length|]. apply Forall_forall. intros x Hx. apply repeat_spec in Hx. subst. split; reflexivity || discriminate. }
  assert (GM : forall m, words n m -> good n (m, h)) by (intros m W; split; auto).
  set (c := snd (fold_left f l (repeat 0 n, h))).
  assert (Gc : is_word c /\ Z.odd c = true) by (apply (fold_good n f Hf l (repeat 0 n, h)), GM, Z0).
  assert (Kc : forall m, snd (fold_left f l (m, h)) = c) by (intro m; apply CF; reflexivity).
  assert (Kh : forall m, snd (fold_left g (rev l) (m, c)) = h).
  { intro m. rewrite (CG (rev l) (m, c) (fst (fold_left f l (repeat 0 n, h)), c) eq_refl). unfold c. rewrite <- surjective_pairing.
    rewrite (fold_undo n f g P Hf Hgf l _ (GM _ Z0) F). reflexivity. }
  apply (bijective_inverse n _ (fun m => fst (fold_left g (rev l) (m, c)))).
  - intros m W. apply (fold_good n f Hf l (m, h)), GM, W.
  - intros m W. apply (fold_good n g Hg (rev l) (m, c)). split; auto.
  - intros m W. rewrite <- (Kc m). rewrite <- surjective_pairing. rewrite (fold_undo n f g P Hf Hgf l _ (GM m W) F). reflexivity.
  - intros m W. rewrite <- (Kh m). rewrite <- surjective_pairing.
    pose proof (fold_undo n g f P Hg Hfg (rev l) (m, c) (conj W Gc) (Forall_rev F)) as U.
    rewrite rev_involutive in U. rewrite U. reflexivity.
Qed.

Definition extra (st : list Z * Z) (vd : Z * nat) : list Z * Z := extra_step (fst vd) st (snd vd).
Definition unextra (st : list Z * Z) (vd : Z * nat) : list Z * Z :=
  let h := w32 (snd st * INV_A) in
  (set_word (fst st) (snd vd) (unmix (word_at (fst st) (snd vd)) (fst (hash h (fst vd)))), h).
Lemma extra_bijective n l h : Forall (fun vd => (snd vd < n)%nat) l -> is_word h -> Z.odd h = true ->
  bijective n (fun m => fst (fold_left extra l (m, h))).
Proof.
  apply (fold_bijective n extra unextra (fun vd => (snd vd < n)%nat)).
  - intros [m c] [v d] [W [Hh Ho]]. cbn [fst snd] in *. unfold extra, extra_step. cbn [fst snd].
    change (hash c v) with (fst (hash c v), w32 (c * MULT_A)).
    split; [apply set_words; [exact W|apply mix_word]|]. split; [apply w32_word|apply odd_step, Ho].
  - intros [m c] [v d] [W [Hh Ho]]. unfold unextra. cbn [fst snd] in *.
    split; [apply set_words; [exact W|apply unmix_word]|]. split; [apply w32_word|apply odd_back, Ho].
  - intros [m c] [v d] [W [Hh Ho]] Hd. cbn [fst snd] in *. unfold extra, extra_step, unextra. cbn [fst snd].
    change (hash c v) with (fst (hash c v), w32 (c * MULT_A)). cbn [fst snd]. rewrite forth_back by exact Hh.
    rewrite at_set_same by (destruct W as [-> _]; exact Hd). rewrite unmix_mix by (eapply at_word, W).
    rewrite set_set, set_at. reflexivity.
  - intros [m c] [v d] [W [Hh Ho]] Hd. cbn [fst snd] in *. unfold extra, extra_step, unextra. cbn [fst snd].
    set (h1 := w32 (c * INV_A)). change (hash h1 v) with (fst (hash h1 v), w32 (h1 * MULT_A)). cbn [fst snd].
    replace (w32 (h1 * MULT_A)) with c by (symmetry; apply back_forth, Hh).
    rewrite at_set_same by (destruct W as [-> _]; exact Hd). rewrite mix_unmix by (eapply at_word, W).
    rewrite set_set, set_at. reflexivity.
  - intros [m c] [m' c'] [v d] E. cbn in E. subst c'. reflexivity.
  - intros [m c] [m' c'] [v d] E. cbn in E. subst c'. reflexivity.
Qed.

Lemma nested_extra n rest : forall st,
  fold_left (fun st v => fold_left (extra_step v) (seq 0 n) st) rest st
  = fold_left extra (flat_map (fun v => map (fun d => (v, d)) (seq 0 n)) rest) st.
Proof.
  induction rest as [|v r IH]; intro st; [reflexivity|]. cbn [fold_left flat_map]. rewrite fold_left_app, IH. f_equal.
  generalize (seq 0 n) st. induction l as [|d l IHl]; intro s; [reflexivity|]. cbn [fold_left map]. rewrite <- IHl. reflexivity.
Qed.
Lemma hash_all_bijective n : bijective n (hash_all INIT_A).
Proof.
  apply (bijective_inverse n _ (unhash_all INIT_A)).
  - intros l [L F]. rewrite <- L. apply hash_all_words.
  - intros l [L F]. rewrite <- L. apply unhash_all_words, init_word.
  - intros l [L F]. pose proof init_word as I. assert (O : Z.odd INIT_A = true) by reflexivity.
    revert I O. generalize INIT_A. clear L. induction F as [|v r Hv F IH]; intros h I O; [reflexivity|].
    cbn [hash_all unhash_all]. rewrite unhash_hash by assumption. rewrite IH; auto using w32_word, odd_step.
  - intros l [L F]. apply hash_unhash_all; [apply init_word|reflexivity|exact F].
Qed.
Lemma mixed_bijective n : bijective n (fun l => fst (fold_left mix_step (nested (seq 0 n) (seq 0 n)) (l, const_after n INIT_A))).
Proof.
  apply (fold_bijective n mix_step (unmix_step INV_A MIX_INV_L) (inside n)).
  - apply mix_step_good.
  - apply unmix_step_good.
  - apply unmix_mix_step.
  - apply mix_unmix_step.
  - intros [m c] [m' c'] [s d] E. cbn in E. subst c'. unfold mix_step. destruct (Nat.eqb s d); reflexivity.
  - intros [m c] [m' c'] [s d] E. cbn in E. subst c'. unfold unmix_step. destruct (Nat.eqb s d); reflexivity.
  - apply nested_inside.
  - apply const_after_good; [apply init_word|reflexivity].
  - apply const_after_good; [apply init_word|reflexivity].
Qed.
Lemma mix_entropy_more n tail : bijective n (fun head => mix_entropy n (head ++ tail)).
Proof.
  set (c := w32 (INIT_A * fast_exp MULT_A (w32 (Z.of_nat (n * n))))).
  apply (bijective_ext n (fun l => fst (fold_left extra (flat_map (fun v => map (fun d => (v, d)) (seq 0 n)) tail)
     (fst (fold_left mix_step (nested (seq 0 n) (seq 0 n)) (hash_all INIT_A l, const_after n INIT_A)), c)))).
  - intros l W. pose proof (mixed_const n l W) as K. destruct W as [L F]. unfold mix_entropy.
    rewrite (fill_eq n INIT_A l L tail). rewrite nested_extra. fold (mixed n l). unfold c. rewrite <- K.
    rewrite <- surjective_pairing. reflexivity.
  - assert (G : good n (mixed n (repeat 0 n))).
    { apply mixed_good. split; [apply repeat_length|]. apply Forall_forall. intros x Hx. apply repeat_spec in Hx. subst.
      split; reflexivity || discriminate. }
    assert (E : snd (mixed n (repeat 0 n)) = c).
    { apply mixed_const. split; [apply repeat_length|]. apply Forall_forall. intros x Hx. apply repeat_spec in Hx. subst.
      split; reflexivity || discriminate. }
    destruct G as [_ [Hc Ho]]. rewrite E in Hc, Ho.
    apply (bijective_comp n (fun l => fst (fold_left mix_step (nested (seq 0 n) (seq 0 n)) (hash_all INIT_A l, const_after n INIT_A)))
      (fun m => fst (fold_left extra (flat_map (fun v => map (fun d => (v, d)) (seq 0 n)) tail) (m, c)))).
    + apply (bijective_comp n (hash_all INIT_A) _ (hash_all_bijective n) (mixed_bijective n)).
    + apply extra_bijective; [|exact Hc|exact Ho]. apply Forall_forall. intros [v d] H. apply in_flat_map in H.
      destruct H as [v' [_ H]]. apply in_map_iff in H. destruct H as [d' [Ed H]]. injection Ed as <- <-. apply in_seq in H. cbn. lia.
Qed.
Lemma mix_entropy_bijective n : bijective n (mix_entropy n).
Proof.
  apply (bijective_ext n (fun l => mix_entropy n (l ++ []))); [|apply mix_entropy_more].
  intros l _. rewrite app_nil_r. reflexivity.
Qed.
Lemma seed_more n tail : bijective n (fun head => seed n (head ++ tail)).
Proof.
  unfold seed, mix_rounds. destruct (n <=? 2)%nat; cbn [Nat.sub stir].
  - apply (bijective_comp n (fun head => mix_entropy n (head ++ tail)) (mix_entropy n));
      [apply mix_entropy_more|apply mix_entropy_bijective].
  - apply mix_entropy_more.
Qed.
Lemma seed_short n l : (length l <= n)%nat -> seed n l = seed n (l ++ repeat 0 (n - length l)).
Proof.
  intro L. unfold seed. f_equal. unfold mix_entropy. rewrite (short_fill n INIT_A l L). reflexivity.
Qed.
Lemma padded_words n l : (length l <= n)%nat -> Forall is_word l -> words n (l ++ repeat 0 (n - length l)).
Proof.
  intros L F. split; [rewrite app_length, repeat_length; lia|]. apply Forall_app. split; [exact F|].
  apply Forall_forall. intros x Hx. apply repeat_spec in Hx. subst. split; reflexivity || discriminate.
Qed.

(** ** Generated words *)
Definition gen (h v : Z) : Z := xorshift (w32 (Z.lxor v h * w32 (h * MULT_B))).
Definition ungen (h v : Z) : Z := Z.lxor (w32 (xorshift v * fast_exp (w32 (h * MULT_B)) (w32 (-1)))) h.
Fixpoint gen_all (h : Z) (l : list Z) : list Z :=
  match l with [] => [] | v :: r => gen h v :: gen_all (w32 (h * MULT_B)) r end.
Fixpoint ungen_all (h : Z) (l : list Z) : list Z :=
  match l with [] => [] | v :: r => ungen h v :: ungen_all (w32 (h * MULT_B)) r end.
Lemma odd_step_b h : Z.odd h = true -> Z.odd (w32 (h * MULT_B)) = true.
Proof. intro H. apply odd_w32. rewrite Z.odd_mul, H. reflexivity. Qed.
Lemma ungen_gen h v : Z.odd h = true -> is_word h -> is_word v -> ungen h (gen h v) = v.
Proof.
  intros Ho Hh Hv. unfold ungen, gen. rewrite xorshift_twice by apply w32_word.
  rewrite w32_mul_l, <- Z.mul_assoc. rewrite <- w32_mul_r.
  rewrite inverse by (apply odd_step_b, Ho). rewrite Z.mul_1_r. rewrite w32_id by (apply lxor_word; assumption).
  apply lxor_twice.
Qed.
Lemma gen_ungen h v : Z.odd h = true -> is_word h -> is_word v -> gen h (ungen h v) = v.
Proof.
  intros Ho Hh Hv. unfold ungen, gen. rewrite lxor_twice.
  rewrite w32_mul_l. rewrite <- Z.mul_assoc. rewrite (Z.mul_comm (fast_exp _ _)).
  rewrite <- w32_mul_r. rewrite inverse by (apply odd_step_b, Ho). rewrite Z.mul_1_r.
  rewrite w32_id by (apply xorshift_word, Hv). apply xorshift_twice, Hv.
Qed.
Lemma gen_all_bijective n : forall h, is_word h -> Z.odd h = true -> bijective n (gen_all h).
Proof.
  intros h Hh Ho. apply (bijective_inverse n _ (ungen_all h)).
  - intros l [L F]. rewrite <- L. clear L n. revert h Hh Ho. induction l as [|v r IH]; intros h Hh Ho; [split; [reflexivity|constructor]|].
    inversion F; subst. cbn [gen_all length]. destruct (IH H2 _ (w32_word _) (odd_step_b _ Ho)) as [L' F']. split; [cbn; congruence|].
    constructor; [apply xorshift_word, w32_word|exact F'].
  - intros l [L F]. rewrite <- L. clear L n. revert h Hh Ho. induction l as [|v r IH]; intros h Hh Ho; [split; [reflexivity|constructor]|].
    inversion F; subst. cbn [ungen_all length]. destruct (IH H2 _ (w32_word _) (odd_step_b _ Ho)) as [L' F']. split; [cbn; congruence|].
    constructor; [apply lxor_word; [apply w32_word|exact Hh]|exact F'].
  - intros l [L F]. clear L n. revert h Hh Ho. induction F as [|v r Hv F IH]; intros h Hh Ho; [reflexivity|].
    cbn [gen_all ungen_all]. rewrite ungen_gen by assumption. rewrite IH; auto using w32_word, odd_step_b.
  - intros l [L F]. clear L n. revert h Hh Ho. induction F as [|v r Hv F IH]; intros h Hh Ho; [reflexivity|].
    cbn [gen_all ungen_all]. rewrite gen_ungen by assumption. rewrite IH; auto using w32_word, odd_step_b.
Qed.
Lemma generate_prefix src : forall k m h, (length src <= k)%nat ->
  firstn (length src) (generate_loop k m src h) = gen_all h src.
Proof.
  induction src as [|a r IH]; intros k m h L; [reflexivity|]. destruct k as [|k]; [cbn in L; lia|].
  cbn [length firstn generate_loop gen_all]. cbn zeta. fold (gen h a). f_equal.
  destruct r as [|b r]; [reflexivity|]. apply IH. cbn in *. lia.
Qed.
Lemma generate_length k : forall m src h, length (generate_loop k m src h) = k.
Proof. induction k as [|k IH]; intros; cbn [generate_loop length]; auto. Qed.
Lemma generate_all n m : words n m -> generate m n = gen_all INIT_B m.
Proof.
  intros [L F]. unfold generate. rewrite <- (generate_prefix m n m INIT_B) by lia.
  rewrite L. rewrite firstn_all2; [reflexivity|]. rewrite generate_length. lia.
Qed.
Lemma init_b_word : is_word INIT_B. Proof. split; reflexivity || discriminate. Qed.
Lemma generate_bijective n : bijective n (fun m => generate m n).
Proof.
  apply (bijective_ext n (gen_all INIT_B)).
  - intros l W. symmetry. apply generate_all, W.
  - apply gen_all_bijective; [apply init_b_word|reflexivity].
Qed.
Lemma generate_injective n k m m' : (n <= k)%nat -> words n m -> words n m' -> generate m k = generate m' k -> m = m'.
Proof.
  intros Hk W W' E. apply (gen_all_bijective n INIT_B init_b_word eq_refl); [exact W|exact W'|].
  destruct W as [L F], W' as [L' F']. rewrite <- (generate_prefix m k m INIT_B), <- (generate_prefix m' k m' INIT_B) by lia.
  rewrite L, L'. unfold generate in E. rewrite E. reflexivity.
Qed.

(** Word number [i] is made of word number [i mod n] of the mixer and of nothing else. *)
Lemma skipn_nth (m : list Z) : forall j a, nth_error m j = Some a -> skipn j m = a :: skipn (S j) m.
Proof.
  induction m as [|b m IH]; intros [|j] a H; try discriminate; cbn in H |- *; [congruence|].
  rewrite (IH _ _ H). reflexivity.
Qed.
Lemma generate_word i : forall k (m : list Z) j h, (j < length m)%nat -> (i < k)%nat -> is_word h -> Z.odd h = true ->
  exists h', is_word h' /\ Z.odd h' = true /\
    forall l, length l = length m -> exists a, nth_error l ((j + i) mod length m) = Some a /\
      nth_error (generate_loop k l (skipn j l) h) i = Some (gen h' a).
Proof.
  induction i as [|i IH]; intros [|k] m j h Hj Hk Hh Ho; try lia.
  - exists h. split; [exact Hh|]. split; [exact Ho|]. intros l L. rewrite Nat.add_0_r, Nat.mod_small by exact Hj.
    destruct (nth_error l j) as [a|] eqn:E; [|apply nth_error_None in E; lia]. exists a. split; [reflexivity|].
    rewrite (skipn_nth _ _ _ E). reflexivity.
  - pose proof (w32_word (h * MULT_B)) as Hh'. pose proof (odd_step_b h Ho) as Ho'.
    destruct (Nat.eq_dec (S j) (length m)) as [Ej|Ej].
    + destruct (IH k m 0%nat (w32 (h * MULT_B)) ltac:(lia) ltac:(lia) Hh' Ho') as (h' & W & O & G).
      exists h'. split; [exact W|]. split; [exact O|]. intros l L. destruct (G l L) as (a & A1 & A2). exists a. split.
      * rewrite <- A1. f_equal. replace (j + S i)%nat with (i + 1 * length m)%nat by lia. apply Nat.mod_add. lia.
      * destruct (nth_error l j) as [b|] eqn:E; [|apply nth_error_None in E; lia]. rewrite (skipn_nth _ _ _ E).
        rewrite (skipn_all2 (n := S j) l) by lia. exact A2.
    + destruct (IH k m (S j) (w32 (h * MULT_B)) ltac:(lia) ltac:(lia) Hh' Ho') as (h' & W & O & G).
      exists h'. split; [exact W|]. split; [exact O|]. intros l L. destruct (G l L) as (a & A1 & A2). exists a. split.
      * rewrite <- A1. f_equal. f_equal. lia.
      * destruct (nth_error l j) as [b|] eqn:E; [|apply nth_error_None in E; lia].
        destruct (nth_error l (S j)) as [b'|] eqn:E'; [|apply nth_error_None in E'; lia]. rewrite (skipn_nth _ _ _ E).
        rewrite (skipn_nth _ _ _ E') in A2 |- *. exact A2.
Qed.
Lemma generate_cyclic n k i m m' : words n m -> words n m' -> (0 < n)%nat -> (i < k)%nat ->
  (nth_error (generate m k) i = nth_error (generate m' k) i <-> nth_error m (i mod n) = nth_error m' (i mod n)).
Proof.
  intros [L F] [L' F'] Hn Hk. destruct (generate_word i k m 0 INIT_B ltac:(lia) Hk init_b_word eq_refl) as (h & W & O & G).
  destruct (G m eq_refl) as (a & A1 & A2), (G m' ltac:(lia)) as (b & B1 & B2). cbn [Nat.add] in A1, B1. rewrite L in A1, B1.
  unfold generate. change (skipn 0 m) with m in A2. change (skipn 0 m') with m' in B2. rewrite A1, B1, A2, B2. split; intro E; [|congruence].
  assert (Q : gen h a = gen h b) by congruence. f_equal.
  apply nth_error_In in A1, B1. rewrite Forall_forall in F, F'.
  rewrite <- (ungen_gen h a O W (F _ A1)), <- (ungen_gen h b O W (F' _ B1)). congruence.
Qed.

(** ** Seeds written and read *)
Lemma read_words l : Forall is_word l -> forall rest, get_array (length l) (map Integer l ++ rest) = Ok l.
Proof.
  intros F rest. induction F as [|v r Hv F IH]; [reflexivity|]. cbn [length map app get_array get_uint32 obind].
  rewrite w32_id by exact Hv. rewrite IH. reflexivity.
Qed.
Lemma get_array_words k : forall l s, get_array k l = Ok s -> words k s.
Proof.
  induction k as [|k IH]; intros l s H; cbn in H; [injection H as <-; split; [reflexivity|constructor]|].
  destruct l as [|e r]; [discriminate|]. destruct (get_uint32 e) as [v| |] eqn:E; try discriminate. cbn [obind] in H.
  destruct (get_array k r) as [t| |] eqn:Er; try discriminate. cbn in H. injection H as <-.
  destruct (IH r t Er) as [L F]. split; [cbn; congruence|]. constructor; [|exact F].
  destruct e as [z|x|b|]; cbn in E; try discriminate.
  - injection E as <-. apply w32_word.
  - destruct (_ && _)%bool eqn:Eb; try discriminate. injection E as <-. apply andb_true_iff in Eb. destruct Eb as [A B].
    apply Z.leb_le in A. apply Z.ltb_lt in B. split; assumption.
  - injection E as <-. destruct b; split; reflexivity || discriminate.
Qed.
Lemma seed_any_words n l : Forall is_word l -> words n (seed n l).
Proof.
  intro F. destruct (Nat.le_gt_cases (length l) n).
  - rewrite seed_short by exact H. apply seed_words, padded_words; assumption.
  - rewrite <- (firstn_skipn n l). apply (seed_more n (skipn n l)). split; [rewrite firstn_length; lia|].
    apply Forall_forall. intros x Hx. rewrite Forall_forall in F. apply F.
    rewrite <- (firstn_skipn n l). apply in_or_app. left. exact Hx.
Qed.
