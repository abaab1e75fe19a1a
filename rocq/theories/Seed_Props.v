(** * Properties of seed sequences and of the seeds of stochastic nodes: C92, C93 *)
From Coq Require Import Reals ZArith List Lia Lra Bool Arith.
From Verif Require Import Base Seed_Model Seed_Spec Seed_Proofs Seed_Proofs2 Seed_Proofs3.
Import ListNotations.
Local Open Scope Z_scope.

(** ** C92: seed sequences lose no entropy, and param gives back what is needed to repeat them *)

(** With as many words as the sequence holds, the state is a one-to-one image of the input ... *)
Theorem C92_bijection : forall count, bijective count (seed count).
Proof.
  intro n. apply (bijective_ext n (fun l => seed n (l ++ []))); [|apply seed_more].
  intros l _. rewrite app_nil_r. reflexivity.
Qed.
Print Assumptions C92_bijection.

(** ... also if there are more words: for any additional words the state is a one-to-one image
    of the first ones, so all states occur equally often. *)
Theorem C92_more : forall count tail, bijective count (fun head => seed count (head ++ tail)).
Proof. exact seed_more. Qed.
Print Assumptions C92_more.

(** With fewer words, different words give different states. *)
Theorem C92_fewer : forall count l l',
  (length l <= count)%nat -> length l = length l' -> Forall is_word l -> Forall is_word l' ->
  seed count l = seed count l' -> l = l'.
Proof.
  intros n l l' L E F F' H. rewrite (seed_short n l L), (seed_short n l') in H by lia.
  apply (C92_bijection n) in H; [|apply padded_words; assumption|apply padded_words; [lia|assumption]].
  rewrite E in H. apply app_inv_tail in H. exact H.
Qed.
Print Assumptions C92_fewer.

(** param: the words it returns are the ones the sequence was seeded with, if these were exactly
    [count] words; in every case seeding with them gives the same state again. *)
Theorem C92_param : forall count l, words count l -> param count (seed count l) = l.
Proof. exact param_seed. Qed.
Print Assumptions C92_param.
Theorem C92_param_again : forall count l, Forall is_word l ->
  words count (param count (seed count l)) /\ seed count (param count (seed count l)) = seed count l.
Proof. intros n l F. apply seed_param, seed_any_words, F. Qed.
Print Assumptions C92_param_again.

(** generate: [count] words are a one-to-one image of the state; so different seeds give
    different words to everything that asks for at least [count] of them. *)
Theorem C92_generate : forall count, bijective count (fun m => generate m count).
Proof. exact generate_bijective. Qed.
Print Assumptions C92_generate.
Theorem C92_different : forall count k s s', (count <= k)%nat -> words count s -> words count s' ->
  generate (seed count s) k = generate (seed count s') k -> s = s'.
Proof.
  intros n k s s' Hk W W' E. apply generate_injective with (n := n) in E; [|exact Hk|apply seed_words, W|apply seed_words, W'].
  apply (C92_bijection n) in E; assumption.
Qed.
Print Assumptions C92_different.
(** As many words as asked for; they use the words of the state one after the other, beginning
    again with the first one after the last. *)
Theorem C92_cyclic : forall count k i m m', words count m -> words count m' -> (0 < count)%nat -> (i < k)%nat ->
  length (generate m k) = k /\
  (nth_error (generate m k) i = nth_error (generate m' k) i <-> nth_error m (i mod count) = nth_error m' (i mod count)).
Proof. intros n k i m m' W W' Hn Hi. split; [apply generate_length|apply generate_cyclic; assumption]. Qed.
Print Assumptions C92_cyclic.
Example C92_cyclic_case : words 2 [1; 2] /\ words 2 [1; 3] /\
  nth_error (generate [1; 2] 3) 2 = nth_error (generate [1; 3] 3) 2 /\ nth_error (generate [1; 2] 4) 3 <> nth_error (generate [1; 3] 4) 3.
Proof. split; [|split; [|split]]; try (split; [reflexivity|repeat constructor; try reflexivity; discriminate]); [reflexivity|]. vm_compute. discriminate. Qed.

(** fast_exp, as used for the inverse factors. *)
Theorem C92_power : forall x p, is_word p -> fast_exp x p = (x ^ p) mod 2 ^ 32.
Proof. exact fast_exp_power. Qed.
Print Assumptions C92_power.
Theorem C92_inverse : forall x, Z.odd x = true -> (x * fast_exp x (2 ^ 32 - 1)) mod 2 ^ 32 = 1.
Proof. exact inverse. Qed.
Print Assumptions C92_inverse.

(** Eleven words of entropy for eight words of state, as in make_random_seed. *)
Lemma small_words l : forallb (fun x => (0 <=? x) && (x <? 4294967296))%bool l = true -> Forall is_word l.
Proof.
  intro H. apply Forall_forall. intros x Hx. rewrite forallb_forall in H. specialize (H x Hx).
  apply andb_true_iff in H. destruct H as [A B]. apply Z.leb_le in A. apply Z.ltb_lt in B. split; assumption.
Qed.
Example C92_case :
  let entropy := [1; 2; 3; 4; 5; 6; 7; 8; 9; 10; 4294967295] in
  Forall is_word entropy /\
  make_random_seed entropy
  = [1670248452; 1172093453; 3135934431; 3284314293; 3803595979; 3227688466; 2123535005; 3956549057] /\
  seed 8 (make_random_seed entropy) = seed 8 entropy /\
  words 8 [1; 2; 3; 4; 5; 6; 7; 8] /\
  generate (seed 8 [1; 2; 3; 4; 5; 6; 7; 8]) 8
  = [3624138193; 1951703603; 1001972351; 3292938895; 2505962709; 1760306452; 3649482736; 355691353].
Proof.
  cbv zeta. split; [apply small_words; reflexivity|]. split; [vm_compute; reflexivity|].
  split; [apply C92_param_again; apply small_words; reflexivity|].
  split; [split; [reflexivity|apply small_words; reflexivity]|]. vm_compute. reflexivity.
Qed.

(** ** C93: the seed in the results repeats a stochastic run *)

(** A node without a given seed writes a seed of eight words to its output; a node built from
    this seed has the same random number generator, whatever entropy the second run finds, and
    writes the same seed. *)
Theorem C93_reproducible :
  forall G (pcg : (nat -> list Z) -> G) entropy entropy' v g out,
    Forall is_word entropy ->
    stochastic_node pcg entropy v = Ok (g, out) ->
    length out = 8%nat /\ seed_schema (Listed out) = true /\
    stochastic_node pcg entropy' (Listed out) = Ok (g, out).
Proof.
  intros G pcg entropy entropy' v g out F H.
  assert (M : words 8 (make_random_seed entropy)) by (apply seed_param, seed_any_words, F).
  assert (K : exists s, words 8 s /\ g = setup_random_number_generator pcg s /\ out = map Integer s).
  { unfold stochastic_node, normaldistribution in H. revert M H. generalize (make_random_seed entropy). intros s0 M H.
    revert H. generalize (setup_random_number_generator pcg). intros gen H.
    destruct v as [|l|]; try discriminate.
    - injection H as <- <-. exists s0. split; [exact M|split; reflexivity].
    - destruct (get_array pcg_seed_count l) as [s| |] eqn:E; try discriminate. cbn [omap] in H.
      injection H as <- <-. exists s. split; [apply (get_array_words 8 l s E)|split; reflexivity]. }
  destruct K as [s [[L Fs] [-> ->]]]. split; [rewrite map_length; exact L|]. split.
  - cbn [seed_schema]. clear. induction s; cbn; auto.
  - cbn [stochastic_node]. pose proof (read_words s Fs []) as R. rewrite app_nil_r, L in R.
    change pcg_seed_count with 8%nat. rewrite R. reflexivity.
Qed.
Print Assumptions C93_reproducible.

(** The random seed loses nothing: the generator is the one that the collected entropy itself
    would give. *)
Theorem C93_entropy :
  forall G (pcg : (nat -> list Z) -> G) entropy,
    Forall is_word entropy ->
    setup_random_number_generator pcg (make_random_seed entropy) = pcg (generate (seed 8 entropy)).
Proof.
  intros G pcg entropy F. unfold setup_random_number_generator, make_random_seed. change pcg_seed_count with 8%nat.
  destruct (C92_param_again 8 entropy F) as [_ E]. rewrite E. reflexivity.
Qed.
Print Assumptions C93_entropy.

(** Without a seed the constructor never fails; with a list of eight or more integers the first
    eight, reduced modulo 2^32, are the seed. *)
Theorem C93_absent :
  forall G (pcg : (nat -> list Z) -> G) entropy, exists r, stochastic_node pcg entropy Absent = Ok r.
Proof. intros. eexists. reflexivity. Qed.
Print Assumptions C93_absent.
Theorem C93_integers :
  forall G (pcg : (nat -> list Z) -> G) entropy l rest, length l = 8%nat ->
    stochastic_node pcg entropy (Listed (map Integer l ++ rest))
    = Ok (setup_random_number_generator pcg (map (fun z => z mod 2 ^ 32) l),
          map (fun z => Integer (z mod 2 ^ 32)) l).
Proof.
  intros G pcg entropy l rest L. cbn [stochastic_node].
  assert (E : forall k l, length l = k -> get_array k (map Integer l ++ rest) = Ok (map (fun z => z mod 2 ^ 32) l)).
  { induction k as [|k IH]; intros [|z r] Lr; try discriminate; [reflexivity|]. injection Lr as Lr.
    cbn [map app get_array get_uint32 obind]. rewrite (IH r Lr). reflexivity. }
  change pcg_seed_count with 8%nat. rewrite (E 8%nat l L). cbn [omap obind normaldistribution]. rewrite map_map. reflexivity.
Qed.
Print Assumptions C93_integers.

(** A seed that is not a list of numbers is rejected by the schema; but the schema also accepts
    lists that are too short, for which the constructor throws, and numbers for which the
    conversion is undefined. *)
Theorem C93_accepted_refuted :
  exists l, seed_schema (Listed l) = true /\ length l = 8%nat /\
    forall G (pcg : (nat -> list Z) -> G) entropy, stochastic_node pcg entropy (Listed l) = UB.
Proof.
  exists (Floating (-2) :: repeat (Integer 1) 7). split; [reflexivity|]. split; [reflexivity|].
  intros G pcg entropy. cbn [stochastic_node]. change pcg_seed_count with 8%nat. cbn [get_array get_uint32].
  assert (T : truncate (-2) = -2).
  { unfold truncate. destruct (Rlt_dec (-2) 0); [|lra]. replace (- -2)%R with (IZR 2) by (cbn; lra).
    rewrite <- (up_tech 2 2) by (cbn; lra). reflexivity. }
  rewrite T. reflexivity.
Qed.
Print Assumptions C93_accepted_refuted.
Theorem C93_short_refuted :
  exists l, seed_schema (Listed l) = true /\
    forall G (pcg : (nat -> list Z) -> G) entropy, stochastic_node pcg entropy (Listed l) = Exc.
Proof. exists [Integer 1; Integer 2]. split; reflexivity. Qed.
Print Assumptions C93_short_refuted.

Example C93_case :
  let entropy := [1; 2; 3; 4; 5; 6; 7; 8; 9; 10; 4294967295] in
  let out := map Integer [1670248452; 1172093453; 3135934431; 3284314293; 3803595979; 3227688466; 2123535005; 3956549057] in
  Forall is_word entropy /\
  exists g, stochastic_node (fun generated => generated 8%nat) entropy Absent = Ok (g, out) /\
    stochastic_node (fun generated => generated 8%nat) [5] (Listed out) = Ok (g, out).
Proof.
  cbv zeta. split; [apply small_words; reflexivity|]. eexists. split; vm_compute; reflexivity.
Qed.
