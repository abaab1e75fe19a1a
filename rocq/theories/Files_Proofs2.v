(** * Creating files, names and paths *)
From Coq Require Import List Bool Arith String Ascii Lia.
From Coq Require DecimalString DecimalNat DecimalFacts.
From Verif Require Import Base Json_Model Files_Model Files_Spec Files_Proofs.
Import ListNotations.
Local Open Scope string_scope.
Local Open Scope list_scope.

(** ** Creation *)
Lemma create_exclusive_some : forall o i d n d', create_exclusive o i d n = Some d' ->
  denied o i = false /\ d n = None /\ d' = put d n (Some (EFile "")).
Proof.
  intros o i d n d' H. unfold create_exclusive, exists_ in H. destruct (denied o i); [discriminate|].
  destruct (d n); [discriminate|]. injection H as <-. auto.
Qed.
Lemma create_exclusive_none : forall o i d n, create_exclusive o i d n = None <-> denied o i = true \/ exists_ d n = true.
Proof.
  intros o i d n. unfold create_exclusive. rewrite <- orb_true_iff. destruct (denied o i || exists_ d n)%bool; split; congruence.
Qed.

Fixpoint later (o : others) (d : directory) (i k : nat) : directory :=
  match k with O => act o i d | S k' => later o (act o i d) (S i) k' end.
Lemma later_S : forall k o d i, later o d i (S k) = act o (i + S k) (later o d i k).
Proof.
  induction k as [|k IH]; intros o d i.
  - cbn. rewrite Nat.add_1_r. reflexivity.
  - change (later o d i (S (S k))) with (later o (act o i d) (S i) (S k)). rewrite IH.
    change (later o (act o i d) (S i) k) with (later o d i (S k)). f_equal. lia.
Qed.
Lemma later_moment : forall k o d, later o d 0 k = moment o d k.
Proof. induction k as [|k IH]; intros o d; [reflexivity|]. rewrite later_S, IH. reflexivity. Qed.

Lemma create_tries_ok : forall fuel o i d g n d1 d2, create_tries fuel o i d g = Ok (n, d1, d2) ->
  exists k, (k < fuel)%nat /\ n = g (i + k)%nat /\ d1 = later o d i k /\ d1 n = None /\ d2 = put d1 n (Some (EFile "")) /\
    denied o (i + k) = false /\ forall j, (j < k)%nat -> denied o (i + j) = true \/ exists_ (later o d i j) (g (i + j)%nat) = true.
Proof.
  induction fuel as [|f IH]; intros o i d g n d1 d2 H; [discriminate|]. cbn [create_tries] in H.
  destruct (create_exclusive o i (act o i d) (g i)) as [d'|] eqn:E.
  - injection H as <- <- <-. destruct (create_exclusive_some _ _ _ _ _ E) as (D & N & ->).
    exists 0%nat. rewrite Nat.add_0_r. split; [lia|]. repeat (split; [first [reflexivity|assumption]|]). intros j Hj; lia.
  - destruct (IH _ _ _ _ _ _ _ H) as (k & Hk & -> & -> & N & -> & D & J). exists (S k).
    replace (i + S k)%nat with (S i + k)%nat by lia. split; [lia|]. repeat (split; [first [reflexivity|assumption]|]).
    intros [|j] Hj.
    + rewrite Nat.add_0_r. cbn [later]. apply create_exclusive_none. exact E.
    + replace (i + S j)%nat with (S i + j)%nat by lia. change (later o d i (S j)) with (later o (act o i d) (S i) j).
      apply J. lia.
Qed.
Lemma create_tries_exc : forall fuel o i d g, create_tries fuel o i d g <> UB /\
  (create_tries fuel o i d g = Exc <->
   forall j, (j < fuel)%nat -> denied o (i + j) = true \/ exists_ (later o d i j) (g (i + j)%nat) = true).
Proof.
  induction fuel as [|f IH]; intros o i d g.
  - cbn. split; [discriminate|]. split; [intros _ j Hj; lia|reflexivity].
  - cbn [create_tries]. destruct (create_exclusive o i (act o i d) (g i)) as [d'|] eqn:E.
    + split; [discriminate|]. split; [discriminate|]. intros H. exfalso. specialize (H 0%nat ltac:(lia)).
      rewrite Nat.add_0_r in H. cbn [later] in H. apply create_exclusive_none in H. congruence.
    + destruct (IH o (S i) (act o i d) g) as [U X]. split; [exact U|]. rewrite X. split; intros H j Hj.
      * destruct j as [|j].
        -- rewrite Nat.add_0_r. cbn [later]. apply create_exclusive_none. exact E.
        -- replace (i + S j)%nat with (S i + j)%nat by lia. apply (H j). lia.
      * specialize (H (S j) ltac:(lia)). replace (i + S j)%nat with (S i + j)%nat in H by lia. exact H.
Qed.

Lemma directory_tries_ok : forall fuel o i d g n d1 d2, directory_tries fuel o i d g = Ok (n, d1, d2) ->
  exists k, (k < fuel)%nat /\ n = g (i + k)%nat /\ d1 = later o d i k /\ d1 n = None /\ d2 = put d1 n (Some (EDir true)).
Proof.
  induction fuel as [|f IH]; intros o i d g n d1 d2 H; [discriminate|]. cbn [directory_tries] in H.
  unfold create_directory in H. destruct (denied o i); [discriminate|].
  destruct (act o i d (g i)) as [[c|b]|] eqn:E; cbn [obind fst snd] in H; [discriminate| |].
  - destruct (IH _ _ _ _ _ _ _ H) as (k & Hk & -> & -> & N & ->). exists (S k).
    replace (i + S k)%nat with (S i + k)%nat by lia. split; [lia|]. repeat (split; [first [reflexivity|assumption]|]). reflexivity.
  - injection H as <- <- <-. exists 0%nat. rewrite Nat.add_0_r. split; [lia|].
    repeat (split; [first [reflexivity|assumption]|]). reflexivity.
Qed.
Lemma directory_tries_no_ub : forall fuel o i d g, directory_tries fuel o i d g <> UB.
Proof.
  induction fuel as [|f IH]; intros o i d g; [discriminate|]. cbn [directory_tries]. unfold create_directory.
  destruct (denied o i); [discriminate|]. destruct (act o i d (g i)) as [[c|b]|]; cbn [obind fst snd]; [discriminate|apply IH|discriminate].
Qed.
(** With directories only and nothing denied it fails only if all names are taken. *)
Lemma directory_tries_exc : forall fuel o i d g,
  (forall j, denied o j = false) -> (forall j n c, later o d i j n <> Some (EFile c)) ->
  (directory_tries fuel o i d g = Exc <-> forall j, (j < fuel)%nat -> exists_ (later o d i j) (g (i + j)%nat) = true).
Proof.
  induction fuel as [|f IH]; intros o i d g D F.
  - cbn. split; [intros _ j Hj; lia|reflexivity].
  - cbn [directory_tries]. unfold create_directory. rewrite D. pose proof (F 0%nat (g i)) as F0. cbn [later] in F0.
    destruct (act o i d (g i)) as [[c|b]|] eqn:E; cbn [obind fst snd].
    + exfalso. apply (F0 c eq_refl).
    + rewrite IH; [|exact D|intros j n c; apply (F (S j) n c)]. split; intros H j Hj.
      * destruct j as [|j]; [rewrite Nat.add_0_r; cbn [later]; unfold exists_; rewrite E; reflexivity|].
        replace (i + S j)%nat with (S i + j)%nat by lia. apply (H j). lia.
      * specialize (H (S j) ltac:(lia)). replace (i + S j)%nat with (S i + j)%nat in H by lia. exact H.
    + split; [discriminate|]. intros H. exfalso. specialize (H 0%nat ltac:(lia)). rewrite Nat.add_0_r in H. cbn [later] in H.
      unfold exists_ in H. rewrite E in H. discriminate.
Qed.

Definition undisturbed (o : others) : Prop := forall i d, act o i d = d.
Lemma create_files_ok : forall names o i d d', undisturbed o -> create_files o i d names = Ok d' ->
  NoDup names /\ (forall n, In n names -> d n = None /\ d' n = Some (EFile "")) /\ (forall n, ~ In n names -> d' n = d n).
Proof.
  induction names as [|n names IH]; intros o i d d' U H.
  - cbn in H. injection H as <-. split; [constructor|]. split; [intros n []|reflexivity].
  - cbn [create_files] in H. rewrite U in H. destruct (create_exclusive o i d n) as [d1|] eqn:E; [|discriminate].
    destruct (create_exclusive_some _ _ _ _ _ E) as (D & N & ->). destruct (IH _ _ _ _ U H) as (ND & A & B).
    assert (NI : ~ In n names). { intros I. destruct (A n I) as [A1 _]. rewrite put_same in A1. discriminate. }
    split; [constructor; assumption|]. split.
    + intros m [<-|I].
      * split; [exact N|]. rewrite (B n NI). apply put_same.
      * destruct (A m I) as [A1 A2]. split; [|exact A2]. rewrite put_other in A1; [exact A1|]. intros ->. contradiction.
    + intros m I. rewrite B; [|intros J; apply I; right; exact J]. apply put_other. intros ->. apply I. left; reflexivity.
Qed.
Lemma create_files_succeeds : forall names o i d, undisturbed o -> (forall j, denied o j = false) ->
  NoDup names -> (forall n, In n names -> d n = None) -> exists d', create_files o i d names = Ok d'.
Proof.
  induction names as [|n names IH]; intros o i d U D ND F; [exists d; reflexivity|]. cbn [create_files]. rewrite U.
  unfold create_exclusive, exists_. rewrite D, (F n (or_introl eq_refl)). cbn. inversion ND; subst. apply IH; auto.
  intros m I. rewrite put_other; [apply F; right; exact I|]. intros ->. contradiction.
Qed.

(** ** Names *)
Lemma append_assoc : forall a b c : string, ((a ++ b) ++ c)%string = (a ++ b ++ c)%string.
Proof. induction a as [|x a IH]; intros b c; [reflexivity|]. cbn. rewrite IH. reflexivity. Qed.
Lemma append_inj_l : forall a b c : string, (a ++ b)%string = (a ++ c)%string -> b = c.
Proof. induction a as [|x a IH]; intros b c H; [exact H|]. cbn in H. injection H as H. apply IH, H. Qed.
Lemma length_append : forall a b, String.length (a ++ b) = (String.length a + String.length b)%nat.
Proof. induction a as [|x a IH]; intros b; [reflexivity|]. cbn. rewrite IH. reflexivity. Qed.
Lemma append_inj_r : forall a b c : string, (a ++ c)%string = (b ++ c)%string -> a = b.
Proof.
  induction a as [|x a IH]; intros [|y b] c H; [reflexivity| | |].
  - exfalso. apply (f_equal String.length) in H. rewrite !length_append in H. cbn in H. lia.
  - exfalso. apply (f_equal String.length) in H. rewrite !length_append in H. cbn in H. lia.
  - cbn in H. injection H as -> H. rewrite (IH b c H). reflexivity.
Qed.
Lemma append_nil_r : forall a, (a ++ "")%string = a.
Proof. induction a as [|x a IH]; [reflexivity|]. cbn. rewrite IH. reflexivity. Qed.

Lemma to_string_inj : forall a b, to_string a = to_string b -> a = b.
Proof.
  intros a b H. unfold to_string in H.
  assert (E : Nat.to_uint a = Nat.to_uint b).
  { pose proof (DecimalString.NilZero.usu (Nat.to_uint a)) as Ha. pose proof (DecimalString.NilZero.usu (Nat.to_uint b)) as Hb.
    assert (NZ : forall k, Nat.to_uint k <> Decimal.Nil).
    { intros k K. pose proof (DecimalNat.Unsigned.of_to k) as X. rewrite K in X. cbn in X. subst k. discriminate. }
    specialize (Ha (NZ a)). specialize (Hb (NZ b)). rewrite H in Ha. congruence. }
  apply DecimalNat.Unsigned.to_uint_inj. exact E.
Qed.

Lemma epoch_inj : forall f a b, attach_epoch_count f a = attach_epoch_count f b -> a = b.
Proof.
  intros f a b H. unfold attach_epoch_count in H. apply append_inj_l in H.
  apply append_inj_l in H. apply append_inj_r in H. apply to_string_inj, H.
Qed.

Lemma last_dot_app : forall a b, last_dot (a ++ b) =
  match last_dot b with Some k => Some (String.length a + k)%nat | None => last_dot a end.
Proof.
  induction a as [|c a IH]; intros b.
  - cbn. destruct (last_dot b); reflexivity.
  - cbn [append last_dot String.length]. rewrite IH. destruct (last_dot b) as [k|]; [reflexivity|]. reflexivity.
Qed.
Lemma uint_no_dot : forall u, last_dot (DecimalString.NilEmpty.string_of_uint u) = None.
Proof. induction u; cbn; try rewrite IHu; reflexivity. Qed.
Lemma number_no_dot : forall k, last_dot (to_string k) = None.
Proof. intros k. unfold to_string, DecimalString.NilZero.string_of_uint. destruct (Nat.to_uint k); try reflexivity; apply uint_no_dot. Qed.
Lemma substring_app_r : forall a b, substring (String.length a) (String.length b) (a ++ b) = b.
Proof.
  induction a as [|c a IH]; intros b; [|cbn; apply IH]. cbn. induction b as [|x b IH]; cbn; [reflexivity|rewrite IH; reflexivity].
Qed.
Lemma split_at : forall n k, (k <= String.length n)%nat ->
  n = (substring 0 k n ++ substring k (String.length n - k) n)%string.
Proof.
  induction n as [|c n IH]; intros k H; cbn in H.
  - assert (k = 0)%nat by lia. subst. reflexivity.
  - destruct k as [|k].
    + cbn. f_equal. clear. induction n as [|x n IH]; cbn; [reflexivity|]. rewrite IH at 1. reflexivity.
    + cbn. f_equal. apply IH. lia.
Qed.
Lemma substring_len : forall n k, (k <= String.length n)%nat -> String.length (substring 0 k n) = k.
Proof.
  induction n as [|c n IH]; intros k H; cbn in H; destruct k as [|k]; cbn; try reflexivity; [lia|]. rewrite IH; lia.
Qed.
Lemma last_dot_lt : forall n k, last_dot n = Some k -> (k < String.length n)%nat.
Proof.
  induction n as [|c n IH]; intros k H; [discriminate|]. cbn in H. destruct (last_dot n) as [j|].
  - injection H as <-. specialize (IH j eq_refl). cbn. lia.
  - destruct (ascii_dec c "."%char); [|discriminate]. injection H as <-. cbn. lia.
Qed.
Lemma extension_dot : forall n k, last_dot n = Some k -> last_dot (substring k (String.length n - k) n) = Some 0%nat.
Proof.
  intros n k H. pose proof (last_dot_lt _ _ H) as L. pose proof (split_at n k ltac:(lia)) as S.
  pose proof (last_dot_app (substring 0 k n) (substring k (String.length n - k) n)) as A. rewrite <- S, H in A.
  rewrite substring_len in A by lia. destruct (last_dot (substring k (String.length n - k) n)) as [j|].
  - injection A as A. f_equal. lia.
  - symmetry in A. apply last_dot_lt in A. rewrite substring_len in A; lia.
Qed.
Lemma stem_extension : forall n, n = (stem n ++ extension n)%string.
Proof.
  intros n. unfold stem, extension. destruct (last_dot n) as [[|k]|] eqn:E; try (symmetry; apply append_nil_r).
  apply split_at. apply last_dot_lt in E. lia.
Qed.
Lemma epoch_extension : forall f ms, f <> "" -> extension (attach_epoch_count f ms) = extension f.
Proof.
  intros f ms NE. unfold attach_epoch_count.
  assert (M : last_dot ("_" ++ to_string ms) = None) by (cbn; rewrite number_no_dot; reflexivity).
  unfold stem, extension at 2 3. destruct (last_dot f) as [[|k]|] eqn:E.
  - rewrite append_nil_r. unfold extension. rewrite last_dot_app, M, E. reflexivity.
  - set (ext := substring (S k) (String.length f - S k) f).
    set (st := substring 0 (S k) f).
    assert (D : last_dot ext = Some 0%nat) by (apply extension_dot; exact E).
    replace (st ++ "_" ++ to_string ms ++ ext)%string with ((st ++ "_" ++ to_string ms) ++ ext)%string
      by (rewrite !append_assoc; reflexivity).
    unfold extension. rewrite last_dot_app, D, Nat.add_0_r, !length_append.
    destruct (String.length st + (String.length "_" + String.length (to_string ms)))%nat as [|l] eqn:L; [cbn in L; lia|].
    replace (S l + String.length ext - S l)%nat with (String.length ext) by lia. rewrite <- L.
    replace (String.length st + (String.length "_" + String.length (to_string ms)))%nat with (String.length (st ++ "_" ++ to_string ms))
      by (rewrite !length_append; reflexivity).
    apply substring_app_r.
  - rewrite append_nil_r. unfold extension. rewrite last_dot_app, M, E. reflexivity.
Qed.

(** ** Paths *)
Lemma normal_walk : forall p acc, List.Forall (fun x => x <> "..") acc -> normal_loop true acc p = walk (rev acc) p.
Proof.
  induction p as [|x p IH]; intros acc F; [reflexivity|]. cbn [normal_loop walk].
  destruct (String.eqb_spec x "") as [->|N1].
  - rewrite orb_true_r. apply IH, F.
  - destruct (String.eqb_spec x ".") as [->|N2]; [cbn [orb]; apply IH, F|]. cbn [orb].
    destruct (String.eqb_spec x "..") as [->|N3].
    + destruct acc as [|y acc]; [cbn; apply (IH []); constructor|]. inversion F; subst.
      destruct (String.eqb_spec y ".."); [congruence|]. rewrite (IH acc) by assumption. cbn [rev].
      rewrite removelast_last. reflexivity.
    + rewrite IH by (constructor; assumption). reflexivity.
Qed.
Lemma walk_app : forall p q place, walk place (p ++ q) = walk (walk place p) q.
Proof. induction p as [|x p IH]; intros q place; [reflexivity|]. cbn. apply IH. Qed.
Lemma walk_plain : forall p place, List.Forall plain p -> walk place p = place ++ p.
Proof.
  induction p as [|x p IH]; intros place F; [symmetry; apply app_nil_r|]. inversion F as [|? ? (N1 & N2 & N3) F2]; subst. cbn [walk].
  destruct (String.eqb_spec x ""); [congruence|]. destruct (String.eqb_spec x "."); [congruence|].
  destruct (String.eqb_spec x ".."); [congruence|]. rewrite IH by assumption. rewrite <- app_assoc. reflexivity.
Qed.
Lemma Forall_removelast : forall {A} (P : A -> Prop) l, List.Forall P l -> List.Forall P (removelast l).
Proof.
  intros A P l F. destruct l as [|x l]; [constructor|]. rewrite (app_removelast_last x) in F by discriminate.
  apply Forall_app in F. apply F.
Qed.
Lemma walk_result_plain : forall p place, List.Forall plain place -> List.Forall plain (walk place p).
Proof.
  induction p as [|x p IH]; intros place F; [exact F|]. cbn [walk]. apply IH.
  destruct (String.eqb_spec x ""); [exact F|]. destruct (String.eqb_spec x "."); [exact F|].
  destruct (String.eqb_spec x ".."); [apply Forall_removelast, F|]. apply Forall_app. split; [exact F|].
  constructor; [split; [assumption|split; assumption]|constructor].
Qed.

Lemma mismatch_prefix : forall a b, mismatch_at_end a b = Ok true <-> exists c, b = a ++ c.
Proof.
  induction a as [|x a IH]; intros b.
  - cbn. split; [intros _; exists b; reflexivity|reflexivity].
  - destruct b as [|y b]; cbn.
    + split; [discriminate|intros (c & H); discriminate].
    + destruct (String.eqb_spec x y) as [->|N].
      * rewrite IH. split; intros (c & H); exists c; congruence.
      * split; [discriminate|]. intros (c & H). congruence.
Qed.
Lemma mismatch_ub : forall a b, mismatch_at_end a b = UB <-> exists c, c <> [] /\ a = b ++ c.
Proof.
  induction a as [|x a IH]; intros b.
  - cbn. split; [discriminate|]. intros (c & N & H). symmetry in H. apply app_eq_nil in H. destruct H; congruence.
  - destruct b as [|y b]; cbn.
    + split; [intros _; exists (x :: a); split; [discriminate|reflexivity]|reflexivity].
    + destruct (String.eqb_spec x y) as [->|N].
      * rewrite IH. split; intros (c & NC & H); exists c; split; congruence.
      * split; [discriminate|]. intros (c & NC & H). congruence.
Qed.
Lemma mismatch_no_exc : forall a b, mismatch_at_end a b <> Exc.
Proof.
  induction a as [|x a IH]; intros [|y b]; cbn; try discriminate. destruct (String.eqb x y); [apply IH|discriminate].
Qed.

(** The last element of a path says that it is a directory. *)
Definition body (p : path) : path := if is_absolute p then tl p else p.
Lemma last_plain : forall l d, List.Forall plain l -> l <> [] -> plain (last l d).
Proof.
  intros l d F N. destruct (last_in l d) as [[H _]|I]; [congruence|]. apply (proj1 (Forall_forall _ _) F). exact I.
Qed.
Lemma strip_root : forall comps, List.Forall plain comps -> strip_slash ("/" :: comps) = "/" :: comps.
Proof.
  intros comps F. unfold strip_slash. destruct comps as [|c comps]; [reflexivity|].
  change (last ("/" :: c :: comps) "x") with (last (c :: comps) "x").
  destruct (last_plain (c :: comps) "x" F ltac:(discriminate)) as (N & _ & _).
  destruct (String.eqb_spec (last (c :: comps) "x") ""); [congruence|reflexivity].
Qed.
Lemma last_default' : forall (p q : path) d, q <> [] -> last (p ++ q) d = last q d.
Proof.
  induction p as [|a p IH]; intros q d N; [reflexivity|]. cbn. rewrite IH; [|exact N].
  destruct (p ++ q) eqn:E; [|reflexivity]. apply app_eq_nil in E. destruct E; congruence.
Qed.

Lemma normal_abs : forall b, lexically_normal ("/" :: b) =
  "/" :: (walk [] b ++ (if (ends_as_directory b && negb (match walk [] b with [] => true | _ => false end))%bool then [""] else [])).
Proof.
  intros b. cbn [lexically_normal is_absolute]. rewrite String.eqb_refl.
  rewrite (normal_walk b [] ltac:(constructor)). cbn [rev]. f_equal.
  destruct (walk [] b) as [|x l] eqn:W.
  - cbn. rewrite andb_false_r. reflexivity.
  - assert (P : plain (last (x :: l) "..")).
    { apply last_plain; [|discriminate]. rewrite <- W. apply walk_result_plain. constructor. }
    destruct P as (_ & _ & P). destruct (String.eqb_spec (last (x :: l) "..") ".."); [congruence|].
    destruct (ends_as_directory b); cbn; [reflexivity|]. rewrite app_nil_r. reflexivity.
Qed.

(** What is compared with the root. *)
Definition place_and_mark (root : list string) (p : path) : path :=
  leads_to root p ++
  (if (match p with [] => true | _ => ends_as_directory (body p) end && negb (match leads_to root p with [] => true | _ => false end))%bool
   then [""] else []).
Lemma normal_of_slash : forall root p, List.Forall plain root ->
  lexically_normal (slash ("/" :: root) p) = "/" :: place_and_mark root p.
Proof.
  intros root p F. assert (W0 : walk [] root = root) by (rewrite (walk_plain root [] F); reflexivity).
  destruct p as [|x p].
  - unfold place_and_mark, slash. cbn [is_absolute leads_to]. rewrite String.eqb_refl. destruct root as [|r root].
    + cbn [List.length Nat.eqb andb]. rewrite normal_abs. reflexivity.
    + cbn [List.length Nat.eqb andb]. rewrite (strip_root _ F).
      change (("/" :: r :: root) ++ [""]) with ("/" :: ((r :: root) ++ [""])). rewrite normal_abs, walk_app, W0.
      cbn [walk]. rewrite String.eqb_refl. unfold ends_as_directory. rewrite last_last. cbn. reflexivity.
  - unfold place_and_mark, slash, body, leads_to. cbn [is_absolute]. destruct (String.eqb_spec x "/") as [->|N].
    + rewrite normal_abs. reflexivity.
    + rewrite (strip_root _ F). change (("/" :: root) ++ x :: p) with ("/" :: (root ++ x :: p)).
      rewrite normal_abs, walk_app, W0. unfold ends_as_directory. rewrite last_default' by discriminate. reflexivity.
Qed.
Lemma in_root_eq : forall root p, List.Forall plain root ->
  absolute_file_path_in_root ("/" :: root) p = mismatch_at_end root (place_and_mark root p).
Proof.
  intros root p F. unfold absolute_file_path_in_root. rewrite (normal_of_slash root p F). cbn [mismatch_at_end].
  rewrite String.eqb_refl. reflexivity.
Qed.
Lemma prefix_mark : forall root place mark, List.Forall plain root -> mark = [] \/ mark = [""] ->
  (exists c, place ++ mark = root ++ c) <-> inside root place.
Proof.
  intros root place mark F M. split.
  - intros (c & E). destruct M as [-> | ->]; [rewrite app_nil_r in E; exists c; exact E|].
    destruct (list_eq_dec String.string_dec c []) as [->|NC].
    + rewrite app_nil_r in E. exfalso.
      assert (plain "") as (H & _); [|congruence]. apply (proj1 (Forall_forall _ _) F). rewrite <- E.
      apply in_or_app. right. left; reflexivity.
    + exists (removelast c). rewrite (app_removelast_last "" NC), app_assoc in E. apply app_inj_tail in E. apply E.
  - intros (c & ->). exists (c ++ mark). rewrite app_assoc. reflexivity.
Qed.

(** ** The key "$schema" *)
Fixpoint lookup (fs : list (string * json)) (k : string) : option json :=
  match fs with [] => None | (k', v) :: rest => if String.eqb k' k then Some v else lookup rest k end.
Lemma ordered_set_lookup : forall fs k v k', lookup (ordered_set fs k v) k' = if String.eqb k k' then Some v else lookup fs k'.
Proof.
  induction fs as [|[a b] fs IH]; intros k v k'; cbn [ordered_set lookup]; [reflexivity|].
  destruct (String.eqb_spec a k) as [->|N]; cbn [lookup].
  - destruct (String.eqb k k'); reflexivity.
  - rewrite IH. destruct (String.eqb_spec a k') as [->|N2]; [|reflexivity].
    destruct (String.eqb_spec k k'); [congruence|reflexivity].
Qed.
Lemma ordered_set_keys : forall fs k v, map fst (ordered_set fs k v) =
  if existsb (String.eqb k) (map fst fs) then map fst fs else map fst fs ++ [k].
Proof.
  induction fs as [|[a b] fs IH]; intros k v; cbn [ordered_set map fst existsb]; [reflexivity|].
  rewrite (String.eqb_sym k a). destruct (String.eqb_spec a k) as [->|N]; [reflexivity|]. cbn [map fst orb]. rewrite IH.
  destruct (existsb (String.eqb k) (map fst fs)); reflexivity.
Qed.

Definition set_all (acc old : list (string * json)) : list (string * json) :=
  fold_left (fun result kv => ordered_set result (fst kv) (snd kv)) old acc.
Lemma ordered_set_new : forall fs k v, ~ In k (map fst fs) -> ordered_set fs k v = fs ++ [(k, v)].
Proof.
  induction fs as [|[a b] fs IH]; intros k v N; [reflexivity|]. cbn [ordered_set]. cbn in N.
  destruct (String.eqb_spec a k); [exfalso; apply N; left; assumption|]. rewrite IH; [reflexivity|tauto].
Qed.
Lemma set_all_new : forall old acc, NoDup (map fst old) -> (forall k, In k (map fst old) -> ~ In k (map fst acc)) ->
  set_all acc old = acc ++ old.
Proof.
  induction old as [|[k v] old IH]; intros acc ND D; [symmetry; apply app_nil_r|]. cbn [set_all fold_left fst snd].
  fold (set_all (ordered_set acc k v) old). cbn in ND. inversion ND; subst.
  rewrite ordered_set_new by (apply D; left; reflexivity). rewrite IH.
  - rewrite <- app_assoc. reflexivity.
  - assumption.
  - intros k' I. rewrite map_app. intros J. apply in_app_or in J. destruct J as [J|[J|[]]].
    + apply (D k'); [right; exact I|exact J].
    + cbn in J. subst. contradiction.
Qed.
Lemma set_all_app : forall a b acc, set_all acc (a ++ b) = set_all (set_all acc a) b.
Proof. intros. unfold set_all. apply fold_left_app. Qed.
Lemma insert_absent : forall type old, NoDup (map fst old) -> ~ In "$schema" (map fst old) ->
  insert_schema type old = ("$schema", JStr ("../schemas/" ++ type ++ "_schema.json")%string) :: old.
Proof.
  intros type old ND N. unfold insert_schema. fold (set_all [("$schema", JStr ("../schemas/" ++ type ++ "_schema.json")%string)] old).
  rewrite set_all_new; [reflexivity|exact ND|]. intros k I [J|[]]. cbn in J. congruence.
Qed.
Lemma insert_present : forall type l1 v l2, NoDup (map fst (l1 ++ ("$schema", v) :: l2)) ->
  insert_schema type (l1 ++ ("$schema", v) :: l2) = ("$schema", v) :: l1 ++ l2.
Proof.
  intros type l1 v l2 ND. unfold insert_schema.
  fold (set_all [("$schema", JStr ("../schemas/" ++ type ++ "_schema.json")%string)] (l1 ++ ("$schema", v) :: l2)).
  rewrite map_app in ND. cbn [map fst] in ND. pose proof (NoDup_remove _ _ _ ND) as [ND2 NI].
  rewrite <- map_app in ND2. rewrite <- map_app in NI.
  rewrite set_all_app, (set_all_new l1).
  - cbn [app]. change (set_all (("$schema", JStr ("../schemas/" ++ type ++ "_schema.json")%string) :: l1) (("$schema", v) :: l2))
      with (set_all (("$schema", v) :: l1) l2).
    rewrite set_all_new; [reflexivity| |].
    + rewrite map_app in ND2. clear - ND2. induction l1 as [|x l1 IH]; [exact ND2|]. cbn in ND2. inversion ND2; auto.
    + intros k I [J|J].
      * cbn in J. subst k. apply NI. rewrite map_app. apply in_or_app. right; exact I.
      * rewrite map_app in ND2. clear - ND2 I J. induction l1 as [|x l1 IH]; [destruct J|]. cbn in *. inversion ND2; subst.
        destruct J as [J|J]; [apply H1; rewrite J; apply in_or_app; right; exact I|]. apply IH; assumption.
  - rewrite map_app in ND2. clear - ND2. induction l1 as [|x l1 IH]; [constructor|]. cbn in *. inversion ND2; subst.
    constructor; [|auto]. intros I. apply H1. apply in_or_app. left; exact I.
  - intros k I [J|[]]. cbn in J. subst k. apply NI. rewrite map_app. apply in_or_app. left; exact I.
Qed.
