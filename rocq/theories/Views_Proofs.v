(** * Proofs about vectors that share memory *)
From Coq Require Import List Arith Reals ZArith Bool Lia Lra.
From Verif Require Import Base Interp_Model Defaults_Model Iface_Model Iface_Proofs Views_Model Views_Spec.
Import ListNotations.
Open Scope R_scope.

Lemma upd_same {A} (f : nat -> A) x a : upd f x a x = a.
Proof. unfold upd. now rewrite Nat.eqb_refl. Qed.
Lemma upd_other {A} (f : nat -> A) x y a : y <> x -> upd f x a y = f y.
Proof. unfold upd. intro N. destruct (Nat.eqb_spec y x); congruence. Qed.

Lemma nth_ext' (l1 l2 : list R) : length l1 = length l2 -> (forall k, (k < length l1)%nat -> nth k l1 0 = nth k l2 0) -> l1 = l2.
Proof. intros L H. apply (nth_ext l1 l2 0 0 L H). Qed.

Lemma nth_firstn (l : list R) n k : (k < n)%nat -> nth k (firstn n l) 0 = nth k l 0.
Proof.
  revert n k. induction l as [|a l IH]; intros n k H; [rewrite firstn_nil; destruct k; reflexivity|].
  destruct n; [lia|]. destruct k; cbn; auto. apply IH. lia.
Qed.
Lemma nth_skipn (l : list R) n k : nth k (skipn n l) 0 = nth (n + k) l 0.
Proof.
  revert n. induction l as [|a l IH]; intros n; [rewrite skipn_nil; destruct k, n; reflexivity|].
  destruct n; cbn; auto.
Qed.

(** Replacing a part of a list. *)
Lemma splice_length (l v : list R) s : (s + length v <= length l)%nat ->
  length (firstn s l ++ v ++ skipn (s + length v) l) = length l.
Proof. intro H. rewrite !app_length, firstn_length, skipn_length. lia. Qed.
Lemma splice_length' (l v : list R) s m : length v = m -> (s + m <= length l)%nat ->
  length (firstn s l ++ v ++ skipn (s + m) l) = length l.
Proof. intros <-. apply splice_length. Qed.
Lemma splice_nth (l v : list R) s k : (s + length v <= length l)%nat ->
  nth k (firstn s l ++ v ++ skipn (s + length v) l) 0 =
  if (s <=? k)%nat && (k <? s + length v)%nat then nth (k - s) v 0 else nth k l 0.
Proof.
  intro H. assert (F : length (firstn s l) = s) by (rewrite firstn_length; lia).
  destruct (Nat.leb_spec s k); cbn [andb].
  - rewrite app_nth2 by lia. rewrite F. destruct (Nat.ltb_spec k (s + length v)).
    + rewrite app_nth1 by lia. reflexivity.
    + rewrite app_nth2 by lia. rewrite nth_skipn. f_equal. lia.
  - rewrite app_nth1 by lia. apply nth_firstn. lia.
Qed.
Lemma splice_read (l v : list R) s : (s + length v <= length l)%nat ->
  firstn (length v) (skipn s (firstn s l ++ v ++ skipn (s + length v) l)) = v.
Proof.
  intro H. apply nth_ext'.
  - rewrite firstn_length, skipn_length, splice_length; lia.
  - intros k Hk. rewrite firstn_length, skipn_length, splice_length in Hk by lia.
    rewrite nth_firstn, nth_skipn, splice_nth by lia.
    destruct (Nat.leb_spec s (s + k)); [|lia]. destruct (Nat.ltb_spec (s + k) (s + length v)); [|lia]. cbn. f_equal. lia.
Qed.

(** ** Memory *)
Definition in_range (p : ptr) (n a k : nat) : Prop := match p with Some (b, off) => a = b /\ (off <= k < off + n)%nat | None => False end.

Lemma write_spec m p vals m' : write m p vals = Ok m' ->
  (forall a, length (m' a) = length (m a)) /\
  (forall a k, ~ in_range p (length vals) a k -> nth k (m' a) 0 = nth k (m a) 0) /\
  read m' p (length vals) = Ok vals.
Proof.
  unfold write, read. destruct (Nat.eqb_spec (length vals) 0) as [Z|Z].
  - intro E. injection E as <-. destruct vals; [auto|discriminate].
  - destruct p as [[b off]|]; [|discriminate]. destruct (Nat.leb_spec (off + length vals) (length (m b))) as [L|L]; [|discriminate].
    intro E. injection E as <-. split; [|split].
    + intro a. destruct (Nat.eq_dec a b) as [->|N]; [rewrite upd_same; now apply splice_length|now rewrite upd_other].
    + intros a k H. destruct (Nat.eq_dec a b) as [->|N]; [rewrite upd_same|now rewrite upd_other]. rewrite splice_nth by lia.
      destruct (Nat.leb_spec off k); cbn [andb]; auto. destruct (Nat.ltb_spec k (off + length vals)); auto. exfalso. apply H. cbn. lia.
    + rewrite upd_same, splice_length by lia. rewrite (proj2 (Nat.leb_le _ _) L). f_equal. now apply splice_read.
Qed.

Lemma write_Ok m p vals : (exists v, read m p (length vals) = Ok v) -> exists m', write m p vals = Ok m'.
Proof.
  intros [v H]. unfold read in H. unfold write. destruct (length vals =? 0)%nat; [eauto|].
  destruct p as [[b off]|]; [|discriminate]. destruct (_ <=? _)%nat; [eauto|discriminate].
Qed.

Lemma read_length m p n v : read m p n = Ok v -> length v = n.
Proof.
  unfold read. destruct (Nat.eqb_spec n 0) as [->|N]; [intro E; injection E as <-; reflexivity|].
  destruct p as [[b off]|]; [|discriminate]. destruct (Nat.leb_spec (off + n) (length (m b))); [|discriminate].
  intro E. injection E as <-. rewrite firstn_length, skipn_length. lia.
Qed.

Lemma read_same m m' p n : (forall a, length (m' a) = length (m a)) ->
  (forall a k, in_range p n a k -> nth k (m' a) 0 = nth k (m a) 0) -> read m' p n = read m p n.
Proof.
  intros L H. unfold read. destruct (n =? 0)%nat; auto. destruct p as [[b off]|]; auto. rewrite L.
  destruct (Nat.leb_spec (off + n) (length (m b))); auto. f_equal. apply nth_ext'.
  - rewrite !firstn_length, !skipn_length, L. reflexivity.
  - intros k Hk. rewrite firstn_length, skipn_length, L in Hk. rewrite !nth_firstn, !nth_skipn by lia. apply H. cbn. lia.
Qed.

(** ** What a step leaves alone *)
Record Frame (st st' : state) (objs : nat -> Prop) (cells : nat -> nat -> Prop) : Prop := mk_frame {
  fr_objects : forall y, ~ objs y -> objects st' y = objects st y;
  fr_length : forall a, length (arrays st' a) = length (arrays st a);
  fr_cells : forall a k, ~ cells a k -> nth k (arrays st' a) 0 = nth k (arrays st a) 0
}.

Lemma frame_refl st objs cells : Frame st st objs cells.
Proof. split; auto. Qed.
Lemma frame_trans st1 st2 st3 objs cells : Frame st1 st2 objs cells -> Frame st2 st3 objs cells -> Frame st1 st3 objs cells.
Proof. intros [A B C] [A' B' C']. split; intros; [rewrite A', A|rewrite B', B|rewrite C', C]; auto. Qed.
Lemma frame_object st x o (objs : nat -> Prop) cells : objs x -> Frame st (set_object st x o) objs cells.
Proof. intro H. split; cbn; auto. intros y N. apply upd_other. congruence. Qed.

(** The same class, with the same part of memory. *)
Definition same_class (a b : storage) : Prop :=
  match a, b with
  | Own v, Own w => length v = length w
  | View p n, View q m | CView p n, CView q m => p = q /\ n = m
  | _, _ => False
  end.
Definition cells_of (s : storage) (a k : nat) : Prop := match s with View p n => in_range p n a k | _ => False end.
Lemma same_class_refl s : same_class s s.
Proof. destruct s; cbn; auto. Qed.
Lemma same_class_cells a b : same_class a b -> cells_of b = cells_of a.
Proof. destruct a, b; cbn; try tauto; intros [-> ->]; reflexivity. Qed.
Lemma same_class_trans a b c : same_class a b -> same_class b c -> same_class a c.
Proof. destruct a, b, c; cbn; try tauto; intuition congruence. Qed.

Lemma set_allvalues_spec st x o vals st' : objects st x = Some o -> set_allvalues st x o vals = Ok st' ->
  Frame st st' (fun y => y = x) (cells_of (store o)) /\ length vals = size o /\
  exists s, objects st' x = Some (mk_object (points o) (inner_length o) s) /\ same_class (store o) s /\
    allvalues st' (mk_object (points o) (inner_length o) s) = Ok vals.
Proof.
  intros Ho H. unfold set_allvalues, size in *. destruct (store o) as [v|p n|p n] eqn:Es; [| |discriminate H].
  - destruct (Nat.eqb_spec (length vals) (length v)) as [L|L]; [|discriminate]. injection H as <-. split; [now apply frame_object|].
    split; auto. exists (Own vals). split; [cbn; now rewrite upd_same|]. split; cbn; auto.
  - destruct (Nat.eqb_spec (length vals) n) as [L|L]; [|discriminate].
    destruct (write (arrays st) p vals) as [m| |] eqn:W; try discriminate H. cbn in H. injection H as <-.
    destruct (write_spec _ _ _ _ W) as (W1 & W2 & W3). rewrite L in *. split; [|split; auto].
    + split; cbn; auto.
    + exists (View p n). cbn. split; [rewrite Ho; destruct o; cbn in *; congruence|]. split; auto.
Qed.

Lemma allvalues_length st o v : allvalues st o = Ok v -> length v = size o.
Proof. unfold allvalues, size. destruct (store o); [intro E; injection E as <-; reflexivity|apply read_length|apply read_length]. Qed.

Lemma allvalues_frame st st' o objs cells : Frame st st' objs cells -> (forall a k, cells a k -> apart o a k) ->
  allvalues st' o = allvalues st o.
Proof.
  intros [A B C] H. unfold allvalues, apart in *. destruct (store o) as [v|p n|p n]; auto; (apply read_same; auto; intros a k I;
    apply C; intro Q; apply H in Q; destruct p as [[b off]|]; cbn in *; lia).
Qed.

Lemma set_timestep_spec st x i r st' : set_timestep st x i r = Ok st' -> exists o, objects st x = Some o /\
  Frame st st' (fun y => y = x) (cells_of (store o)) /\ (0 <= i)%Z /\ length r = inner_length o /\
  (inner_length o * Z.to_nat i + inner_length o <= size o)%nat /\
  exists vals s, allvalues st o = Ok vals /\ objects st' x = Some (mk_object (points o) (inner_length o) s) /\ same_class (store o) s /\
    allvalues st' (mk_object (points o) (inner_length o) s) =
      Ok (firstn (inner_length o * Z.to_nat i) vals ++ r ++ skipn (inner_length o * Z.to_nat i + inner_length o) vals).
Proof.
  unfold set_timestep, lookup. destruct (objects st x) as [o|] eqn:Ho; [|discriminate]. cbn [obind].
  destruct (Z.ltb_spec i 0); [discriminate|]. destruct (Nat.ltb_spec (size o) (inner_length o * Z.to_nat i + inner_length o)); [discriminate|].
  assert (G : (if negb (length r =? inner_length o)%nat then UB else obind (allvalues st o) (fun vals =>
      set_allvalues st x o (firstn (inner_length o * Z.to_nat i) vals ++ r ++ skipn (inner_length o * Z.to_nat i + inner_length o) vals))) = Ok st' ->
    exists o0, Some o = Some o0 /\
  Frame st st' (fun y => y = x) (cells_of (store o0)) /\ (0 <= i)%Z /\ length r = inner_length o0 /\
  (inner_length o0 * Z.to_nat i + inner_length o0 <= size o0)%nat /\
  exists vals s, allvalues st o0 = Ok vals /\ objects st' x = Some (mk_object (points o0) (inner_length o0) s) /\ same_class (store o0) s /\
    allvalues st' (mk_object (points o0) (inner_length o0) s) =
      Ok (firstn (inner_length o0 * Z.to_nat i) vals ++ r ++ skipn (inner_length o0 * Z.to_nat i + inner_length o0) vals)).
  { destruct (Nat.eqb_spec (length r) (inner_length o)) as [L|L]; [|discriminate]. cbn [negb]. intro E. apply obind_Ok in E.
    destruct E as (vals & V & E). destruct (set_allvalues_spec _ _ _ _ _ Ho E) as (F & _ & s & S1 & S2 & S3).
    exists o. split; auto. split; auto. split; auto. split; auto. split; [lia|]. exists vals, s. auto. }
  destruct (store o) eqn:Es; [exact G|exact G|discriminate].
Qed.
