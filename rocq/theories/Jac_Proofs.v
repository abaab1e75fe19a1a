From Coq Require Import List Arith Reals Lra Lia Bool.
From Verif Require Import Base Interp_Model Interp_Proofs Jac_Model Jac_Spec.
Import ListNotations.
Local Open Scope nat_scope.

(** ** Counting later constraint times *)
Definition later (u : R) (cons : list R) : nat := length (filter (fun s => Rltb u s) cons).

Lemma later_le u cons : (later u cons <= length cons)%nat.
Proof.
  unfold later. induction cons as [|s cons IH]; simpl; [lia|]. destruct (Rltb u s); simpl; lia.
Qed.

Lemma nondecreasing_tail a l : nondecreasing (a :: l) -> nondecreasing l.
Proof. intros H i j x y Hij Hx Hy. apply (H (S i) (S j)); simpl; auto. lia. Qed.

Lemma later_all u cons : (forall s, In s cons -> (u < s)%R) -> later u cons = length cons.
Proof.
  unfold later. induction cons as [|s cons IH]; intro H; simpl; [reflexivity|].
  rewrite (proj2 (Rltb_true u s)) by (apply H; left; auto). simpl. rewrite IH; auto.
  intros x Hx. apply H. right; auto.
Qed.

Lemma later_iff u cons : nondecreasing cons -> forall i s, nth_error cons i = Some s ->
  ((u < s)%R <-> (length cons - later u cons <= i)%nat).
Proof.
  induction cons as [|s0 cons IH]; intros Hs i s Hi; [destruct i; discriminate|].
  pose proof (later_le u cons) as L.
  unfold later in *. cbn [filter length]. destruct (Rltb u s0) eqn:E.
  - apply Rltb_true in E.
    assert (Hall : length (filter (fun s => Rltb u s) cons) = length cons).
    { apply (later_all u cons). intros x Hx. apply In_nth_error in Hx. destruct Hx as [j Hj].
      assert (s0 <= x)%R by (apply (Hs 0 (S j)); simpl; auto; lia). lra. }
    cbn [length]. rewrite Hall. split; [lia|]. intros _.
    assert (s0 <= s)%R by (apply (Hs 0 i); auto; lia). lra.
  - apply Rltb_false in E. destruct i as [|i].
    + simpl in Hi. injection Hi as <-. split; [lra|]. intro; cbn [length] in *; lia.
    + simpl in Hi. rewrite (IH (nondecreasing_tail _ _ Hs) i s Hi). cbn [length]; lia.
Qed.

(** Height (in blocks) of column block [j]. *)
Definition col_height (cons ctrl : list R) (j : nat) : nat :=
  match j with
  | O => length cons
  | S j' => later (nth j' ctrl 0%R) cons
  end.

Lemma col_height_le cons ctrl j : (col_height cons ctrl j <= length cons)%nat.
Proof. destruct j; simpl; [lia|]. apply later_le. Qed.

(** ** make_data *)
Lemma last_nth {A} (l : list A) d : last l d = nth (length l - 1) l d.
Proof.
  induction l as [|x [|y l] IH]; [reflexivity|reflexivity|].
  replace (length (x :: y :: l) - 1)%nat with (S (length (y :: l) - 1)) by (simpl; lia).
  change (last (x :: y :: l) d) with (last (y :: l) d). rewrite IH. reflexivity.
Qed.

Lemma make_data_loop_ok cons ctrl : nondecreasing cons -> nondecreasing ctrl ->
  forall fuel k i lh lc offs,
    (1 <= i <= length ctrl)%nat -> (k <= length cons)%nat -> length offs = i ->
    nth 0 offs 0%nat = 0%nat ->
    (forall j, (S j < i)%nat -> nth (S j) offs 0%nat = (nth j offs 0 + col_height cons ctrl j)%nat) ->
    lh = col_height cons ctrl (i - 1) ->
    ((k < length cons)%nat -> lc = nth (i - 1) ctrl 0%R) ->
    (forall k' s, (k' < k)%nat -> nth_error cons k' = Some s -> (s <= nth (i - 1) ctrl 0)%R) ->
    ((length ctrl - i) + (length cons - k) < fuel)%nat ->
    exists lh' offs', make_data_loop fuel cons ctrl k i lh lc offs = Some (Ok (lh', offs')) /\
      length offs' = length ctrl /\ nth 0 offs' 0%nat = 0%nat /\
      (forall j, (S j < length ctrl)%nat ->
         nth (S j) offs' 0%nat = (nth j offs' 0 + col_height cons ctrl j)%nat) /\
      lh' = col_height cons ctrl (length ctrl - 1).
Proof.
  intros Hc Hu. induction fuel as [|fuel IH]; intros k i lh lc offs Hi Hk Hl H0 Hoff Hlh Hlc Hbefore Hf; [lia|].
  cbn [make_data_loop].
  destruct (i =? length ctrl)%nat eqn:Ei; [apply Nat.eqb_eq in Ei|apply Nat.eqb_neq in Ei].
  { exists lh, offs. rewrite Ei in *. repeat split; auto. }
  assert (Hoff' : forall x,
    (forall j, (S j < S i)%nat -> nth (S j) (offs ++ [last offs 0%nat + lh])%nat 0%nat
       = (nth j (offs ++ [last offs 0 + lh]) 0 + col_height cons ctrl j)%nat) /\ x = x :> nat).
  { intro x. split; [|reflexivity]. intros j Hj. destruct (Nat.eq_dec (S j) i) as [E|N].
    - rewrite app_nth2 by lia. replace (S j - length offs)%nat with 0%nat by lia. cbn [nth].
      rewrite app_nth1 by lia. rewrite last_nth. replace (length offs - 1)%nat with j by lia.
      rewrite Hlh. replace (i - 1)%nat with j by lia. reflexivity.
    - rewrite !app_nth1 by lia. apply Hoff. lia. }
  destruct (Hoff' 0%nat) as [Hoff1 _]. clear Hoff'.
  assert (Happ : length (offs ++ [last offs 0%nat + lh])%nat = S i) by (rewrite app_length; simpl; lia).
  assert (H0app : nth 0 (offs ++ [last offs 0%nat + lh])%nat 0%nat = 0%nat) by (rewrite app_nth1 by lia; auto).
  assert (Hui : forall i', (i' < length ctrl)%nat -> nth_error ctrl i' = Some (nth i' ctrl 0%R))
    by (intros; apply nth_error_nth'; auto).
  assert (Hstep : (nth (i - 1) ctrl 0 <= nth i ctrl 0)%R).
  { apply (Hu (i - 1)%nat i); [lia|apply Hui; lia|apply Hui; lia]. }
  destruct (k =? length cons)%nat eqn:Ek; [apply Nat.eqb_eq in Ek|apply Nat.eqb_neq in Ek].
  - (* all constraint times passed *)
    apply IH; auto; try lia.
    + (* new height is zero *)
      replace (S i - 1)%nat with i by lia. destruct i as [|i']; [lia|]. cbn [col_height].
      replace (S i' - 1)%nat with i' in * by lia.
      unfold later. destruct (filter (fun s => Rltb (nth i' ctrl 0%R) s) cons) as [|s l] eqn:F; [reflexivity|].
      exfalso. assert (In s (filter (fun s => Rltb (nth i' ctrl 0%R) s) cons)) as I by (rewrite F; left; auto).
      apply filter_In in I. destruct I as [I1 I2]. apply Rltb_true in I2.
      apply In_nth_error in I1. destruct I1 as [n Hn].
      assert (n < k)%nat by (rewrite Ek; eapply nth_error_lt_inv; eauto).
      specialize (Hbefore n s H Hn). lra.
    + intros k' s Hk' Hs. replace (S i - 1)%nat with i by lia. specialize (Hbefore k' s Hk' Hs). lra.
  - destruct (nth_error_lt cons k) as [ct Hct]; [lia|].
    rewrite (proj2 (get_Ok _ _ _) Hct). rewrite Hlc in * by lia.
    destruct (Rltb (nth (i - 1) ctrl 0%R) ct) eqn:Elt.
    + apply Rltb_true in Elt. rewrite (proj2 (get_Ok ctrl i (nth i ctrl 0%R))) by (apply Hui; lia).
      apply IH; auto; try lia.
      * replace (S i - 1)%nat with i by lia. destruct i as [|i']; [lia|]. cbn [col_height].
        replace (S i' - 1)%nat with i' in * by lia.
        pose proof (proj1 (later_iff (nth i' ctrl 0%R) cons Hc k ct Hct) Elt) as L1.
        pose proof (later_le (nth i' ctrl 0%R) cons) as L2.
        destruct k as [|k']; [lia|].
        destruct (nth_error_lt cons k') as [c' Hc']; [lia|].
        assert (~ (nth i' ctrl 0 < c')%R) as Hn by (specialize (Hbefore k' c' ltac:(lia) Hc'); lra).
        rewrite (later_iff (nth i' ctrl 0%R) cons Hc k' c' Hc') in Hn. lia.
      * intros _. f_equal. lia.
      * intros k' s Hk' Hs. replace (S i - 1)%nat with i by lia. specialize (Hbefore k' s Hk' Hs). lra.
    + apply Rltb_false in Elt. apply IH; auto; try lia.
      intros k' s Hk' Hs. destruct (Nat.eq_dec k' k) as [->|N].
      * rewrite Hct in Hs. injection Hs as <-. auto.
      * apply (Hbefore k'); auto. lia.
Qed.

Lemma make_data_ok bh bw cons ctrl : nondecreasing cons -> nondecreasing ctrl -> ctrl <> [] ->
  exists l, make_data bh bw cons ctrl = Some (Ok l) /\
    block_height l = bh /\ block_width l = bw /\
    length (block_column_offsets l) = S (length ctrl) /\
    offset l 0 = 0%nat /\
    (forall j, (j < length ctrl)%nat -> offset l (S j) = (offset l j + col_height cons ctrl j)%nat).
Proof.
  intros Hc Hu Hne. unfold make_data. destruct ctrl as [|u0 ctrl'] eqn:E; [congruence|]. rewrite <- E in *.
  assert (Hn : (0 < length ctrl)%nat) by (rewrite E; simpl; lia).
  destruct (make_data_loop_ok cons ctrl Hc Hu (S (length ctrl + length cons)) 0 1 (length cons) u0 [0%nat])
    as (lh & offs & El & Ll & L0 & Lo & Lh); auto; try lia.
  { rewrite E. reflexivity. }
  rewrite El. eexists; split; [reflexivity|]. cbn [block_height block_width block_column_offsets].
  split; [reflexivity|]. split; [reflexivity|]. split; [rewrite app_length; simpl; lia|].
  unfold offset. cbn [block_column_offsets]. split; [rewrite app_nth1 by lia; auto|].
  intros j Hj. destruct (Nat.eq_dec (S j) (length ctrl)) as [Ej|Nj].
  - rewrite app_nth2 by lia. replace (S j - length offs)%nat with 0%nat by lia. cbn [nth].
    rewrite app_nth1 by lia. rewrite last_nth. replace (length offs - 1)%nat with j by lia.
    rewrite Lh. replace (length ctrl - 1)%nat with j by lia. reflexivity.
  - rewrite !app_nth1 by lia. apply Lo. lia.
Qed.

(** ** Positions *)
Lemma nth_error_flat_map_uniform {A B} (f : A -> list B) w (l : list A) :
  (forall x, length (f x) = w) ->
  length (flat_map f l) = (length l * w)%nat /\
  forall i c x, nth_error l i = Some x -> (c < w)%nat ->
    nth_error (flat_map f l) (i * w + c) = nth_error (f x) c.
Proof.
  intro Hw. induction l as [|y l [IHl IHn]]; split.
  - reflexivity.
  - intros i c x H. destruct i; discriminate.
  - cbn [flat_map]. rewrite app_length, IHl, Hw. simpl. lia.
  - intros i c x Hi Hc. cbn [flat_map]. destruct i as [|i].
    + simpl in Hi. injection Hi as ->. simpl. rewrite nth_error_app1 by (rewrite Hw; lia). reflexivity.
    + simpl in Hi. rewrite nth_error_app2 by (rewrite Hw; nia). rewrite Hw.
      replace (S i * w + c - w)%nat with (i * w + c)%nat by nia. apply IHn; auto.
Qed.

Lemma nth_error_flat_map_prefix {B} (f : nat -> list B) (off : nat -> nat) n :
  off 0%nat = 0%nat -> (forall j, (j < n)%nat -> off (S j) = (off j + length (f j))%nat) ->
  length (flat_map f (seq 0 n)) = off n /\
  forall j p, (j < n)%nat -> (p < length (f j))%nat ->
    nth_error (flat_map f (seq 0 n)) (off j + p) = nth_error (f j) p.
Proof.
  intros H0 HS. induction n as [|n IH]; [simpl; split; [auto|lia]|].
  rewrite seq_S, flat_map_app. simpl. rewrite app_nil_r.
  destruct IH as [IHl IHn]; [intros; apply HS; lia|]. split.
  - rewrite app_length, IHl, HS by lia. reflexivity.
  - intros j p Hj Hp. destruct (Nat.eq_dec j n) as [->|N].
    + rewrite nth_error_app2 by lia. f_equal. lia.
    + rewrite nth_error_app1; [apply IHn; auto; lia|].
      rewrite IHl. assert (off (S j) <= off n)%nat; [|rewrite HS in H by lia; lia].
      assert (S j <= n)%nat as Hle by lia. clear IHl IHn Hp. induction Hle; [lia|].
      assert (off (S j) <= off m)%nat by (apply IHHle; [intros; apply HS; lia|lia|lia]).
      rewrite (HS m) by lia. lia.
Qed.

Section Layout.
Variables (cons ctrl : list R) (bh bw : nat) (l : layout).
Hypothesis Hcons : nondecreasing cons.
Hypothesis Hne : ctrl <> [].
Hypothesis Hbh : block_height l = bh.
Hypothesis Hbw : block_width l = bw.
Hypothesis Hlen : length (block_column_offsets l) = S (length ctrl).
Hypothesis Hoff0 : offset l 0 = 0%nat.
Hypothesis Hoff : forall j, (j < length ctrl)%nat -> offset l (S j) = (offset l j + col_height cons ctrl j)%nat.

Lemma ctrl_pos : (0 < length ctrl)%nat.
Proof. destruct ctrl; [congruence|simpl; lia]. Qed.

Lemma l_outer_width : outer_width l = length ctrl.
Proof. unfold outer_width. lia. Qed.
Lemma l_outer_height : outer_height l = length cons.
Proof. unfold outer_height. rewrite Hoff by apply ctrl_pos. rewrite Hoff0. reflexivity. Qed.
Lemma l_col_height j : (j < length ctrl)%nat -> outer_col_height l j = col_height cons ctrl j.
Proof. intro H. unfold outer_col_height. rewrite Nat.add_1_r, Hoff by auto. lia. Qed.
Lemma l_rowstart j : (j < length ctrl)%nat ->
  inner_rowstart l j = ((length cons - col_height cons ctrl j) * bh)%nat.
Proof.
  intro H. unfold inner_rowstart, outer_rowstart. rewrite l_outer_height, l_col_height, Hbh by auto. reflexivity.
Qed.
Lemma l_inner_height : inner_height l = (length cons * bh)%nat.
Proof. unfold inner_height. rewrite l_outer_height, Hbh. reflexivity. Qed.
Lemma l_rows j : (j < length ctrl)%nat ->
  (inner_height l - inner_rowstart l j)%nat = (col_height cons ctrl j * bh)%nat.
Proof.
  intro H. rewrite l_inner_height, l_rowstart by auto.
  pose proof (col_height_le cons ctrl j). nia.
Qed.
Lemma l_inner_col_height j : (j < length ctrl)%nat ->
  inner_col_height l j = (col_height cons ctrl j * bh)%nat.
Proof. intro H. unfold inner_col_height. rewrite l_col_height, Hbh by auto. reflexivity. Qed.

Definition col_list (j : nat) : list (nat * nat) :=
  flat_map (fun innerrow =>
      map (fun innercol => (innerrow, innercol)) (seq (inner_colstart l j) (block_width l)))
      (seq (inner_rowstart l j) (inner_height l - inner_rowstart l j)).

Lemma col_list_spec j : (j < length ctrl)%nat ->
  length (col_list j) = (col_height cons ctrl j * (bh * bw))%nat /\
  forall r c, (r < col_height cons ctrl j * bh)%nat -> (c < bw)%nat ->
    nth_error (col_list j) (r * bw + c) = Some ((inner_rowstart l j + r)%nat, (j * bw + c)%nat).
Proof.
  intro Hj. unfold col_list. rewrite l_rows by auto.
  destruct (nth_error_flat_map_uniform
    (fun innerrow => map (fun innercol => (innerrow, innercol)) (seq (inner_colstart l j) (block_width l)))
    bw (seq (inner_rowstart l j) (col_height cons ctrl j * bh))) as [L N].
  { intro x. rewrite map_length, seq_length. exact Hbw. }
  split.
  - rewrite L, seq_length. lia.
  - intros r c Hr Hc.
    rewrite (N r c (inner_rowstart l j + r)%nat); auto.
    + rewrite nth_error_map. unfold inner_colstart. rewrite Hbw.
      rewrite (nth_error_nth' _ 0%nat) by (rewrite seq_length; auto).
      rewrite seq_nth by auto. reflexivity.
    + rewrite (nth_error_nth' _ 0%nat) by (rewrite seq_length; auto).
      rewrite seq_nth by auto. reflexivity.
Qed.

Lemma supply_flat : supply_indices l = flat_map col_list (seq 0 (length ctrl)).
Proof. unfold supply_indices. rewrite l_outer_width. reflexivity. Qed.

Lemma supply_spec :
  length (supply_indices l) = nonZeros l /\
  forall j r c, (j < length ctrl)%nat -> (r < col_height cons ctrl j * bh)%nat -> (c < bw)%nat ->
    nth_error (supply_indices l) (column_block_position l j r c)
    = Some ((inner_rowstart l j + r)%nat, (j * bw + c)%nat).
Proof.
  rewrite supply_flat.
  destruct (nth_error_flat_map_prefix col_list (fun j => offset l j * (bh * bw))%nat (length ctrl)) as [L N].
  { rewrite Hoff0. reflexivity. }
  { intros j Hj. rewrite Hoff by auto. destruct (col_list_spec j Hj) as [E _]. rewrite E. lia. }
  split.
  - rewrite L. unfold nonZeros, block_size. rewrite Hlen, Hbh, Hbw. simpl. rewrite Nat.sub_0_r. reflexivity.
  - intros j r c Hj Hr Hc. unfold column_block_position, inner_column_offset, block_size.
    rewrite Hbh, Hbw. destruct (col_list_spec j Hj) as [E S].
    rewrite N; auto. rewrite E. nia.
Qed.

(** every position belongs to exactly one block entry *)
Lemma offset_mono j j' : (j <= j' <= length ctrl)%nat -> (offset l j <= offset l j')%nat.
Proof.
  intros [H1 H2]. induction H1; [lia|]. rewrite (Hoff m) by lia. assert (offset l j <= offset l m)%nat by (apply IHle; lia). lia.
Qed.

Lemma position_decompose k : (k < nonZeros l)%nat ->
  exists j r c, (j < length ctrl)%nat /\ (r < col_height cons ctrl j * bh)%nat /\ (c < bw)%nat /\
    k = column_block_position l j r c.
Proof.
  intro Hk. unfold nonZeros, block_size in Hk. rewrite Hlen, Hbh, Hbw in Hk. simpl in Hk.
  rewrite Nat.sub_0_r in Hk. fold (offset l (length ctrl)) in Hk.
  assert (Hs : (0 < bh * bw)%nat) by (destruct (bh * bw)%nat; lia).
  assert (exists j, (j < length ctrl)%nat /\ (offset l j * (bh * bw) <= k)%nat /\ (k < offset l (S j) * (bh * bw))%nat)
    as (j & Hj & Lo & Hi).
  { assert (G : forall n, (n <= length ctrl)%nat -> (k < offset l n * (bh * bw))%nat ->
      exists j, (j < n)%nat /\ (offset l j * (bh * bw) <= k)%nat /\ (k < offset l (S j) * (bh * bw))%nat).
    { induction n as [|n IH]; intros Hn Hlt; [rewrite Hoff0 in Hlt; lia|].
      destruct (le_lt_dec (offset l n * (bh * bw)) k) as [A|A].
      - exists n. split; [lia|]. auto.
      - destruct IH as (j & A1 & A2); [lia|auto|]. exists j. split; [lia|auto]. }
    apply G; auto. }
  rewrite Hoff in Hi by auto.
  set (p := (k - offset l j * (bh * bw))%nat).
  assert (Hp : (p < col_height cons ctrl j * (bh * bw))%nat) by (unfold p; nia).
  assert (Hbw0 : bw <> 0%nat) by (intro Z; rewrite Z in Hs; lia).
  exists j, (p / bw)%nat, (p mod bw)%nat.
  pose proof (Nat.div_mod p bw Hbw0) as DM.
  pose proof (Nat.mod_upper_bound p bw Hbw0) as MB.
  split; [auto|]. split; [|split; [auto|]].
  - apply Nat.div_lt_upper_bound; auto. nia.
  - unfold column_block_position, inner_column_offset, block_size. rewrite Hbh, Hbw.
    replace (p / bw * bw + p mod bw)%nat with p by lia. unfold p. lia.
Qed.

Lemma rc_unique a b c d : (b < bw)%nat -> (d < bw)%nat -> (a * bw + b = c * bw + d)%nat -> a = c /\ b = d.
Proof.
  intros Hb Hd E. assert (a = c).
  { assert (Ha : ((a * bw + b) / bw = a)%nat) by (rewrite Nat.div_add_l by lia; rewrite Nat.div_small; lia).
    assert (Hc : ((c * bw + d) / bw = c)%nat) by (rewrite Nat.div_add_l by lia; rewrite Nat.div_small; lia).
    congruence. }
  subst. lia.
Qed.

Lemma supply_NoDup : NoDup (supply_indices l).
Proof.
  apply NoDup_nth_error. intros i1 i2 H1 E.
  destruct supply_spec as [L N]. rewrite L in H1.
  assert (H2 : (i2 < nonZeros l)%nat).
  { rewrite <- L. apply nth_error_Some. rewrite <- E. apply nth_error_Some. lia. }
  destruct (position_decompose i1 H1) as (j1 & r1 & c1 & J1 & R1 & C1 & ->).
  destruct (position_decompose i2 H2) as (j2 & r2 & c2 & J2 & R2 & C2 & ->).
  rewrite (N j1 r1 c1), (N j2 r2 c2) in E by auto. injection E as E1 E2.
  destruct (rc_unique j1 c1 j2 c2 C1 C2 E2) as [-> ->].
  f_equal. lia.
Qed.

Lemma may_depend_iff i j : (j < length ctrl)%nat -> (i < length cons)%nat ->
  may_depend cons ctrl i j <-> (length cons - col_height cons ctrl j <= i)%nat.
Proof.
  intros Hj Hi. unfold may_depend. destruct j as [|j]; cbn [col_height].
  - split; [lia|]. intros _. split; auto.
  - replace (S j - 1)%nat with j by lia.
    assert (Hu : nth_error ctrl j = Some (nth j ctrl 0%R)) by (apply nth_error_nth'; lia).
    destruct (nth_error_lt cons i Hi) as [s Hs].
    rewrite <- (later_iff (nth j ctrl 0%R) cons Hcons i s Hs). split.
    + intros (_ & _ & [Z|(s' & u & A & B & C)]); [discriminate|].
      replace s with s' by congruence. rewrite Hu in B. injection B as <-. auto.
    + intro Hlt. split; [auto|]. split; [auto|]. right. exists s, (nth j ctrl 0%R). auto.
Qed.

Lemma supply_In row col : In (row, col) (supply_indices l) <-> structural_entry bh bw cons ctrl row col.
Proof.
  destruct supply_spec as [L N]. split.
  - intro I. apply In_nth_error in I. destruct I as [k Hk].
    assert (Hk' : (k < nonZeros l)%nat) by (rewrite <- L; eapply nth_error_lt_inv; eauto).
    destruct (position_decompose k Hk') as (j & r & c & J & R & C & ->).
    rewrite (N j r c) in Hk by auto. injection Hk as <- <-. rewrite l_rowstart by auto.
    assert (Hb0 : bh <> 0%nat) by (intro Z; rewrite Z in R; lia).
    pose proof (Nat.div_mod r bh Hb0) as DM. pose proof (Nat.mod_upper_bound r bh Hb0) as MB.
    assert (Q : (r / bh < col_height cons ctrl j)%nat) by (apply Nat.div_lt_upper_bound; auto; nia).
    pose proof (col_height_le cons ctrl j).
    exists (length cons - col_height cons ctrl j + r / bh)%nat, (r mod bh)%nat, j, c.
    split; [nia|]. split; [auto|]. split; [auto|]. split; [auto|].
    apply may_depend_iff; auto; lia.
  - intros (i & r & j & c & -> & Hr & -> & Hc & D).
    assert (Hi : (i < length cons)%nat) by (destruct D; tauto).
    assert (Hj : (j < length ctrl)%nat) by (destruct D as (_ & ? & _); auto).
    apply may_depend_iff in D; auto.
    pose proof (col_height_le cons ctrl j).
    set (i' := (i - (length cons - col_height cons ctrl j))%nat).
    assert (E : nth_error (supply_indices l) (column_block_position l j (i' * bh + r) c)
       = Some ((i * bh + r)%nat, (j * bw + c)%nat)).
    { rewrite N; auto.
      - rewrite l_rowstart by auto. do 2 f_equal.
        assert (Ei : i = ((length cons - col_height cons ctrl j) + i')%nat) by (unfold i'; lia).
        rewrite Ei at 1. lia.
      - assert (i' < col_height cons ctrl j)%nat by (unfold i'; lia). nia. }
    eapply nth_error_In; eauto.
Qed.

(** whole_matrix *)
Lemma assign_block_in M i j h w B r c : (i <= r < i + h)%nat -> (j <= c < j + w)%nat ->
  assign_block M i j h w B r c = B (r - i)%nat (c - j)%nat.
Proof.
  intros H1 H2. unfold assign_block.
  rewrite (proj2 (Nat.leb_le i r)), (proj2 (Nat.ltb_lt r (i + h))), (proj2 (Nat.leb_le j c)), (proj2 (Nat.ltb_lt c (j + w))) by lia.
  reflexivity.
Qed.
Lemma assign_block_out M i j h w B r c : ~ ((i <= r < i + h)%nat /\ (j <= c < j + w)%nat) ->
  assign_block M i j h w B r c = M r c.
Proof.
  intro H. unfold assign_block.
  destruct (i <=? r)%nat eqn:A1; [apply Nat.leb_le in A1|reflexivity].
  destruct (r <? i + h)%nat eqn:A2; [apply Nat.ltb_lt in A2|reflexivity].
  destruct (j <=? c)%nat eqn:A3; [apply Nat.leb_le in A3|reflexivity].
  destruct (c <? j + w)%nat eqn:A4; [apply Nat.ltb_lt in A4|reflexivity].
  exfalso. apply H. lia.
Qed.

Lemma fold_blocks values r c n : (n <= length ctrl)%nat ->
  let M := fold_left (fun M column =>
      assign_block M (inner_rowstart l column) (inner_colstart l column)
        (inner_col_height l column) (block_width l)
        (fun r c => values (column_block_position l column r c)))
    (seq 0 n) (fun _ _ => 0%R) in
  (forall j r' c', (j < n)%nat -> (r' < col_height cons ctrl j * bh)%nat -> (c' < bw)%nat ->
     r = (inner_rowstart l j + r')%nat -> c = (j * bw + c')%nat ->
     M r c = values (column_block_position l j r' c')) /\
  ((forall j r' c', (j < n)%nat -> (r' < col_height cons ctrl j * bh)%nat -> (c' < bw)%nat ->
     r = (inner_rowstart l j + r')%nat -> c = (j * bw + c')%nat -> False) -> M r c = 0%R).
Proof.
  induction n as [|n IH]; intro Hn; cbv zeta; [split; [lia|reflexivity]|].
  rewrite seq_S, fold_left_app. cbn [fold_left]. simpl (0 + n)%nat.
  destruct IH as [IH1 IH2]; [lia|].
  assert (Eh : inner_col_height l n = (col_height cons ctrl n * bh)%nat) by (apply l_inner_col_height; lia).
  split.
  - intros j r' c' Hj Hr' Hc' Er Ec. destruct (Nat.eq_dec j n) as [->|N].
    + rewrite assign_block_in.
      * f_equal. f_equal; unfold inner_colstart; rewrite ?Hbw; lia.
      * rewrite Eh. lia.
      * unfold inner_colstart. rewrite Hbw. lia.
    + rewrite assign_block_out; [apply IH1; auto; lia|].
      intros [_ Hc2]. unfold inner_colstart in Hc2. rewrite Hbw in Hc2. subst c. nia.
  - intro Hno. rewrite assign_block_out.
    + apply IH2. intros j r' c' Hj. apply Hno. lia.
    + intros [A B]. unfold inner_colstart in B. rewrite Hbw in B. rewrite Eh in A.
      apply (Hno n (r - inner_rowstart l n)%nat (c - n * bw)%nat); lia.
Qed.

Lemma whole_matrix_entry values k row col : nth_error (supply_indices l) k = Some (row, col) ->
  whole_matrix l values row col = values k.
Proof.
  intro Hk. destruct supply_spec as [L N].
  assert (Hk' : (k < nonZeros l)%nat) by (rewrite <- L; eapply nth_error_lt_inv; eauto).
  destruct (position_decompose k Hk') as (j & r & c & J & R & C & ->).
  rewrite (N j r c) in Hk by auto. injection Hk as <- <-.
  unfold whole_matrix. rewrite l_outer_width.
  destruct (fold_blocks values (inner_rowstart l j + r) (j * bw + c) (length ctrl)) as [F _]; [lia|].
  apply F; auto.
Qed.

Lemma whole_matrix_zero values row col : ~ In (row, col) (supply_indices l) ->
  whole_matrix l values row col = 0%R.
Proof.
  intro H. destruct supply_spec as [L N]. unfold whole_matrix. rewrite l_outer_width.
  destruct (fold_blocks values row col (length ctrl)) as [_ F]; [lia|].
  apply F. intros j r' c' Hj Hr Hc -> ->. apply H. eapply nth_error_In. apply (N j r' c'); auto.
Qed.

End Layout.
