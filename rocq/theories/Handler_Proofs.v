(** * Proofs about the matrix handlers *)
From Coq Require Import Reals Lra Lia List Arith Bool.
From Verif Require Import Base Handler_Model Handler_Spec.
Import ListNotations.
Local Open Scope R_scope.

Definition hits (t : contribution) (r c : nat) : bool :=
  (Nat.eqb (fst (fst t)) r && Nat.eqb (snd (fst t)) c)%bool.
Lemma total_cons t ts r c : total (t :: ts) r c = (if hits t r c then snd t else 0) + total ts r c.
Proof. unfold total, hits. cbn [filter]. destruct (_ && _)%bool; cbn [map fold_right]; ring. Qed.
Lemma total_actual tr ts r c : total (map (actual tr) ts) r c = expected tr ts r c.
Proof.
  unfold expected. induction ts as [|[[r0 c0] v] ts IH]; [destruct tr; reflexivity|].
  cbn [map]. rewrite total_cons, IH. destruct tr; rewrite total_cons; unfold hits; cbn [actual fst snd].
  - rewrite andb_comm. reflexivity.
  - reflexivity.
Qed.

Definition lval (l : list (nat * R)) (r : nat) : R := match lookup l r with Some v => v | None => 0 end.
Lemma lookup_add l r v r' : lookup l r <> None ->
  lookup (add_existing l r v) r' = if Nat.eqb r r' then option_map (fun w => w + v) (lookup l r) else lookup l r'.
Proof.
  induction l as [|[r0 w] l IH]; intro H; [cbn in H; congruence|]. cbn [lookup add_existing] in *.
  destruct (Nat.eqb_spec r0 r).
  - subst r0. cbn [lookup]. destruct (Nat.eqb_spec r r'); reflexivity.
  - cbn [lookup]. rewrite IH by exact H. destruct (Nat.eqb_spec r0 r'); [|reflexivity].
    destruct (Nat.eqb_spec r r'); [congruence|reflexivity].
Qed.
Lemma lookup_insert l r v r' : lookup l r = None ->
  lookup (insert_new l r v) r' = if Nat.eqb r r' then Some v else lookup l r'.
Proof.
  induction l as [|[r0 w] l IH]; intro H; [reflexivity|]. cbn [lookup insert_new] in *.
  destruct (Nat.eqb_spec r0 r); [discriminate|].
  destruct (Nat.ltb r r0); cbn [lookup]; [reflexivity|]. rewrite IH by exact H.
  destruct (Nat.eqb_spec r0 r'); [|reflexivity]. destruct (Nat.eqb_spec r r'); [congruence|reflexivity].
Qed.

Lemma nth_update {A} (l : list A) f : forall i j,
  nth_error (update l i f) j = if Nat.eqb i j then option_map f (nth_error l j) else nth_error l j.
Proof.
  induction l as [|x l IH]; intros i j.
  - cbn. destruct j; destruct (Nat.eqb i _); reflexivity.
  - destruct i, j; cbn [update nth_error Nat.eqb]; try reflexivity. apply IH.
Qed.
Lemma update_length {A} (l : list A) f : forall i, length (update l i f) = length l.
Proof. induction l; intros [|i]; cbn; auto. Qed.
Lemma nth_reserve grow cols : forall c0 c,
  nth_error (reserve grow c0 cols) c
  = option_map (fun x => mkColumn (col_entries x) (col_free x ++ grow (c0 + c)%nat)) (nth_error cols c).
Proof.
  induction cols as [|x cols IH]; intros c0 c; [destruct c; reflexivity|].
  destruct c as [|c]; cbn [reserve nth_error].
  - rewrite Nat.add_0_r. reflexivity.
  - rewrite IH. replace (S c0 + c)%nat with (c0 + S c)%nat by lia. reflexivity.
Qed.
Lemma reserve_length grow cols : forall c, length (reserve grow c cols) = length cols.
Proof. induction cols; intro c; cbn; auto. Qed.

Definition cval (cols : list column) (r c : nat) : R :=
  match nth_error cols c with Some col => lval (col_entries col) r | None => 0 end.
Lemma coeff_cval m r c : coeff m r c = cval (m_cols m) r c. Proof. reflexivity. Qed.

Lemma coeffRef_value grow cols r c v r' c' : (c < length cols)%nat ->
  cval (coeffRef_add grow cols r c v) r' c'
  = cval cols r' c' + (if (Nat.eqb r r' && Nat.eqb c c')%bool then v else 0).
Proof.
  intro H. unfold coeffRef_add, cval. destruct (nth_error cols c) as [col|] eqn:E.
  2:{ apply nth_error_None in E. lia. }
  destruct (lookup (col_entries col) r) as [w|] eqn:L.
  - rewrite nth_update. destruct (Nat.eqb_spec c c'); [|rewrite andb_false_r, Rplus_0_r; reflexivity].
    subst c'. rewrite E. cbn [option_map col_entries]. unfold lval. rewrite lookup_add by congruence.
    destruct (Nat.eqb_spec r r'); cbn [andb]; [|ring]. subst r'. rewrite L. cbn. ring.
  - set (cols' := match col_free col with [] => reserve grow 0 cols | _ => cols end).
    assert (N : nth_error cols' c = Some (mkColumn (col_entries col)
      (match col_free col with [] => grow c | l => l end))).
    { unfold cols'. destruct col as [en fr]. cbn [col_free col_entries] in *. destruct fr; [|exact E].
      rewrite nth_reserve, E. reflexivity. }
    assert (O : forall k, match nth_error cols' k with Some x => lval (col_entries x) r' | None => 0 end
                          = match nth_error cols k with Some x => lval (col_entries x) r' | None => 0 end).
    { intro k. unfold cols'. destruct (col_free col); [|reflexivity]. rewrite nth_reserve.
      destruct (nth_error cols k); reflexivity. }
    rewrite nth_update. destruct (Nat.eqb_spec c c'); [|rewrite andb_false_r, O, Rplus_0_r; reflexivity].
    subst c'. rewrite N, E. cbn [option_map col_entries]. unfold lval. rewrite lookup_insert by exact L.
    destruct (Nat.eqb_spec r r'); cbn [andb]; [|ring]. subst r'. rewrite L. ring.
Qed.
Lemma coeffRef_length grow cols r c v : length (coeffRef_add grow cols r c v) = length cols.
Proof.
  unfold coeffRef_add. destruct (nth_error cols c) as [col|]; [|reflexivity].
  destruct (lookup _ _); rewrite update_length; [reflexivity|].
  destruct (col_free col); [apply reserve_length|reflexivity].
Qed.

Definition fits_in (m : smatrix) (ts : list contribution) : Prop :=
  Forall (fun t : contribution => (fst (fst t) < m_rows m /\ snd (fst t) < length (m_cols m))%nat) ts.
Lemma fits_actual (tr : bool) rows cols ts : fits rows cols ts ->
  Forall (fun t : contribution => (fst (fst t) < (if tr then cols else rows) /\
                                   snd (fst t) < (if tr then rows else cols))%nat) (map (actual tr) ts).
Proof.
  induction 1 as [|[[r c] v] ts [A B] H IH]; cbn [map]; constructor; auto.
  destruct tr; cbn in *; auto.
Qed.
Lemma adds_value grow tr (ts : list contribution) : forall m, fits_in m (map (actual tr) ts) ->
  exists m', coeffref_adds grow tr m ts = Ok m' /\ m_rows m' = m_rows m /\
    length (m_cols m') = length (m_cols m) /\
    forall r c, coeff m' r c = coeff m r c + expected tr ts r c.
Proof.
  induction ts as [|t ts IH]; intros m H; cbn [coeffref_adds map] in *.
  - exists m. repeat split; auto. intros r c. unfold expected, total. destruct tr; cbn; ring.
  - inversion H as [|x l [H1 H2] HT]; subst. destruct (actual tr t) as [[r0 c0] v] eqn:E. cbn [fst snd] in *.
    unfold coeffref_add. rewrite E. unfold inside.
    rewrite (proj2 (Nat.ltb_lt _ _) H1), (proj2 (Nat.ltb_lt _ _) H2). cbn [andb obind].
    destruct (IH (mkMatrix (m_rows m) (coeffRef_add grow (m_cols m) r0 c0 v))) as [m' [A [B [C D]]]].
    { unfold fits_in in *. cbn [m_rows m_cols]. rewrite coeffRef_length. exact HT. }
    exists m'. split; [exact A|]. split; [exact B|]. split; [rewrite C; apply coeffRef_length|].
    intros r c. rewrite D. rewrite !coeff_cval. cbn [m_cols]. rewrite coeffRef_value by exact H2.
    rewrite <- (total_actual tr (t :: ts)). cbn [map]. rewrite total_cons, total_actual, E. unfold hits. cbn [fst snd].
    ring.
Qed.

(** ** Setting to zero *)
Lemma zero_values_all l k : (length l <= k)%nat -> forall r, lval (zero_values k l) r = 0.
Proof.
  revert k. induction l as [|[r0 w] l IH]; intros k H r; [destruct k; reflexivity|].
  destruct k as [|k]; [cbn in H; lia|]. cbn [zero_values]. unfold lval. cbn [lookup].
  destruct (Nat.eqb r0 r); [reflexivity|]. apply IH. cbn in H. lia.
Qed.
Lemma zero_slots_length cols : forall k, length (zero_slots k cols) = length cols.
Proof. induction cols; intro k; cbn; auto. Qed.
Lemma zero_slots_all cols : Forall (fun c => col_free c = []) cols -> forall k,
  (list_sum (map (fun c => length (col_entries c)) cols) <= k)%nat ->
  forall r c, cval (zero_slots k cols) r c = 0.
Proof.
  induction 1 as [|x cols Hx H IH]; intros k Hk r c; [destruct c; reflexivity|].
  cbn [map list_sum fold_right] in Hk. cbn [zero_slots]. unfold cval.
  destruct c as [|c]; cbn [nth_error].
  - cbn [col_entries]. apply zero_values_all. lia.
  - apply IH. rewrite Hx. cbn [length]. unfold list_sum. lia.
Qed.
Lemma create_zero m : compressed m -> forall r c, coeff (coeffref_create m) r c = 0.
Proof.
  intros H r c. unfold coeffref_create. rewrite coeff_cval. cbn [m_cols]. apply zero_slots_all; [|unfold nonZeros; lia].
  eapply Forall_impl; [|exact H]. intros x [A _]. exact A.
Qed.
Lemma fill_value grow tr m ts : compressed m -> fits_in m (map (actual tr) ts) ->
  exists m', coeffref_fill grow tr m ts = Ok m' /\ m_rows m' = m_rows m /\
    length (m_cols m') = length (m_cols m) /\ forall r c, coeff m' r c = expected tr ts r c.
Proof.
  intros H F. destruct (adds_value grow tr ts (coeffref_create m)) as [m' [A [B [C D]]]].
  { unfold fits_in, coeffref_create in *. cbn [m_rows m_cols]. rewrite zero_slots_length. exact F. }
  exists m'. split; [exact A|]. split; [exact B|]. split.
  - rewrite C. unfold coeffref_create. cbn [m_cols]. apply zero_slots_length.
  - intros r c. rewrite D, create_zero by exact H. ring.
Qed.

(** ** The structure does not change if all positions are present *)
Definition structure (m : smatrix) : list (list nat) := map (fun c => map fst (col_entries c)) (m_cols m).
Definition packed (m : smatrix) : Prop := Forall (fun c => col_free c = []) (m_cols m).
Definition present (s : list (list nat)) (r c : nat) : Prop :=
  exists l, nth_error s c = Some l /\ In r l.

Lemma lookup_in l r : lookup l r <> None <-> In r (map fst l).
Proof.
  induction l as [|[r0 w] l IH]; cbn [lookup map In fst].
  - split; [congruence|intros []].
  - destruct (Nat.eqb_spec r0 r).
    + split; [auto|discriminate].
    + rewrite IH. split; [auto|intros [?|?]; [congruence|auto]].
Qed.
Lemma add_existing_fst l r v : map fst (add_existing l r v) = map fst l.
Proof.
  induction l as [|[r0 w] l IH]; [reflexivity|]. cbn [add_existing]. destruct (Nat.eqb r0 r); cbn [map fst]; [reflexivity|].
  rewrite IH. reflexivity.
Qed.
Lemma zero_values_fst l : forall k, map fst (zero_values k l) = map fst l.
Proof. induction l as [|[r0 w] l IH]; intros [|k]; cbn; auto. rewrite IH. reflexivity. Qed.
Lemma map_update {A B} (f : A -> B) g l : (forall x, f (g x) = f x) -> forall i, map f (update l i g) = map f l.
Proof. intros H. induction l as [|x l IH]; intros [|i]; cbn; auto; [rewrite H|rewrite IH]; reflexivity. Qed.
Lemma Forall_update {A} (Q : A -> Prop) g l : (forall x, Q x -> Q (g x)) -> Forall Q l -> forall i, Forall Q (update l i g).
Proof.
  intros H F. induction F; intros [|i]; cbn; constructor; auto.
Qed.
Lemma adds_structure grow tr ts : forall m m', packed m ->
  Forall (fun t : contribution => present (structure m) (fst (fst t)) (snd (fst t))) (map (actual tr) ts) ->
  coeffref_adds grow tr m ts = Ok m' -> structure m' = structure m /\ packed m'.
Proof.
  induction ts as [|t ts IH]; intros m m' HP H E; cbn [coeffref_adds map] in *.
  - injection E as <-. auto.
  - inversion H as [|x l H1 HT]; subst. unfold coeffref_add in E.
    destruct (actual tr t) as [[r0 c0] v] eqn:ET. cbn [fst snd] in H1.
    destruct (inside m (r0, c0, v)); [|discriminate E]. cbn [obind] in E.
    set (m1 := mkMatrix (m_rows m) (coeffRef_add grow (m_cols m) r0 c0 v)) in *.
    assert (S : structure m1 = structure m /\ packed m1).
    { destruct H1 as [l [L1 L2]]. unfold structure in L1. rewrite nth_error_map in L1.
      unfold m1, structure, packed, coeffRef_add. cbn [m_cols].
      destruct (nth_error (m_cols m) c0) as [col|] eqn:EC; [|discriminate].
      cbn in L1. injection L1 as <-. apply lookup_in in L2.
      destruct (lookup (col_entries col) r0); [|congruence]. split.
      - apply map_update. intro x. cbn [col_entries]. apply add_existing_fst.
      - apply Forall_update; auto. }
    destruct S as [S1 S2]. destruct (IH m1 m' S2) as [A B].
    + rewrite S1. exact HT.
    + exact E.
    + split; [congruence|exact B].
Qed.
Lemma zero_free_nil k : zero_free k [] = []. Proof. destruct k; reflexivity. Qed.
Lemma create_structure m : packed m -> structure (coeffref_create m) = structure m /\ packed (coeffref_create m).
Proof.
  unfold structure, packed, coeffref_create. cbn [m_cols]. intro H. generalize (nonZeros m) as k.
  induction H as [|x cols Hx H IH]; intro k; [cbn; auto|]. cbn [zero_slots map col_entries].
  destruct (IH (k - length (col_entries x) - length (col_free x))%nat) as [A B]. split.
  - rewrite zero_values_fst, A. reflexivity.
  - constructor; [cbn [col_free]; rewrite Hx; apply zero_free_nil|exact B].
Qed.
Lemma fill_structure grow tr m m' ts : packed m ->
  Forall (fun t : contribution => present (structure m) (fst (fst t)) (snd (fst t))) (map (actual tr) ts) ->
  coeffref_fill grow tr m ts = Ok m' -> structure m' = structure m /\ packed m'.
Proof.
  intros HP H E. destruct (create_structure m HP) as [A B]. unfold coeffref_fill in E.
  apply adds_structure in E; auto; [destruct E as [C D]; split; [congruence|auto]|]. rewrite A. exact H.
Qed.

Lemma compressed_packed m : compressed m <-> packed m /\ Forall (fun s => NoDup s) (structure m).
Proof.
  unfold compressed, packed, structure. rewrite Forall_map, !Forall_forall. split.
  - intro H. split; intros x Hx; apply (H x Hx).
  - intros [A B] x Hx. split; [apply A|apply B]; exact Hx.
Qed.
Lemma present_fits m r c : present (structure m) r c -> (c < length (m_cols m))%nat.
Proof.
  intros [l [H _]]. unfold structure in H. rewrite <- (map_length (fun c => map fst (col_entries c))).
  apply nth_error_Some. congruence.
Qed.

(** ** Building *)
Lemma triplet_column_value c ts : forall acc r,
  lval (triplet_column c ts acc) r = lval acc r + total ts r c.
Proof.
  induction ts as [|[[r0 c0] v] ts IH]; intros acc r; cbn [triplet_column].
  - unfold total. cbn. ring.
  - rewrite IH, total_cons. unfold hits. cbn [fst snd].
    destruct (Nat.eqb_spec c0 c); [|rewrite andb_false_r; ring]. rewrite andb_true_r.
    destruct (lookup acc r0) as [w|] eqn:L; unfold lval.
    + rewrite lookup_add by congruence. destruct (Nat.eqb_spec r0 r); [|ring]. subst r0. rewrite L. cbn. ring.
    + rewrite lookup_insert by exact L. destruct (Nat.eqb_spec r0 r); [|ring]. subst r0. rewrite L. ring.
Qed.
Lemma insert_new_in l r v r' : In r' (map fst (insert_new l r v)) <-> r = r' \/ In r' (map fst l).
Proof.
  induction l as [|[r0 w] l IH]; cbn [insert_new]; [cbn; tauto|]. destruct (Nat.ltb r r0); cbn [map fst In]; [tauto|].
  rewrite IH. tauto.
Qed.
Lemma insert_new_nodup l r v : ~ In r (map fst l) -> NoDup (map fst l) -> NoDup (map fst (insert_new l r v)).
Proof.
  induction l as [|[r0 w] l IH]; intros H ND; cbn [insert_new].
  - cbn. constructor; [intros []|constructor].
  - destruct (Nat.ltb r r0); cbn [map fst] in *; [constructor; auto|]. inversion ND; subst.
    constructor; [|apply IH; auto; intro K; apply H; right; exact K].
    rewrite insert_new_in. intros [->|K]; [apply H; left; reflexivity|auto].
Qed.
Lemma triplet_column_structure c ts : forall acc, NoDup (map fst acc) ->
  NoDup (map fst (triplet_column c ts acc)) /\
  forall r, In r (map fst (triplet_column c ts acc)) <-> In r (map fst acc) \/ In (r, c) (positions ts).
Proof.
  induction ts as [|[[r0 c0] v] ts IH]; intros acc ND; cbn [triplet_column].
  - split; [exact ND|]. intro r. cbn. tauto.
  - set (acc' := if Nat.eqb c0 c then _ else acc).
    assert (A : NoDup (map fst acc') /\ forall r, In r (map fst acc') <-> In r (map fst acc) \/ (r0, c0) = (r, c)).
    { unfold acc'. destruct (Nat.eqb_spec c0 c).
      - subst c0. destruct (lookup acc r0) as [w0|] eqn:L.
        + rewrite add_existing_fst. split; [exact ND|]. intro r. split; [auto|].
          intros [K|K]; [exact K|]. injection K as ->. apply lookup_in. congruence.
        + assert (NI : ~ In r0 (map fst acc)) by (intro K; apply lookup_in in K; congruence).
          split; [apply insert_new_nodup; auto|]. intro r. rewrite insert_new_in.
          split; [intros [->|K]; auto|intros [K|K]; [auto|injection K as ->; auto]].
      - split; [exact ND|]. intro r. split; [auto|]. intros [K|K]; [exact K|congruence]. }
    destruct A as [A1 A2]. destruct (IH acc' A1) as [B1 B2]. split; [exact B1|]. intro r. rewrite B2, A2.
    cbn [positions map fst In]. unfold positions. tauto.
Qed.
Lemma build tr rows cols ts : fits rows cols ts ->
  exists m, triplet_fill tr (if tr then cols else rows) (if tr then rows else cols) ts = Ok m /\
    compressed m /\ m_rows m = (if tr then cols else rows) /\ length (m_cols m) = (if tr then rows else cols) /\
    (forall r c, coeff m r c = expected tr ts r c) /\
    forall t, In t ts -> present (structure m) (fst (fst (actual tr t))) (snd (fst (actual tr t))).
Proof.
  intro F. apply (fits_actual tr) in F. revert F.
  set (H := if tr then cols else rows). set (K := if tr then rows else cols). intro F.
  unfold triplet_fill. replace (forallb _ ts) with true.
  2:{ symmetry. apply forallb_forall. intros t Ht. unfold inside. rewrite Forall_forall in F.
      destruct (F (actual tr t) (in_map _ _ _ Ht)) as [A B]. destruct (actual tr t) as [[r1 c1] v]. cbn [fst snd m_rows m_cols] in *.
      rewrite repeat_length. rewrite (proj2 (Nat.ltb_lt _ _) A), (proj2 (Nat.ltb_lt _ _) B). reflexivity. }
  exists (setFromTriplets H K (map (actual tr) ts)). split; [reflexivity|].
  assert (CC : forall c, (c < K)%nat -> nth_error (m_cols (setFromTriplets H K (map (actual tr) ts))) c
     = Some (mkColumn (triplet_column c (map (actual tr) ts) []) [])).
  { intros c Hc. cbn [setFromTriplets m_cols]. rewrite nth_error_map.
    assert (N : nth_error (seq 0 K) c = Some c).
    { rewrite nth_error_nth' with (d := 0%nat) by (rewrite seq_length; exact Hc). rewrite seq_nth by exact Hc. reflexivity. }
    rewrite N. reflexivity. }
  split; [|split; [reflexivity|split; [|split]]].
  - unfold compressed. cbn [setFromTriplets m_cols]. apply Forall_map, Forall_forall. intros c Hc. cbn [col_free col_entries].
    split; [reflexivity|]. apply triplet_column_structure. constructor.
  - cbn. rewrite map_length, seq_length. reflexivity.
  - intros r c. rewrite <- total_actual. unfold coeff. destruct (le_lt_dec K c) as [G|G].
    + assert (E : nth_error (m_cols (setFromTriplets H K (map (actual tr) ts))) c = None).
      { apply nth_error_None. cbn. rewrite map_length, seq_length. exact G. }
      rewrite E. clear E CC. induction F as [|t l [A B] F IH]; [reflexivity|].
      rewrite total_cons, <- IH. unfold hits. destruct (Nat.eqb_spec (snd (fst t)) c); [lia|]. rewrite andb_false_r. ring.
    + rewrite CC by exact G. cbn [col_entries]. fold (lval (triplet_column c (map (actual tr) ts) []) r).
      rewrite triplet_column_value. unfold lval. cbn. ring.
  - intros t Ht. rewrite Forall_forall in F. destruct (F (actual tr t) (in_map _ _ _ Ht)) as [A B].
    exists (map fst (triplet_column (snd (fst (actual tr t))) (map (actual tr) ts) [])). split.
    + unfold structure. rewrite nth_error_map, CC by exact B. reflexivity.
    + apply triplet_column_structure; [constructor|]. right. unfold positions. apply in_map_iff.
      exists (actual tr t). split; [destruct (actual tr t) as [[r1 c1] v]; reflexivity|apply in_map; exact Ht].
Qed.

Lemma refill_all grow tr fills : forall m,
  compressed m ->
  Forall (fun ts => fits_in m (map (actual tr) ts) /\
    Forall (fun t : contribution => present (structure m) (fst (fst t)) (snd (fst t))) (map (actual tr) ts)) fills ->
  exists m', refills grow tr m fills = Ok m' /\ compressed m' /\ structure m' = structure m /\
    m_rows m' = m_rows m /\
    forall ts, last fills [] = ts -> fills <> [] -> forall r c, coeff m' r c = expected tr ts r c.
Proof.
  induction fills as [|ts fills IH]; intros m HC H; cbn [refills].
  - exists m. repeat split; auto. congruence.
  - inversion H as [|x l [F1 F2] HT]; subst.
    destruct (fill_value grow tr m ts HC F1) as [m1 [E [R1 [L1 V1]]]]. rewrite E. cbn [obind].
    pose proof (proj1 (compressed_packed m) HC) as [HP HN].
    destruct (fill_structure grow tr m m1 ts HP F2 E) as [S1 P1].
    assert (C1 : compressed m1) by (apply compressed_packed; rewrite S1; auto).
    destruct (IH m1 C1) as [m' [E' [C' [S' [R' V']]]]].
    { rewrite S1. unfold fits_in. rewrite R1, L1. exact HT. }
    exists m'. split; [exact E'|]. split; [exact C'|]. split; [congruence|]. split; [congruence|].
    intros ts' HL HF r c. destruct fills as [|ts2 fills].
    + cbn in HL. subst ts'. cbn in E'. injection E' as <-. apply V1.
    + apply V'; [exact HL|discriminate].
Qed.
