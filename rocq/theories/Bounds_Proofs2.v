(** * Proofs about the values of sinks *)
From Coq Require Import Reals List Bool Arith Lia Lra String Sorted.
From Verif Require Import Base Interp_Model Interp_Spec Interp_Proofs Interp_Proofs2 Json_Model Json_Spec Json_Proofs Json_Proofs2 Json_Proofs3
  Json_Props Defaults_Model Controls_Model Controls_Spec Controls_Proofs Controls_Proofs2 Controls_Proofs3 Bounds_Model Bounds_Spec.
Import ListNotations.
Local Open Scope string_scope.
Local Open Scope list_scope.

(** ** Interpolation is linear *)
Lemma segment_neg l s n : segment (map Ropp l) s n = omap (map Ropp) (segment l s n).
Proof. unfold segment. rewrite map_length. destruct (_ <=? _)%nat; [|reflexivity]. cbn. rewrite skipn_map, firstn_map. reflexivity. Qed.
Lemma combine_neg la a b : combine_rows la (map Ropp a) (map Ropp b) = map Ropp (combine_rows la a b).
Proof. revert b. induction a as [|x a IH]; intros [|y b]; cbn; [reflexivity..|]. rewrite IH. f_equal. lra. Qed.
Lemma interp_neg v t : interp_at (negative v) t = omap (map Ropp) (interp_at v t).
Proof.
  unfold interp_at, negative. cbn [ipoints iinner ivalues]. destruct (ipoints v) as [|p0 ps]; [reflexivity|].
  destruct (Rleb _ t); [destruct (Rltb _ t); [reflexivity|apply segment_neg]|].
  destruct (Rleb t p0); [destruct (Rltb t _); [reflexivity|apply segment_neg]|].
  destruct (_ =? 0)%nat; [reflexivity|].
  destruct (get (p0 :: ps) (lower_bound (p0 :: ps) t)) as [a| |]; cbn [obind]; [|reflexivity..].
  destruct (get (p0 :: ps) (lower_bound (p0 :: ps) t - 1)) as [b| |]; cbn [obind]; [|reflexivity..].
  rewrite !segment_neg. destruct (segment (ivalues v) (lower_bound (p0 :: ps) t * iinner v) (iinner v)) as [x| |]; cbn [omap obind]; [|reflexivity..].
  match goal with |- context [segment ?l ?s ?n] => destruct (segment l s n) as [y| |] end; cbn [omap obind]; [|reflexivity..].
  rewrite combine_neg. reflexivity.
Qed.
Lemma negative_negative v : negative (negative v) = v.
Proof.
  destruct v as [p m l]. unfold negative. cbn. f_equal. rewrite map_map. rewrite <- (map_id l) at 2. apply map_ext. intro. lra.
Qed.

(** ** Which documents can be read *)
Lemma fill_rows_inv es : forall todo v w, fill_rows (JArr es) todo v = Ok w ->
  forall i, In i todo -> exists e r, nth_error es i = Some e /\ row_of e = Ok r /\ List.length r = iinner v.
Proof.
  induction todo as [|k todo IH]; intros v w H i I; [destruct I|]. cbn [fill_rows] in H.
  apply obind_Ok in H. destruct H as (e & E & H). apply obind_Ok in H. destruct H as (r & R & H). apply obind_Ok in H. destruct H as (v1 & S & H).
  assert (Q : List.length r = iinner v /\ iinner v1 = iinner v).
  { unfold set_row in S. destruct (_ <? _)%nat; [discriminate|]. destruct (Nat.eqb_spec (List.length r) (iinner v)); [|discriminate].
    injection S as <-. auto. }
  destruct Q as [Q1 Q2]. destruct I as [<-|I].
  - exists e, r. cbn in E. apply get_Ok in E. auto.
  - destruct (IH v1 w H i I) as (e' & r' & A & B & C). exists e', r'. rewrite <- Q2. auto.
Qed.
Lemma omapM_inv {A B} (f : A -> outcome B) l : forall r, omapM f l = Ok r -> Forall2 (fun x y => f x = Ok y) l r.
Proof.
  induction l as [|x l IH]; intros r H; cbn [omapM] in H; [injection H as <-; constructor|].
  apply obind_Ok in H. destruct H as (y & E & H). apply obind_Ok in H. destruct H as (ys & F & H). injection H as <-. constructor; auto.
Qed.

Definition coordinate (e : json) : string := if contains e "x" then "x" else "time".
Lemma construct_iff uninit n j iv : construct_from_json uninit j (make_boundary_schema n) = Ok iv <->
  control_ok n j /\ exists fs e0 es rows, j = JObj fs /\ field fs "data" = Some (JArr (e0 :: es)) /\
    Forall2 (reads (coordinate e0) n) (e0 :: es) rows /\ iv = mk_ivec (map fst rows) n (List.concat (map snd rows)).
Proof.
  split.
  - intro H. pose proof H as H0. unfold construct_from_json, validate_json in H.
    destruct (valid _ _ j) eqn:V; [|discriminate]. cbn [obind] in H.
    pose proof (proj1 (valid_boundary_schema n j) V) as Ok1. split; [exact Ok1|].
    destruct Ok1 as (fs & -> & _ & D & _ & Dv). exists fs. destruct (field fs "data") as [d|] eqn:Fd; [|congruence].
    destruct (Dv d) as (es0 & -> & Es); [apply field_in; exact Fd|].
    cbn [at_const] in H. rewrite Fd in H. cbn [obind] in H. destruct es0 as [|e0 es]; [discriminate|]. cbn [front obind] in H.
    fold (coordinate e0) in H. apply obind_Ok in H. destruct H as (pts & P & H). apply obind_Ok in H. destruct H as (vs & Vs & H).
    rewrite (omapM_map snd (fun e => obind (at_const e (coordinate e0)) get_double)), items_arr in P.
    apply omapM_inv in P. apply obind_Ok in H. destruct H as (v & C & H).
    unfold ctor_from_vector, vector_move_construct in C. cbn [is_sorted negb] in C. injection C as <-.
    assert (Sz : size vs = n).
    { unfold at_const in Vs. destruct e0 as [| | | | |f0]; try discriminate. destruct (field f0 "values") as [v0|] eqn:F0; [|discriminate].
      injection Vs as ->. destruct (Es _ (or_introl eq_refl) f0 eq_refl) as [_ N]. destruct (N vs) as (l & -> & L); [apply field_in; exact F0|].
      cbn. rewrite map_length. exact L. }
    rewrite Sz in *.
    assert (Lp : List.length pts = List.length (e0 :: es)) by (clear -P; induction P; cbn; congruence).
    assert (K : exists rows, Forall2 (reads (coordinate e0) n) (e0 :: es) rows).
    { assert (Rr : forall i e, nth_error (e0 :: es) i = Some e -> exists r, row_of e = Ok r /\ List.length r = n).
      { intros i e Q. destruct (fill_rows_inv _ _ _ _ H i) as (e' & r & A & B & C).
        - apply in_seq. rewrite Lp. split; [lia|]. apply nth_error_Some. congruence.
        - cbn [iinner] in C. exists r. split; congruence. }
      clear -P Rr. induction P as [|e t l ts Q P IH]; [exists []; constructor|].
      destruct (Rr O e eq_refl) as (r & A & B). destruct IH as [rows F]; [intros i e' Q'; apply (Rr (S i) e' Q')|].
      exists ((t, r) :: rows). constructor; [|exact F]. split; [exact Q|]. split; assumption. }
    destruct K as [rows F]. exists e0, es, rows. split; [reflexivity|]. split; [first [exact Fd|reflexivity]|]. split; [exact F|].
    pose proof (construct_ok uninit (JObj fs) (make_boundary_schema n) e0 es rows vs V) as K.
    cbn [at_const] in K. rewrite Fd in K. rewrite Sz in K. specialize (K eq_refl Vs F). rewrite K in H0. congruence.
  - intros (C & fs & e0 & es & rows & -> & Fd & F & ->).
    assert (N : exists vs, at_const e0 "values" = Ok vs /\ size vs = n).
    { inversion F as [|? tr ? ? [A [B L]] F']; subst. unfold row_of in B. apply obind_Ok in B. destruct B as (vs & Vs & B). exists vs. split; [exact Vs|].
      apply omapM_inv in B. clear -B. rewrite <- (seq_length (size vs) 0). induction B; cbn; congruence. }
    destruct N as (vs & Vs & <-). apply (construct_ok uninit (JObj fs) (make_boundary_schema (size vs)) e0 es rows vs).
    + apply valid_boundary_schema, C.
    + cbn [at_const]. rewrite Fd. reflexivity.
    + exact Vs.
    + exact F.
Qed.

(** ** Reverting *)
Lemma set_field_In fs k v : In (k, v) (set_field fs k v) /\
  (forall k' w, In (k', w) (set_field fs k v) -> (k', w) = (k, v) \/ In (k', w) fs) /\
  (forall k' w, In (k', w) fs -> In (k', w) (set_field fs k v) \/ (k' = k /\ field fs k = Some w)).
Proof.
  induction fs as [|[k0 v0] fs (A & B & C)]; cbn [set_field].
  - split; [left; reflexivity|]. split; [intros k' w [E|[]]; auto|intros k' w []].
  - destruct (String.compare k k0) eqn:E.
    + apply compare_eq in E. subst k0. split; [left; reflexivity|]. split; [intros k' w [E|I]; auto; right; right; exact I|].
      intros k' w [E|I]; [|left; right; exact I]. injection E as <- <-. right. cbn. rewrite String.eqb_refl. auto.
    + split; [left; reflexivity|]. split; [intros k' w [Q|I]; auto|]. intros k' w I. left. right. exact I.
    + split; [right; exact A|]. split.
      * intros k' w [Q|I]; [right; left; exact Q|]. destruct (B k' w I); auto. right. right. assumption.
      * intros k' w [Q|I]; [left; left; exact Q|]. destruct (C k' w I) as [D|[D1 D2]]; [left; right; exact D|]. right. split; [exact D1|].
        cbn. destruct (String.eqb_spec k0 k) as [->|]; [|exact D2]. rewrite compare_refl in E. discriminate.
Qed.

Lemma negate_values_numbers l : negate_values (JArr (map JNum l)) = Ok (JArr (map JNum (map Ropp l))).
Proof.
  unfold negate_values. cbn [elems]. enough (E : omapM negate_value (map JNum l) = Ok (map JNum (map Ropp l))) by (rewrite E; reflexivity).
  induction l as [|x l IH]; [reflexivity|]. cbn [map omapM]. rewrite IH. reflexivity.
Qed.
Lemma negate_values_inv vs l : negate_values vs = Ok (JArr (map JNum l)) -> vs = JArr (map JNum (map Ropp l)).
Proof.
  unfold negate_values. intro H. destruct (omapM negate_value (elems vs)) as [r| |] eqn:E; try discriminate. cbn [omap] in H. injection H as H.
  apply omapM_inv in E. destruct vs as [|b|x|s|es|fs]; cbn [with_elems elems] in *; try discriminate.
  - inversion E as [|? ? ? ? Q F]; subst. discriminate Q.
  - inversion E as [|? y ? ? Q F]; subst. inversion F; subst. cbn in Q. injection Q as <-. discriminate H.
  - inversion E as [|? ? ? ? Q F]; subst. discriminate Q.
  - injection H as ->. f_equal. clear -E. remember (map JNum l) as r eqn:R. revert l R.
    induction E as [|x y es r Q E IH]; intros [|a l] R; try discriminate; [reflexivity|].
    cbn [map] in R. injection R as -> ->. cbn [map]. rewrite <- (IH l eq_refl). f_equal.
    destruct x; try discriminate. cbn in Q. injection Q as Q. f_equal. lra.
Qed.

(** What the code does to an entry with [n] numbers. *)
Definition flipped (n : nat) (e e' : json) : Prop := exists fs l, e = JObj fs /\ List.length l = n /\ field fs "values" = Some (JArr (map JNum l)) /\ e' = JObj (set_field fs "values" (JArr (map JNum (map Ropp l)))).

Lemma row_numbers fs l : field fs "values" = Some (JArr (map JNum l)) -> row_of (JObj fs) = Ok l.
Proof.
  intro F. pose proof (row_of_entry "time" (0%R, l) ltac:(discriminate)) as K. unfold row_of, row_entry, at_const in *.
  rewrite field_set in K. change (String.eqb "time" "values") with false in K. cbn [field] in K. rewrite String.eqb_refl in K. rewrite F. exact K.
Qed.
Lemma flipped_reads n e e' name t r : flipped n e e' -> name <> "values" -> (reads name n e (t, r) <-> reads name n e' (t, map Ropp r)).
Proof.
  intros (fs & l & -> & L & F & ->) N. unfold reads. cbn [fst snd]. rewrite map_length.
  rewrite (row_numbers fs l F), (row_numbers _ (map Ropp l)) by (rewrite field_set, String.eqb_refl; reflexivity).
  assert (E : at_const (JObj (set_field fs "values" (JArr (map JNum (map Ropp l))))) name = at_const (JObj fs) name).
  { unfold at_const. rewrite field_set. destruct (String.eqb_spec "values" name); [congruence|reflexivity]. }
  rewrite E. split; intros (A & B & C); (split; [exact A|split; [|exact C]]).
  - injection B as ->. reflexivity.
  - injection B as B. f_equal. rewrite <- (map_id l), <- (map_id r). rewrite <- (map_ext (fun x => - - x)%R (fun x => x)), <- (map_ext (fun x => - - x)%R (fun x => x) ltac:(intro; lra) r) by (intro; lra).
    rewrite <- !(map_map Ropp Ropp). congruence.
Qed.
Lemma flipped_coordinate n e e' : flipped n e e' -> coordinate e' = coordinate e.
Proof. intros (fs & l & -> & L & F & ->). unfold coordinate, contains. rewrite field_set. reflexivity. Qed.
Lemma flipped_ok n e e' : flipped n e e' -> (entry_ok n e <-> entry_ok n e').
Proof.
  intros (fs & l & -> & L & F & ->). destruct (set_field_In fs "values" (JArr (map JNum (map Ropp l)))) as (A & B & C).
  unfold entry_ok. split; intros H fs' E; injection E as <-; destruct (H _ eq_refl) as [T V]; (split; intros v I).
  - destruct (B _ _ I) as [E|J]; [discriminate|apply T, J].
  - destruct (B _ _ I) as [E|J]; [|apply V, J]. injection E as ->. exists (map Ropp l). rewrite map_length. auto.
  - destruct (C _ _ I) as [J|[E _]]; [apply T, J|discriminate].
  - destruct (C _ _ I) as [J|[_ E]]; [apply V, J|]. rewrite F in E. injection E as <-. exists l. auto.
Qed.
Lemma flipped_datum n e e' : flipped n e e' -> negate_datum e = Ok e'.
Proof.
  intros (fs & l & -> & L & F & ->). unfold negate_datum, at_mut. rewrite F. cbn [obind fst snd]. rewrite negate_values_numbers. reflexivity.
Qed.
Lemma reads_flipped n e tr name : entry_ok n e -> reads name n e tr -> exists e', flipped n e e'.
Proof.
  intros Ho (A & B & C). unfold row_of in B. destruct e as [| | | | |fs]; try discriminate. cbn [at_const] in B.
  destruct (field fs "values") as [v|] eqn:F; [|discriminate]. destruct (Ho fs eq_refl) as [_ V]. destruct (V v) as (l & -> & L); [apply field_in; exact F|].
  eexists. exists fs, l. repeat split; auto.
Qed.
Lemma datum_flipped n e e' tr name : negate_datum e = Ok e' -> name <> "values" -> entry_ok n e' -> reads name n e' tr -> flipped n e e'.
Proof.
  intros D N Ho (A & B & C). unfold negate_datum in D. apply obind_Ok in D. destruct D as ([e1 vs] & M & D). cbn [fst snd] in D.
  apply obind_Ok in D. destruct D as (ws & W & D).
  destruct e as [| | | | |fs]; try discriminate; cbn [at_mut] in M.
  - injection M as <- <-. cbn in W. injection W as <-. cbn in D. injection D as <-. cbn [at_const field obind] in A.
    destruct (String.eqb_spec "values" name); [congruence|discriminate].
  - destruct (field fs "values") as [v|] eqn:F.
    + injection M as <- <-. cbn [assign] in D. injection D as <-. destruct (Ho _ eq_refl) as [_ V].
      destruct (V ws) as (l & -> & L); [apply set_field_In|]. apply negate_values_inv in W. subst v.
      exists fs, (map Ropp l). rewrite map_length. split; [reflexivity|]. split; [exact L|]. split; [exact F|].
      rewrite !map_map. do 3 f_equal. apply map_ext. intro. f_equal. lra.
    + injection M as <- <-. cbn in W. injection W as <-. cbn [assign] in D. injection D as <-. destruct (Ho _ eq_refl) as [_ V].
      destruct (V JNull) as (l & E & _); [apply set_field_In|]. discriminate.
Qed.

(** The whole list. *)
Definition turned (rows : list (R * list R)) : list (R * list R) := map (fun tr => (fst tr, map Ropp (snd tr))) rows.
Lemma turned_vector rows n : mk_ivec (map fst (turned rows)) n (List.concat (map snd (turned rows))) = negative (mk_ivec (map fst rows) n (List.concat (map snd rows))).
Proof. unfold negative, turned. cbn [ipoints iinner ivalues]. rewrite concat_map, !map_map. reflexivity. Qed.
Lemma turned_turned rows : turned (turned rows) = rows.
Proof.
  unfold turned. rewrite map_map. rewrite <- (map_id rows) at 2. apply map_ext. intros [t r]. cbn. f_equal. rewrite map_map.
  rewrite <- (map_id r) at 2. apply map_ext. intro. lra.
Qed.

Definition flipped_document (n : nat) (j j' : json) : Prop := exists fs es es',
  j = JObj fs /\ field fs "data" = Some (JArr es) /\ Forall2 (flipped n) es es' /\ j' = JObj (set_field fs "data" (JArr es')).

Lemma flipped_control n j j' : flipped_document n j j' -> (control_ok n j <-> control_ok n j').
Proof.
  intros (fs & es & es' & -> & Fd & F & ->). destruct (set_field_In fs "data" (JArr es')) as (A & B & C).
  assert (I1 : forall e', In e' es' -> exists e, In e es /\ flipped n e e').
  { clear -F. induction F as [|e e' es es' H F IH]; intros x I; [destruct I|]. destruct I as [<-|I]; [exists e; auto with datatypes|].
    destruct (IH x I) as (y & Y & Z). exists y. auto with datatypes. }
  assert (I2 : forall e, In e es -> exists e', In e' es' /\ flipped n e e').
  { clear -F. induction F as [|e e' es es' H F IH]; intros x I; [destruct I|]. destruct I as [<-|I]; [exists e'; auto with datatypes|].
    destruct (IH x I) as (y & Y & Z). exists y. auto with datatypes. }
  unfold control_ok. split; intros (gs & E & H1 & H2 & H3 & H4); injection E as <-; (eexists; split; [reflexivity|]).
  - rewrite !field_set. change (String.eqb "data" "id") with false. rewrite String.eqb_refl. split; [exact H1|]. split; [discriminate|]. split.
    + intros v I. destruct (B _ _ I) as [E|J]; [discriminate|apply H3, J].
    + intros v I. destruct (B _ _ I) as [E|J]; [|apply H4, J]. injection E as ->. exists es'. split; [reflexivity|]. intros e' I'.
      destruct (I1 e' I') as (e & Ie & Fe). apply (flipped_ok n e e' Fe). destruct (H4 (JArr es)) as (es0 & E & Ho); [apply field_in, Fd|].
      injection E as <-. apply Ho, Ie.
  - rewrite !field_set in *. change (String.eqb "data" "id") with false in *. cbn iota in *. split; [exact H1|]. split; [congruence|]. split.
    + intros v I. destruct (C _ _ I) as [J|[E _]]; [apply H3, J|discriminate].
    + intros v I. destruct (C _ _ I) as [J|[_ E]]; [apply H4, J|]. rewrite Fd in E. injection E as <-. exists es. split; [reflexivity|]. intros e Ie.
      destruct (I2 e Ie) as (e' & Ie' & Fe). apply (flipped_ok n e e' Fe). destruct (H4 (JArr es') A) as (es0 & E & Ho).
      injection E as <-. apply Ho, Ie'.
Qed.

Lemma flipped_construct uninit n j j' iv : flipped_document n j j' ->
  (construct_from_json uninit j (make_boundary_schema n) = Ok iv <-> construct_from_json uninit j' (make_boundary_schema n) = Ok (negative iv)).
Proof.
  intro Fl. rewrite !construct_iff, (flipped_control n j j' Fl). destruct Fl as (fs & es & es' & -> & Fd & F & ->).
  split; intros (C & gs & e0 & rest & rows & E & D & Fr & Q); (split; [exact C|]); injection E as <-.
  - rewrite Fd in D. injection D as ->. inversion F as [|? e0' ? rest' F0 F1]; subst.
    eexists; exists e0', rest', (turned rows). split; [reflexivity|]. split; [rewrite field_set, String.eqb_refl; reflexivity|].
    rewrite turned_vector. split; [|reflexivity]. rewrite (flipped_coordinate n e0 e0' F0).
    assert (Nm : coordinate e0 <> "values") by (unfold coordinate; destruct (contains e0 "x"); discriminate).
    revert F Fr Nm. generalize (coordinate e0). clear. intros name F. revert rows. induction F as [|e e' es es' H F IH]; intros rows Fr N; inversion Fr as [|? [t r] ? ? A B]; subst; constructor.
    + apply (flipped_reads n e e' name t r H N). exact A.
    + apply IH; assumption.
  - rewrite field_set, String.eqb_refl in D. injection D as ->. inversion F as [|e1 ? es1 ? F0 F1]; subst.
    exists fs, e1, es1, (turned rows). split; [reflexivity|]. split; [exact Fd|]. rewrite turned_vector, <- Q, negative_negative. split; [|reflexivity].
    rewrite (flipped_coordinate n e1 e0 F0) in Fr.
    assert (Nm : coordinate e1 <> "values") by (unfold coordinate; destruct (contains e1 "x"); discriminate).
    rewrite <- (turned_turned rows) in Fr. revert F Fr Nm. generalize (coordinate e1), (turned rows). clear. intros name rows F. revert rows.
    induction F as [|e e' es es' H F IH]; intros rows Fr N; inversion Fr as [|? tr ? ? A B E1 E2]; subst; destruct rows as [|[t r] rows]; try discriminate; constructor.
    + cbn in E2. injection E2 as -> ->. apply (flipped_reads n e e' name t r H N). exact A.
    + cbn in E2. injection E2 as -> ->. apply IH; assumption.
Qed.

(** ** Sinks *)
Lemma sink_forward uninit data iv : source_values uninit data = Ok iv -> sink_values uninit data = Ok (negative iv).
Proof.
  unfold source_values at 1. intro H. apply obind_Ok in H. destruct H as (b & B & H). pose proof H as H0.
  apply construct_iff in H. destruct H as (C & fs & e0 & es & rows & -> & Fd & Fr & ->).
  unfold at_const in B. destruct data as [| | | | |ds]; try discriminate. destruct (field ds "boundary_values") as [b|] eqn:Fb; [|discriminate]. injection B as ->.
  assert (Ho : forall e, In e (e0 :: es) -> entry_ok 1 e).
  { destruct C as (gs & E & _ & _ & _ & D). injection E as <-. destruct (D (JArr (e0 :: es))) as (es0 & E & Ho); [apply field_in, Fd|]. injection E as <-. exact Ho. }
  assert (K : exists es', Forall2 (flipped 1) (e0 :: es) es').
  { revert Fr Ho. generalize (coordinate e0), (e0 :: es), rows. clear. intros name es rows F. induction F as [|e tr es rows H F IH]; intro Ho; [exists []; constructor|].
    destruct IH as [es' F']; [intros x I; apply Ho; right; exact I|]. destruct (reads_flipped 1 e tr name (Ho e (or_introl eq_refl)) H) as [e' Fe].
    exists (e' :: es'). constructor; assumption. }
  destruct K as [es' F].
  assert (D : omapM negate_datum (e0 :: es) = Ok es').
  { apply omapM_Forall2. clear -F. induction F; constructor; auto. eapply flipped_datum. eassumption. }
  unfold sink_values, revert_boundary_conditions. cbn [contains]. rewrite Fb. cbn [at_mut]. rewrite Fb. cbn [obind fst snd at_mut]. rewrite Fd. cbn [obind fst snd elems].
  rewrite D. cbn [obind with_elems assign fst snd]. unfold source_values. cbn [at_const]. rewrite field_set, String.eqb_refl. cbn [obind].
  apply (flipped_construct uninit 1 (JObj fs)); [|exact H0]. exists fs, (e0 :: es), es'. auto.
Qed.

Lemma sink_backward uninit data iv : sink_values uninit data = Ok (negative iv) -> source_values uninit data = Ok iv.
Proof.
  unfold sink_values, revert_boundary_conditions. intro H. apply obind_Ok in H. destruct H as (data' & R & H).
  destruct (contains data "boundary_values") eqn:Cn; [|destruct (at_const data "id"); discriminate].
  destruct data as [| | | | |ds]; try discriminate. cbn [contains] in Cn. destruct (field ds "boundary_values") as [b|] eqn:Fb; [|discriminate]. clear Cn.
  cbn [at_mut] in R. rewrite Fb in R. cbn [obind fst snd] in R. apply obind_Ok in R. destruct R as ([b1 d] & M & R). cbn [fst snd] in R.
  apply obind_Ok in R. destruct R as (es' & E & R). apply obind_Ok in R. destruct R as (b' & B & R). cbn [assign] in R. injection R as <-.
  unfold source_values in H. cbn [at_const] in H. rewrite field_set, String.eqb_refl in H. cbn [obind] in H.
  unfold source_values. cbn [at_const]. rewrite Fb. cbn [obind].
  pose proof H as H0. apply construct_iff in H. destruct H as (C & fs' & e0' & rest' & rows & -> & Fd' & Fr & _).
  destruct b as [| | | | |fs]; try discriminate; cbn [at_mut] in M.
  - injection M as <- <-. cbn in E. injection E as <-. cbn in B. injection B as <-. cbn in Fd'. discriminate.
  - assert (Q : exists es, field fs "data" = Some (JArr es) /\ d = JArr es /\ b1 = JObj fs).
    { destruct (field fs "data") as [d0|] eqn:Fd.
      - injection M as <- <-. cbn [assign] in B. injection B as <-. rewrite field_set, String.eqb_refl in Fd'. injection Fd' as Fd'.
        destruct d0 as [|x|x|x|es|gs]; cbn [with_elems elems] in Fd', E; try discriminate; try discriminate E. eauto.
      - injection M as <- <-. cbn in E. injection E as <-. cbn [assign with_elems] in B. injection B as <-. rewrite field_set, String.eqb_refl in Fd'. discriminate. }
    destruct Q as (es & Fd & -> & ->). cbn [elems with_elems assign] in *. injection B as <-. rewrite field_set, String.eqb_refl in Fd'. injection Fd' as ->.
    apply (flipped_construct uninit 1 (JObj fs) _ iv) in H0; [exact H0|]. exists fs, es, (e0' :: rest'). split; [reflexivity|]. split; [exact Fd|]. split; [|reflexivity].
    assert (Ho : forall e, In e (e0' :: rest') -> entry_ok 1 e).
    { destruct C as (gs & E1 & _ & _ & _ & D). injection E1 as <-. destruct (D (JArr (e0' :: rest'))) as (es0 & E1 & Ho); [apply set_field_In|]. injection E1 as <-. exact Ho. }
    assert (Nm : coordinate e0' <> "values") by (unfold coordinate; destruct (contains e0' "x"); discriminate).
    apply omapM_inv in E. revert E Fr Ho Nm. generalize (coordinate e0'), (e0' :: rest'), rows. clear. intros name es' rows E. revert rows.
    induction E as [|e e' es es' H F IH]; intros rows Fr Ho N; [constructor|]. inversion Fr as [|? tr ? ? A B]; subst. constructor.
    + apply (datum_flipped 1 e e' tr name H N); [apply Ho; left; reflexivity|exact A].
    + apply (IH _ B); [intros x I; apply Ho; right; exact I|exact N].
Qed.

Lemma revert_rest data data' : revert_boundary_conditions data = Ok data' ->
  contains data "boundary_values" = true /\ forall k, k <> "boundary_values" -> entry_of data' k = entry_of data k.
Proof.
  unfold revert_boundary_conditions. intro H. destruct (contains data "boundary_values") eqn:Cn; [|destruct (at_const data "id"); discriminate]. split; [reflexivity|].
  destruct data as [| | | | |ds]; try discriminate. cbn [contains] in Cn. destruct (field ds "boundary_values") as [b|] eqn:Fb; [|discriminate].
  cbn [at_mut] in H. rewrite Fb in H. cbn [obind fst snd] in H. apply obind_Ok in H. destruct H as ([b1 d] & M & H). apply obind_Ok in H. destruct H as (es & E & H).
  apply obind_Ok in H. destruct H as (b' & B & H). cbn [assign] in H. injection H as <-. intros k N. cbn [entry_of]. rewrite field_set.
  destruct (String.eqb_spec "boundary_values" k); [congruence|reflexivity].
Qed.
