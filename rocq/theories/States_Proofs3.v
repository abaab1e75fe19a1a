(** * Proofs about initial states: all components *)
From Coq Require Import Reals List Bool Arith Lia Lra String.
From Verif Require Import Base Interp_Model Interp_Spec Json_Model Json_Spec Json_Proofs Json_Proofs2 Json_Proofs3 Json_Props
  Defaults_Model Controls_Model Controls_Spec Controls_Proofs Euler_Model Euler_Spec
  States_Model States_Spec States_Proofs States_Proofs2.
Import ListNotations.
Local Open Scope string_scope.
Local Open Scope list_scope.

Lemma nth_error_same {A} (l l' : list A) : (forall m, nth_error l m = nth_error l' m) -> l = l'.
Proof.
  revert l'. induction l as [|a l IH]; intros [|b l'] H; auto; try (specialize (H 0%nat); discriminate).
  pose proof (H 0%nat) as E. injection E as <-. f_equal. apply IH. intro m. apply (H (S m)).
Qed.

Definition range_of (c : state_component) (m : nat) : Prop :=
  (sc_start c <= m < sc_start c + needed_number_of_states (sc_kind c))%nat.

Lemma state_indices comps : forall next, let r := set_state_indices next comps in
  (next <= snd r)%nat /\ map sc_id (fst r) = map sc_id comps /\ map sc_kind (fst r) = map sc_kind comps /\
  (forall c, In c (fst r) -> (next <= sc_start c /\ sc_start c + needed_number_of_states (sc_kind c) <= snd r)%nat) /\
  (forall m, (next <= m < snd r)%nat -> exists c, In c (fst r) /\ range_of c m) /\
  (forall n n' c c' m, nth_error (fst r) n = Some c -> nth_error (fst r) n' = Some c' -> range_of c m -> range_of c' m -> n = n').
Proof.
  induction comps as [|c comps IH]; intro next; cbn [set_state_indices].
  - cbn. split; [lia|]. split; [reflexivity|]. split; [reflexivity|]. split; [intros c []|]. split; [intros m M; lia|].
    intros n n' c c' m E. destruct n; discriminate.
  - destruct (IH (next + needed_number_of_states (sc_kind c))%nat) as (A & B & B' & D & E & F). cbn [fst snd map sc_id sc_kind]. split; [lia|].
    split; [f_equal; exact B|]. split; [f_equal; exact B'|]. split; [|split].
    + intros d [<-|J]; [cbn; lia|]. specialize (D d J). lia.
    + intros m M. destruct (le_lt_dec (next + needed_number_of_states (sc_kind c)) m) as [L|L].
      * destruct (E m) as [d [J K]]; [lia|]. exists d. split; [right; exact J|exact K].
      * eexists. split; [left; reflexivity|]. unfold range_of. cbn. lia.
    + assert (X : forall n d m, nth_error (fst (set_state_indices (next + needed_number_of_states (sc_kind c)) comps)) n = Some d -> range_of d m ->
                    (next + needed_number_of_states (sc_kind c) <= m)%nat).
      { intros n d m Q R1. specialize (D d (nth_error_In _ _ Q)). unfold range_of in R1. lia. }
      intros [|n] [|n'] d d' m Q Q' R1 R2; cbn [nth_error] in Q, Q'; auto.
      * injection Q as <-. specialize (X n' d' m Q' R2). unfold range_of in R1. cbn in R1. lia.
      * injection Q' as <-. specialize (X n d m Q R1). unfold range_of in R2. cbn in R2. lia.
      * f_equal. apply (F n n' d d' m Q Q' R1 R2).
Qed.

Lemma calls_splice uninit comps (V : nat -> list R) N :
  (forall n c, nth_error comps n = Some c -> List.length (V n) = needed_number_of_states (sc_kind c) /\
     (sc_start c + needed_number_of_states (sc_kind c) <= N)%nat) ->
  (forall n n' c c' m, nth_error comps n = Some c -> nth_error comps n' = Some c' -> range_of c m -> range_of c' m -> n = n') ->
  forall calls v, List.length v = N ->
  (forall n e, In (n, e) calls -> exists c, nth_error comps n = Some c /\
     forall v, List.length v = N -> component_initial uninit c v e = Ok (splice v (sc_start c) (V n))) ->
  exists w, ofold (fun v call => obind (get comps (fst call)) (fun c => component_initial uninit c v (snd call))) calls v = Ok w /\
    List.length w = N /\
    forall m, (m < N)%nat ->
      (forall n e c, In (n, e) calls -> nth_error comps n = Some c -> range_of c m -> nth_error w m = nth_error (V n) (m - sc_start c)) /\
      ((forall n e c, In (n, e) calls -> nth_error comps n = Some c -> ~ range_of c m) -> nth_error w m = nth_error v m).
Proof.
  intros HV Hd. induction calls as [|[n e] calls IH]; intros v Lv H.
  - exists v. cbn [ofold]. split; [reflexivity|]. split; [exact Lv|]. intros m M. split; [intros n e c []|reflexivity].
  - cbn [ofold fst snd]. destruct (H n e (or_introl eq_refl)) as [c [Q E]]. unfold get at 1. rewrite Q. cbn [obind]. rewrite (E v Lv). cbn [obind].
    destruct (HV n c Q) as [LV B].
    assert (Ls : List.length (splice v (sc_start c) (V n)) = N) by (rewrite splice_length; lia).
    destruct (IH (splice v (sc_start c) (V n)) Ls (fun n' e' J => H n' e' (or_intror J))) as (w & Ew & Lw & Nw).
    exists w. split; [exact Ew|]. split; [exact Lw|]. intros m M. destruct (Nw m M) as [A1 A2].
    assert (Sp := splice_nth v (sc_start c) (V n) m ltac:(lia)).
    split.
    + intros n' e' c' [J|J] Q' R'; [|apply (A1 n' e' c' J Q' R')]. injection J as <- <-. rewrite Q in Q'. injection Q' as <-.
      destruct (Classical_Prop.classic (exists n1 e1 c1, In (n1, e1) calls /\ nth_error comps n1 = Some c1 /\ range_of c1 m)) as [K|K].
      * destruct K as (n1 & e1 & c1 & K1 & K2 & K3). pose proof (Hd n n1 c c1 m Q K2 R' K3) as <-. rewrite Q in K2. injection K2 as <-.
        apply (A1 n e1 c K1 Q R').
      * rewrite A2 by (intros n1 e1 c1 K1 K2 K3; apply K; eauto 10). rewrite Sp. unfold range_of in R'.
        destruct (Nat.leb_spec (sc_start c) m); [|lia]. destruct (Nat.ltb_spec m (sc_start c + List.length (V n))); [|lia]. reflexivity.
    + intro Z. rewrite A2 by (intros n1 e1 c1 K1 K2 K3; apply (Z n1 e1 c1 (or_intror K1) K2 K3)). rewrite Sp.
      specialize (Z n e c (or_introl eq_refl) Q). unfold range_of in Z.
      destruct (Nat.leb_spec (sc_start c) m); [|reflexivity]. destruct (Nat.ltb_spec m (sc_start c + List.length (V n))); [lia|reflexivity].
Qed.

Lemma document_has_id x rows : has_id (document "x" x rows) x.
Proof. unfold document. eexists. split; [reflexivity|]. reflexivity. Qed.
Lemma document_id x rows : id (document "x" x rows) = x.
Proof. apply has_id_id, document_has_id. Qed.

Lemma network_ok comps0 comps N j : set_state_indices 0 comps0 = (comps, N) ->
  good_file j -> NoDup (map sc_id comps) -> NoDup (all_ids j) ->
  (forall c, In c comps -> exists rows, In (document "x" (sc_id c) rows) (all_components j) /\ rows_ok (sc_kind c) rows /\
     increasing (map fst rows) /\ forall t, In t (places (sc_kind c)) -> covered tolerance (map fst rows) t) ->
  exists w, List.length w = N /\
    (forall uninit v, List.length v = N -> set_initial_values uninit comps v j = Ok w) /\
    forall c rows, In c comps -> In (document "x" (sc_id c) rows) (all_components j) ->
      exists vals, states_for (sc_kind c) rows vals /\ stands w (sc_start c) vals.
Proof.
  intros Es G Nd Na Hc.
  destruct (state_indices comps0 0) as (_ & _ & _ & Bd & Cov & Dis). rewrite Es in Bd, Cov, Dis. cbn [fst snd] in Bd, Cov, Dis.
  assert (Ch : forall n, (n < List.length comps)%nat -> exists V, exists c rows, nth_error comps n = Some c /\
     In (document "x" (sc_id c) rows) (all_components j) /\ states_for (sc_kind c) rows V /\ List.length V = needed_number_of_states (sc_kind c) /\
     forall uninit v, List.length v = N -> component_initial uninit c v (document "x" (sc_id c) rows) = Ok (splice v (sc_start c) V)).
  { intros n Hn. destruct (nth_error comps n) as [c|] eqn:Q; [|apply nth_error_None in Q; lia].
    destruct (Hc c (nth_error_In _ _ Q)) as (rows & I & Ro & In1 & Co).
    destruct (component_ok (sc_kind c) rows Ro In1 Co) as (vals & Sv & Lv & E).
    exists vals, c, rows. repeat (split; [auto|]). intros uninit v L. apply E; [reflexivity|].
    specialize (Bd c (nth_error_In _ _ Q)). lia. }
  destruct (choose_list _ _ Ch) as (Vs & LVs & HVs).
  set (V := fun n => nth n Vs []).
  assert (HV : forall n c, nth_error comps n = Some c -> exists rows,
     In (document "x" (sc_id c) rows) (all_components j) /\ states_for (sc_kind c) rows (V n) /\ List.length (V n) = needed_number_of_states (sc_kind c) /\
     forall uninit v, List.length v = N -> component_initial uninit c v (document "x" (sc_id c) rows) = Ok (splice v (sc_start c) (V n))).
  { intros n c Q. assert (L : (n < List.length Vs)%nat) by (rewrite LVs; apply nth_error_Some; congruence).
    destruct (HVs n (V n) (nth_error_nth' Vs [] L)) as (c' & rows & Q' & rest). rewrite Q in Q'. injection Q' as <-. eauto. }
  destruct (C57_distribution (map sc_id comps) j G Nd) as (U & X & D).
  assert (Dn : distribute (map sc_id comps) j <> Exc).
  { intro E. apply X in E. destruct E as [x [Ix Nx]]. apply in_map_iff in Ix. destruct Ix as [c [<- Ic]]. apply Nx.
    destruct (Hc c Ic) as (rows & I & _). unfold all_ids. apply in_map_iff. exists (document "x" (sc_id c) rows).
    split; [apply document_id|exact I]. }
  destruct (distribute (map sc_id comps) j) as [calls| |] eqn:Ed; [|congruence|congruence].
  destruct (D calls eq_refl) as [D1 D2].
  assert (Same : forall a b, In a (all_components j) -> In b (all_components j) -> id a = id b -> a = b).
  { clear -Na. unfold all_ids in Na. induction (all_components j) as [|d l IH]; [intros a b []|].
    cbn [map] in Na. inversion Na as [|? ? N1 N2]; subst. intros a b [<-|A] [<-|B] E; auto.
    - exfalso. apply N1. rewrite E. apply in_map, B.
    - exfalso. apply N1. rewrite <- E. apply in_map, A. }
  assert (Calls : forall n e, In (n, e) calls -> exists c, nth_error comps n = Some c /\
     forall uninit v, List.length v = N -> component_initial uninit c v e = Ok (splice v (sc_start c) (V n))).
  { intros n e J. apply D1 in J. destruct J as [J Q]. rewrite nth_error_map in Q. destruct (nth_error comps n) as [c|] eqn:Qc; [|discriminate].
    injection Q as Q. exists c. split; [reflexivity|]. destruct (HV n c Qc) as (rows & I & _ & _ & E).
    rewrite (Same e (document "x" (sc_id c) rows) J I); [exact E|]. rewrite document_id. congruence. }
  assert (HL : forall n c, nth_error comps n = Some c -> List.length (V n) = needed_number_of_states (sc_kind c) /\
     (sc_start c + needed_number_of_states (sc_kind c) <= N)%nat).
  { intros n c Q. destruct (HV n c Q) as (_ & _ & _ & L & _). specialize (Bd c (nth_error_In _ _ Q)). lia. }
  assert (Run : forall uninit v, List.length v = N -> exists w, set_initial_values uninit comps v j = Ok w /\ List.length w = N /\
     forall n c m, nth_error comps n = Some c -> range_of c m -> nth_error w m = nth_error (V n) (m - sc_start c)).
  { intros uninit v Lv. destruct (calls_splice uninit comps V N HL Dis calls v Lv) as (w & Ew & Lw & Nw).
    { intros n e J. destruct (Calls n e J) as (c & Q & E). exists c. auto. }
    exists w. unfold set_initial_values. rewrite Ed. split; [exact Ew|]. split; [exact Lw|]. intros n c m Q Rg.
    assert (M : (m < N)%nat). { destruct (HL n c Q). unfold range_of in Rg. lia. }
    destruct (Nw m M) as [A _]. destruct (D2 n) as [e J]; [rewrite map_length; apply nth_error_Some; congruence|]. apply (A n e c J Q Rg). }
  destruct (Run (fun _ => 0%R) (repeat 0%R N) (repeat_length _ _)) as (w & Ew & Lw & Nw).
  exists w. split; [exact Lw|]. split.
  - intros uninit v Lv. destruct (Run uninit v Lv) as (w' & Ew' & Lw' & Nw'). rewrite Ew'. f_equal.
    apply nth_error_same. intro m. destruct (Nat.lt_ge_cases m N) as [M|M].
    + destruct (Cov m ltac:(lia)) as [c [Ic Rg]]. apply In_nth_error in Ic. destruct Ic as [n Q]. rewrite (Nw n c m Q Rg), (Nw' n c m Q Rg). reflexivity.
    + rewrite (proj2 (nth_error_None w m)), (proj2 (nth_error_None w' m)) by lia. reflexivity.
  - intros c rows Ic I. apply In_nth_error in Ic. destruct Ic as [n Q]. destruct (HV n c Q) as (rows' & I' & St & L & _).
    assert (Er : document "x" (sc_id c) rows = document "x" (sc_id c) rows') by (apply Same; auto; rewrite !document_id; reflexivity).
    exists (V n). split.
    + assert (Rr : rows = rows').
      { unfold document in Er. injection Er as Er. clear -Er. revert rows' Er. induction rows as [|[t l] rows IH]; intros [|[t' l'] rows'] Er; try discriminate; auto.
        cbn [map] in Er. injection Er as E1 E2 E3. f_equal; [|apply IH, E3]. f_equal; [assumption|].
        clear -E1. revert l' E1. induction l as [|a l IH]; intros [|b l'] E; try discriminate; auto. cbn in E. injection E as -> E. f_equal. apply IH, E. }
      rewrite Rr. exact St.
    + intros m y E. assert (M : (m < List.length (V n))%nat) by (apply nth_error_Some; congruence).
      rewrite (Nw n c (sc_start c + m)%nat Q) by (unfold range_of; lia). replace (sc_start c + m - sc_start c)%nat with m by lia. exact E.
Qed.
