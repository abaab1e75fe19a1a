(** * Proofs about bounds: all components of a network *)
From Coq Require Import Reals List Bool Arith Lia Lra String Sorted.
From Verif Require Import Base Interp_Model Interp_Spec Interp_Proofs Interp_Proofs2 Json_Model Json_Spec Json_Proofs Json_Proofs2 Json_Proofs3
  Json_Props Defaults_Model Controls_Model Controls_Spec Controls_Proofs Controls_Proofs2 Controls_Proofs3 Bounds_Model Bounds_Spec.
Import ListNotations.
Local Open Scope string_scope.
Local Open Scope list_scope.

Lemma NoDup_map_inj {A B} (f : A -> B) l x y : NoDup (map f l) -> In x l -> In y l -> f x = f y -> x = y.
Proof.
  induction l as [|a l IH]; intros N X Y E; [destruct X|]. cbn in N. inversion N as [|? ? N1 N2]; subst.
  destruct X as [->|X], Y as [->|Y]; auto.
  - exfalso. apply N1. rewrite E. apply in_map, Y.
  - exfalso. apply N1. rewrite <- E. apply in_map, X.
Qed.

Lemma document_id name x rows : id (document name x rows) = x.
Proof. reflexivity. Qed.

Section Network.
Context {A : Type} (cid : A -> string) (cstart ccount : A -> nat).
Definition inside_columns (c : A) (m : nat) : Prop := (cstart c <= m < cstart c + ccount c)%nat.
Definition step (uninit : nat -> R) (comps : list A) (v : ivec) (call : nat * json) : outcome ivec :=
  obind (get comps (fst call)) (fun c => set_simple_control_values uninit (cstart c) v (snd call) (make_boundary_schema (ccount c))).
Definition apart (comps : list A) : Prop :=
  forall a b ca cb m, nth_error comps a = Some ca -> nth_error comps b = Some cb -> inside_columns ca m -> inside_columns cb m -> a = b.

Lemma shape_trans u v w : same_shape u v -> same_shape v w -> same_shape u w.
Proof. unfold same_shape. intros (a & b & c) (d & e & f). repeat split; congruence. Qed.

Lemma fold_set uninit comps (rows : string -> list (R * list R)) : apart comps ->
  (forall c, In c comps -> increasing (map fst (rows (cid c))) /\ rows (cid c) <> [] /\ forall tr, In tr (rows (cid c)) -> List.length (snd tr) = ccount c) ->
  forall calls v, (forall n e, In (n, e) calls -> exists c, nth_error comps n = Some c /\ e = document "time" (cid c) (rows (cid c))) ->
  table_of (ipoints v) (iinner v) (ivalues v) -> (forall c, In c comps -> (cstart c + ccount c <= iinner v)%nat) ->
  (forall n e c t, In (n, e) calls -> nth_error comps n = Some c -> In t (ipoints v) -> covered tolerance (map fst (rows (cid c))) t) ->
  exists w, ofold (step uninit comps) calls v = Ok w /\ same_shape v w /\
    (forall n e c, In (n, e) calls -> nth_error comps n = Some c -> follows w (cstart c) (ccount c) (rows (cid c))) /\
    (forall m, (m < iinner v)%nat -> (forall n e c, In (n, e) calls -> nth_error comps n = Some c -> ~ inside_columns c m) -> same_column v w m).
Proof.
  intros Ap Rw. induction calls as [|[n e] calls IH]; intros v H T B C.
  - exists v. split; [reflexivity|]. split; [repeat split|]. split; [intros ? ? ? []|]. intros m M _ i I. reflexivity.
  - destruct (H n e (or_introl eq_refl)) as (c & Q & E).
    destruct (Rw c (nth_error_In _ _ Q)) as (R1 & R2 & R3).
    destruct (set_document uninit (cstart c) (ccount c) v (cid c) (rows (cid c)) R1 R2 R3 T (B c (nth_error_In _ _ Q))) as [K _].
    destruct K as (w1 & f & E1 & (P1 & I1 & L1 & C1) & F1).
    { intros t It. exact (C n _ c t (or_introl eq_refl) Q It). }
    cbn [ofold]. unfold step at 1. cbn [fst snd]. unfold get. rewrite Q. cbn [obind]. rewrite E, E1. cbn [obind].
    destruct (IH w1) as (w & Ew & Sw & Fw & Nw).
    { intros n' e' J. apply H. right. exact J. }
    { unfold table_of in *. rewrite P1, I1, L1. exact T. }
    { intros d J. rewrite I1. apply B, J. }
    { intros n' e' d t J Qd It. rewrite P1 in It. apply (C n' e' d t (or_intror J) Qd It). }
    exists w. split; [exact Ew|].
    assert (S1 : same_shape v w1) by (repeat split; assumption).
    split; [apply (shape_trans v w1 w S1 Sw)|]. destruct Sw as (P2 & I2 & L2). split.
    + intros n' e' d [J|J] Qd; [|apply (Fw n' e' d J Qd)]. injection J as <- _. rewrite Q in Qd. injection Qd as <-.
      destruct (in_dec Nat.eq_dec n (map fst calls)) as [Y|Y].
      * apply in_map_iff in Y. destruct Y as [[n1 e1] [X Y]]. cbn in X. subst n1. apply (Fw n e1 c Y Q).
      * intros i t k It Kk. assert (Il : (i < List.length (ipoints v))%nat) by (apply nth_error_Some; rewrite <- P1, <- P2; congruence).
        assert (M : (cstart c + k < iinner v)%nat) by (pose proof (B c (nth_error_In _ _ Q)); lia).
        rewrite (Nw (cstart c + k)%nat); [|rewrite I1; exact M| |rewrite P1; exact Il].
        { rewrite (proj1 (C1 i (cstart c + k)%nat Il M) k eq_refl Kk). apply F1; [rewrite <- P1, <- P2; exact It|exact Kk]. }
        intros n1 e1 d J1 Qd Z. apply Y. replace n with n1; [apply (in_map fst) in J1; exact J1|].
        apply (Ap n1 n d c (cstart c + k)%nat Qd Q Z). unfold inside_columns. lia.
    + intros m M Z i Il. rewrite (Nw m); [|rewrite I1; exact M| |rewrite P1; exact Il].
      * apply (C1 i m Il M). specialize (Z n _ c (or_introl eq_refl) Q). unfold inside_columns in Z. lia.
      * intros n1 e1 d J1. apply (Z n1 e1 d). right. exact J1.
Qed.

Lemma fold_throws uninit comps (rows : string -> list (R * list R)) :
  (forall c, In c comps -> increasing (map fst (rows (cid c))) /\ rows (cid c) <> [] /\ forall tr, In tr (rows (cid c)) -> List.length (snd tr) = ccount c) ->
  forall calls v, (forall n e, In (n, e) calls -> exists c, nth_error comps n = Some c /\ e = document "time" (cid c) (rows (cid c))) ->
  table_of (ipoints v) (iinner v) (ivalues v) -> (forall c, In c comps -> (cstart c + ccount c <= iinner v)%nat) ->
  (exists n e c t, In (n, e) calls /\ nth_error comps n = Some c /\ In t (ipoints v) /\ ~ covered tolerance (map fst (rows (cid c))) t) ->
  ofold (step uninit comps) calls v = Exc.
Proof.
  intros Rw. induction calls as [|[n e] calls IH]; intros v H T B X; [destruct X as (n & e & c & t & [] & _)|].
  destruct (H n e (or_introl eq_refl)) as (c & Q & E).
  destruct (Rw c (nth_error_In _ _ Q)) as (R1 & R2 & R3).
  destruct (set_document uninit (cstart c) (ccount c) v (cid c) (rows (cid c)) R1 R2 R3 T (B c (nth_error_In _ _ Q))) as [K1 K2].
  cbn [ofold]. unfold step at 1. cbn [fst snd]. unfold get. rewrite Q. cbn [obind]. rewrite E.
  destruct (Classical_Prop.classic (exists t, In t (ipoints v) /\ ~ covered tolerance (map fst (rows (cid c))) t)) as [Y|Y].
  - rewrite (K2 Y). reflexivity.
  - destruct K1 as (w1 & f & E1 & (P1 & I1 & L1 & C1) & F1).
    { intros t It. destruct (Classical_Prop.classic (covered tolerance (map fst (rows (cid c))) t)); [assumption|]. exfalso. apply Y. eauto. }
    rewrite E1. cbn [obind]. apply IH.
    + intros n' e' J. apply H. right. exact J.
    + unfold table_of in *. rewrite P1, I1, L1. exact T.
    + intros d J. rewrite I1. apply B, J.
    + destruct X as (n1 & e1 & d & t & [J|J] & Qd & It & Ct).
      * injection J as <- _. rewrite Q in Qd. injection Qd as <-. exfalso. apply Y. eauto.
      * rewrite P1. exists n1, e1, d, t. auto.
Qed.

Definition network_set (uninit : nat -> R) (comps : list A) (v : ivec) (j : json) : outcome ivec :=
  obind (distribute (map cid comps) j) (fun calls => ofold (step uninit comps) calls v).

Lemma network_ok uninit comps v j (rows : string -> list (R * list R)) :
  good_file j -> NoDup (all_ids j) -> NoDup (map cid comps) -> apart comps ->
  table_of (ipoints v) (iinner v) (ivalues v) -> (forall c, In c comps -> (cstart c + ccount c <= iinner v)%nat) ->
  (forall c, In c comps -> lists j (cid c) (ccount c) (rows (cid c))) ->
  ((forall c t, In c comps -> In t (ipoints v) -> covered tolerance (map fst (rows (cid c))) t) ->
     exists w, network_set uninit comps v j = Ok w /\ same_shape v w /\
       (forall c, In c comps -> follows w (cstart c) (ccount c) (rows (cid c))) /\
       (forall m, (m < iinner v)%nat -> (forall c, In c comps -> ~ inside_columns c m) -> same_column v w m)) /\
  ((exists c t, In c comps /\ In t (ipoints v) /\ ~ covered tolerance (map fst (rows (cid c))) t) ->
     network_set uninit comps v j = Exc).
Proof.
  intros G Na Nd Ap T B L. destruct (C57_distribution (map cid comps) j G Nd) as (U & X & D).
  assert (Dn : distribute (map cid comps) j <> Exc).
  { intro E. apply X in E. destruct E as [x [Ix Nx]]. apply in_map_iff in Ix. destruct Ix as [c [<- Ic]]. apply Nx.
    unfold all_ids. apply in_map_iff. exists (document "time" (cid c) (rows (cid c))). split; [apply document_id|]. apply (L c Ic). }
  unfold network_set. destruct (distribute (map cid comps) j) as [calls| |] eqn:Ed; [|congruence|congruence]. cbn [obind].
  destruct (D calls eq_refl) as [D1 D2].
  assert (H : forall n e, In (n, e) calls -> exists c, nth_error comps n = Some c /\ e = document "time" (cid c) (rows (cid c))).
  { intros n e J. apply D1 in J. destruct J as [J Q]. rewrite nth_error_map in Q. destruct (nth_error comps n) as [c|] eqn:Qc; [|discriminate].
    cbn in Q. injection Q as Q. exists c. split; [reflexivity|].
    apply (NoDup_map_inj id (all_components j) e _ Na J (proj1 (L c (nth_error_In _ _ Qc)))). rewrite document_id. auto. }
  assert (H2 : forall c, In c comps -> exists n e, In (n, e) calls /\ nth_error comps n = Some c).
  { intros c I. apply In_nth_error in I. destruct I as [n I]. destruct (D2 n) as [e J]; [rewrite map_length; apply nth_error_Some; congruence|]. eauto. }
  assert (Rw : forall c, In c comps -> increasing (map fst (rows (cid c))) /\ rows (cid c) <> [] /\ forall tr, In tr (rows (cid c)) -> List.length (snd tr) = ccount c).
  { intros c I. apply (L c I). }
  split.
  - intro C. destruct (fold_set uninit comps rows Ap Rw calls v H T B) as (w & Ew & Sw & Fw & Nw).
    { intros n e c t _ Q It. apply (C c t (nth_error_In _ _ Q) It). }
    exists w. split; [exact Ew|]. split; [exact Sw|]. split.
    + intros c I. destruct (H2 c I) as (n & e & J & Q). apply (Fw n e c J Q).
    + intros m M Z. apply (Nw m M). intros n e c _ Q. apply (Z c (nth_error_In _ _ Q)).
  - intros (c & t & I & It & Ct). apply (fold_throws uninit comps rows Rw calls v H T B).
    destruct (H2 c I) as (n & e & J & Q). exists n, e, c, t. auto.
Qed.
End Network.
