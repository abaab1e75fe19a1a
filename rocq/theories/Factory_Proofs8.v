(** * Proofs about the construction of the components *)
From Coq Require Import Reals List Bool Arith Lia String Ascii Sorted.
From Verif Require Import Base Json_Model Json_Spec Json_Proofs Json_Proofs2 Json_Proofs3 Defaults_Model Defaults_Spec Defaults_Proofs Defaults_Proofs2
  Defaults_Proofs3 Defaults_Props Controls_Model Controls_Spec Controls_Proofs States_Model States_Spec States_Proofs Factory_Model Factory_Spec Factory_Proofs
  Factory_Proofs2 Factory_Proofs3 Factory_Proofs4 Factory_Proofs5 Factory_Proofs6 Factory_Proofs7.
Import ListNotations.
Local Open Scope string_scope.
Local Open Scope list_scope.

Lemma omapM_inv {A B} (f : A -> outcome B) l r : omapM f l = Ok r -> Forall2 (fun x y => f x = Ok y) l r.
Proof.
  revert r. induction l as [|a l IH]; intros r H; cbn [omapM] in H; [injection H as <-; constructor|].
  apply obind_Ok in H. destruct H as (b & Hb & H). apply obind_Ok in H. destruct H as (bs & Hs & H). injection H as <-. constructor; auto.
Qed.
Lemma omapM_exists {A B} (f : A -> outcome B) l : (forall x, In x l -> exists y, f x = Ok y) -> exists r, omapM f l = Ok r.
Proof.
  induction l as [|a l IH]; intro H; [exists []; reflexivity|]. destruct (H a (or_introl eq_refl)) as [y Hy]. destruct IH as [r Hr]; [intros x I; apply H; right; exact I|].
  exists (y :: r). cbn [omapM]. rewrite Hy. cbn [obind]. rewrite Hr. reflexivity.
Qed.
Lemma omapM_not_UB {A B} (f : A -> outcome B) l : (forall x, In x l -> f x <> UB) -> omapM f l <> UB.
Proof.
  induction l as [|a l IH]; intro H; [discriminate|]. cbn [omapM]. specialize (IH (fun x I => H x (or_intror I))). specialize (H a (or_introl eq_refl)).
  destruct (f a); [|discriminate|contradiction]. cbn [obind]. destruct (omapM f l); [discriminate|discriminate|contradiction].
Qed.
Lemma types_sorted class : is_class class -> StronglySorted before (map ct_name (types_of class)).
Proof. intros [-> | ->]; cbn; repeat (constructor; [|repeat constructor]); constructor. Qed.

Definition as_type (r : list (string * json)) (k : string) : list json := of_this_type r k.
Lemma of_type_app a b k : of_this_type (a ++ b) k = of_this_type a k ++ of_this_type b k.
Proof. unfold of_this_type. rewrite filter_app, map_app. reflexivity. Qed.
Lemma of_type_none r k : ~ In k (map fst r) -> of_this_type r k = [].
Proof.
  induction r as [|[t e] r IH]; [reflexivity|]. cbn [map fst In]. intro H. unfold of_this_type. cbn [filter fst]. destruct (string_dec t k); [tauto|]. apply IH. tauto.
Qed.
Lemma of_type_all r k : (forall t, In t (map fst r) -> t = k) -> of_this_type r k = map snd r.
Proof.
  induction r as [|[t e] r IH]; [reflexivity|]. cbn [map fst In]. intro H. unfold of_this_type. cbn [filter fst]. destruct (string_dec t k) as [|N]; [|exfalso; apply N; apply H; tauto].
  cbn [map]. f_equal. apply IH. intros t' I. apply H. tauto.
Qed.
Lemma grouped names rs : StronglySorted before names -> Forall2 (fun k l => forall t, In t (map fst l) -> t = k) names rs ->
  StronglySorted (fun a b => a = b \/ before a b) (map fst (List.concat rs)) /\
  (forall k, ~ In k names -> of_this_type (List.concat rs) k = []) /\
  Forall2 (fun k l => of_this_type (List.concat rs) k = map snd l) names rs /\
  (forall t, In t (map fst (List.concat rs)) -> In t names).
Proof.
  intros S F. induction F as [|k l names rs Hl F IH].
  - split; [constructor|]. split; [reflexivity|]. split; [constructor|intros t []].
  - inversion S as [|? ? S1 S2]; subst. destruct (IH S1) as (I1 & I2 & I3 & I4). cbn [List.concat]. rewrite map_app.
    assert (Nk : ~ In k names). { intro I. rewrite Forall_forall in S2. exact (before_irrefl k (S2 k I)). }
    split; [|split; [|split]].
    + clear I2 I3 IH. induction l as [|[t e] l IHl]; [exact I1|]. cbn [map fst app]. constructor.
      * apply IHl. intros t' I. apply Hl. right. exact I.
      * rewrite Forall_forall. intros t' I. apply in_app_iff in I. rewrite (Hl t (or_introl eq_refl)). destruct I as [I|I].
        -- left. symmetry. apply Hl. right. exact I.
        -- right. rewrite Forall_forall in S2. apply S2, I4, I.
    + intros k' N. rewrite of_type_app. cbn [In] in N. rewrite (of_type_none l); [rewrite I2 by tauto; reflexivity|]. intro I. apply Hl in I. subst. tauto.
    + constructor.
      * rewrite of_type_app, (I2 k Nk), app_nil_r. apply of_type_all, Hl.
      * revert I3 Nk. generalize (List.concat rs). clear - Hl. intros c I3 Nk. induction I3 as [|k' l' names rs' E I3 IH]; [constructor|]. constructor.
        -- rewrite of_type_app, (of_type_none l); [exact E|]. intro I. apply Hl in I. subst. apply Nk. left. reflexivity.
        -- apply IH. intro I. apply Nk. right. exact I.
    + intros t I. apply in_app_iff in I. destruct I as [I|I]; [left; symmetry; apply Hl, I|right; apply I4, I].
Qed.

(** ** One class *)
Lemma type_defaults_of t fs : type_defaults t (JObj fs) = Ok (defaults_of (JObj fs) (ct_name t)).
Proof. unfold type_defaults, value_or, defaults_of. cbn [entry_of]. destruct (field fs (ct_name t)); reflexivity. Qed.
Lemma defaults_canonical d k : canonical d -> canonical (defaults_of d k).
Proof.
  intro C. unfold defaults_of. destruct d; try (constructor; [constructor|intros ? ? []]). cbn [entry_of]. destruct (field fields k) eqn:E; [eapply canonical_field; eassumption|constructor; [constructor|intros ? ? []]].
Qed.
Lemma known_types class ts : is_class class ->
  forallb (fun kv => existsb (fun t => String.eqb (ct_name t) (fst kv)) (types_of class)) (items (JObj ts)) = true <->
  (forall k, field ts k <> None -> In k (map ct_name (types_of class))).
Proof.
  intro Ic. cbn [items]. rewrite forallb_forall. split.
  - intros H k K. destruct (field ts k) as [v|] eqn:E; [|congruence]. apply field_in in E. apply H in E. apply existsb_exists in E. destruct E as (t & It & E).
    apply String.eqb_eq in E. cbn [fst] in E. subst k. apply in_map. exact It.
  - intros H [k v] I. apply existsb_exists. destruct (in_map_iff ct_name (types_of class) k) as [Q _]. destruct Q as (t & <- & It).
    + apply H. clear - I. induction ts as [|[a b] ts IH]; [destruct I|]. cbn [field]. destruct (String.eqb_spec a k); [discriminate|]. destruct I as [E|I]; [injection E as -> ->; congruence|auto].
    + exists t. split; [exact It|]. cbn [fst]. apply String.eqb_refl.
Qed.
Section Class.
Variables (class : string) (ds : list (string * json)) (ts : list (string * json)).
Hypothesis Ic : is_class class.
Let d := JObj ds.
Hypothesis Cd : canonical d.
Hypothesis Gs : forall t, In t (types_of class) -> exists s, get_schema t (defaults_of d (ct_name t)) false false = Ok s.
Hypothesis Ct : proper (JObj ts).
Hypothesis Lt : lists_of_objects ts.
Lemma elems_entries k w : field ts k = Some w -> elems w = entries ts k.
Proof. intro E. unfold entries. rewrite E. destruct (Lt k w E) as (l & -> & _). reflexivity. Qed.
Lemma entry_object k e : In e (entries ts k) -> object e /\ canonical e.
Proof.
  unfold entries. destruct (field ts k) as [w|] eqn:E; [|intros []]. destruct (Lt k w E) as (l & -> & H). intro I. split; [auto|].
  pose proof (proper_field _ _ _ Ct E) as P. inversion P as [| | | |? Pl|]; subst. apply proper_canonical. auto.
Qed.
Lemma instances_eq t : instances_of_type d (JObj ts) t =
  omapM (fun e => omap (fun e' => (ct_name t, e')) (make_instance t (defaults_of d (ct_name t)) e)) (entries ts (ct_name t)).
Proof.
  unfold instances_of_type, contains, at_const. destruct (field ts (ct_name t)) as [w|] eqn:E.
  - cbn [obind]. unfold d. rewrite type_defaults_of. cbn [obind]. rewrite (elems_entries _ _ E). reflexivity.
  - unfold entries. rewrite E. reflexivity.
Qed.
Lemma class_fields t : In t (types_of class) -> exists fields, fields_of class (ct_name t) = Some fields.
Proof. intro It. destruct (known_type class t Ic It) as (fields & Ef & _). eauto. Qed.
Lemma one_instance t e fields : In t (types_of class) -> fields_of class (ct_name t) = Some fields -> In e (entries ts (ct_name t)) ->
  let dt := defaults_of d (ct_name t) in
  (forall e', make_instance t dt e = Ok e' -> completed dt e e' /\ complete fields e' /\ with_boundary class (ct_name t) e') /\
  (described fields dt e -> complete_defaults fields dt -> with_boundary class (ct_name t) e -> exists e', make_instance t dt e = Ok e') /\
  make_instance t dt e <> UB.
Proof.
  intros It Ef Ie dt. destruct (Gs t It) as [s Hs]. destruct (entry_object _ _ Ie) as [Oe Ce].
  destruct (instance_main class t fields dt s e Ic It Ef Hs (defaults_canonical d _ Cd) Ce Oe) as (H1 & H2 & H3). split; [|split; assumption].
  intros e' E. destruct (H1 e' E) as (? & ? & ? & _). auto.
Qed.
Lemma build_ok r : build_vector (types_of class) d (JObj ts) = Ok r ->
  built d class ts r /\ forall k, field ts k <> None -> fields_of class k <> None.
Proof.
  unfold build_vector. destruct (forallb _ _) eqn:Ek; [|discriminate]. pose proof (proj1 (known_types class ts Ic) Ek) as Kt. intro H. unfold omap in H. destruct (omapM (instances_of_type d (JObj ts)) (types_of class)) as [rs| |] eqn:Em; try discriminate.
  injection H as <-. apply omapM_inv in Em.
  assert (X : Forall2 (fun t l => (forall x, In x (map fst l) -> x = ct_name t) /\ Forall2 (completed (defaults_of d (ct_name t))) (entries ts (ct_name t)) (map snd l) /\
              forall x e, In (x, e) l -> (exists fields, fields_of class (ct_name t) = Some fields /\ complete fields e) /\ with_boundary class (ct_name t) e) (types_of class) rs).
  { assert (Sub : forall t, In t (types_of class) -> In t (types_of class)) by auto. clear Ek Kt. revert Sub Em. generalize (types_of class) at 1 3 4. intros types Sub Em.
    induction Em as [|t l types rs E Em IH]; constructor; [|apply IH; intros t' I; apply Sub; right; exact I]. specialize (Sub t (or_introl eq_refl)). clear IH Em.
    rewrite instances_eq in E. apply omapM_inv in E. destruct (class_fields t Sub) as [fields Ef]. pose proof (fun e => one_instance t e fields Sub Ef) as One. cbn zeta in One.
    induction E as [|e y es l E F IH].
    - split; [intros x []|]. split; [constructor|intros x e []].
    - destruct IH as (I1 & I2 & I3); [intros e' I; apply One; right; exact I|]. unfold omap in E. destruct (make_instance t (defaults_of d (ct_name t)) e) as [e'| |] eqn:Ee; try discriminate.
      injection E as <-. destruct (One e (or_introl eq_refl)) as (O1 & _). destruct (O1 e' Ee) as (Q1 & Q2 & Q3). split; [|split].
      + cbn [map fst In]. intros x [<-|I]; auto.
      + cbn [map snd]. constructor; assumption.
      + intros x e0 [I|I]; [injection I as <- <-; eauto|eauto]. }
  assert (Fn : Forall2 (fun k l => forall x, In x (map fst l) -> x = k) (map ct_name (types_of class)) rs).
  { clear - X. induction X as [|t l types rs (H & _) X IH]; constructor; assumption. }
  destruct (grouped _ _ (types_sorted class Ic) Fn) as (G1 & G2 & G3 & G4). split; [split; [exact G1|split]|].
  - intro k. destruct (in_dec string_dec k (map ct_name (types_of class))) as [I|N].
    + apply in_map_iff in I. destruct I as (t & <- & It).
      assert (Y : exists l : list (string * json), of_this_type (List.concat rs) (ct_name t) = map snd l /\ Forall2 (completed (defaults_of d (ct_name t))) (entries ts (ct_name t)) (map snd l)).
      { revert X G3 It. generalize (List.concat rs). clear. intros c X. induction X as [|t' l types rs H X IH]; [intros _ []|]. cbn [map]. intros G I. inversion G as [|? ? ? ? G1 G2]; subst.
        destruct I as [<-|I]; [exists l; split; [exact G1|apply H]|auto]. }
      destruct Y as (l & -> & Y). exact Y.
    + rewrite (G2 k N). unfold entries. destruct (field ts k) eqn:E; [exfalso; apply N, Kt; congruence|constructor].
  - intros k e I. apply in_concat in I. destruct I as (l & Il & I).
    assert (Y : exists t, (forall x, In x (map fst l) -> x = ct_name t) /\ forall x e, In (x, e) l -> (exists fields, fields_of class (ct_name t) = Some fields /\ complete fields e) /\ with_boundary class (ct_name t) e).
    { clear - X Il. induction X as [|t l' types rs H X IH]; [destruct Il|]. destruct Il as [->|Il]; [exists t; split; apply H|auto]. }
    destruct Y as (t & Y1 & Y2). assert (Ek' : k = ct_name t). { apply Y1. change k with (fst (k, e)). apply in_map. exact I. } subst k. eapply Y2. exact I.
  - intros k K. apply Kt in K. apply in_map_iff in K. destruct K as (t & <- & It). destruct (class_fields t It) as [fields ->]. discriminate.
Qed.
Lemma build_not_UB : build_vector (types_of class) d (JObj ts) <> UB.
Proof.
  unfold build_vector. destruct (forallb _ _); [|discriminate]. unfold omap. destruct (omapM (instances_of_type d (JObj ts)) (types_of class)) eqn:E; try discriminate. exfalso.
  revert E. apply omapM_not_UB. intros t It. rewrite instances_eq. apply omapM_not_UB. intros e Ie. destruct (class_fields t It) as [fields Ef].
  destruct (one_instance t e fields It Ef Ie) as (_ & _ & N). unfold omap. destruct (make_instance t (defaults_of d (ct_name t)) e); [discriminate|discriminate|contradiction].
Qed.
Lemma build_exists :
  (forall k, field ts k <> None -> exists fields, fields_of class k = Some fields /\ complete_defaults fields (defaults_of d k) /\
     forall e, In e (entries ts k) -> described fields (defaults_of d k) e /\ with_boundary class k e) ->
  exists r, build_vector (types_of class) d (JObj ts) = Ok r.
Proof.
  intro H. unfold build_vector.
  assert (Kt : forall k, field ts k <> None -> In k (map ct_name (types_of class))).
  { intros k K. destruct (H k K) as (fields & Ef & _). apply (wants_known d Topology_file class k (described fields (defaults_of d k)) Ic). unfold wants. rewrite Ef. reflexivity. }
  rewrite (proj2 (known_types class ts Ic) Kt). destruct (omapM_exists (instances_of_type d (JObj ts)) (types_of class)) as [rs Hr]; [|rewrite Hr; eexists; reflexivity].
  intros t It. rewrite instances_eq. apply omapM_exists. intros e Ie. assert (K : field ts (ct_name t) <> None). { intro E. unfold entries in Ie. rewrite E in Ie. destruct Ie. }
  destruct (H _ K) as (fields & Ef & Cf & He). destruct (one_instance t e fields It Ef Ie) as (_ & Q & _). destruct (He e Ie) as [D B]. destruct (Q D Cf B) as [e' E].
  rewrite E. eexists. reflexivity.
Qed.
End Class.
