From Coq Require Import List Bool Arith Lia String Sorted.
From Verif Require Import Base Json_Model Json_Spec Json_Proofs Json_Proofs2 Json_Proofs3 Defaults_Model Defaults_Spec Defaults_Proofs Defaults_Proofs2.
Import ListNotations.
Local Open Scope string_scope.
Local Open Scope list_scope.

(** ** remove_defaults_from_required *)
Inductive cleaned : json -> json -> Prop :=
| cleaned_leaf n : sub n = None -> cleaned n n
| cleaned_node n n' fs fs' :
    sub n = Some (JObj fs) -> sub n' = Some (JObj fs') ->
    (forall key, key <> "required" -> key <> "properties" -> entry_of n' key = entry_of n key) ->
    (entry_of n "required" = None -> entry_of n' "required" = None) ->
    (forall l, entry_of n "required" = Some (JArr (map JStr l)) ->
       entry_of n' "required" = Some (JArr (map JStr (without_default (JObj fs) l)))) ->
    (forall k, field fs k = None -> field fs' k = None) ->
    (forall k v, field fs k = Some v -> exists v', field fs' k = Some v' /\ cleaned v v') ->
    cleaned n n'.
Lemma erase_ok fs l : erase_defaulted (JObj fs) (map JStr l) = Ok (map JStr (without_default (JObj fs) l)).
Proof.
  induction l as [|k l IH]; [reflexivity|]. cbn [map erase_defaulted]. unfold has_default. cbn [get_string obind].
  rewrite IH. cbn [omap]. unfold without_default. cbn [filter]. unfold default_at. cbn [def_at entry_of].
  destruct (field fs k) as [d|]; [|reflexivity].
  assert (C : contains d "default" = match entry_of d "default" with Some _ => true | None => false end) by (destruct d; reflexivity).
  rewrite C. destruct (entry_of d "default"); reflexivity.
Qed.
Lemma new_required_ok fs l : new_required (JObj fs) (JArr (map JStr l)) = Ok (JArr (map JStr (without_default (JObj fs) l))).
Proof.
  unfold new_required. destruct l as [|k l]; [reflexivity|]. cbn [map]. change (JStr k :: map JStr l) with (map JStr (k :: l)).
  rewrite erase_ok. reflexivity.
Qed.
Lemma remove_leaf f n : sub n = None -> remove_defaults_from_required (S f) n = Ok n.
Proof.
  intro S. cbn [remove_defaults_from_required]. destruct n; try reflexivity. cbn [is_object andb]. rewrite contains_field.
  destruct (field fields "type") as [t|] eqn:E; [|reflexivity]. cbn [at_const]. rewrite E. cbn [obind].
  rewrite (sub_unfold fields t E) in S. destruct (is_object_literal t); [|reflexivity]. rewrite contains_field, S. reflexivity.
Qed.
Lemma remove_node f n fs : sub n = Some (JObj fs) ->
  exists ns, n = JObj ns /\
  remove_defaults_from_required (S f) n =
  obind (match field ns "required" with
         | Some r => obind (new_required (JObj fs) r) (assign (JObj ns) "required")
         | None => Ok (JObj ns)
         end) (fun schema1 =>
  obind (omapM (remove_defaults_from_required f) (map snd fs)) (fun vs =>
  assign schema1 "properties" (JObj (with_values fs vs)))).
Proof.
  intro S. destruct (sub_props n _ S) as [ns [t [-> [Et [Lt Ep]]]]]. exists ns. split; [reflexivity|].
  cbn [remove_defaults_from_required is_object andb at_const]. rewrite contains_field, Et. cbn [obind]. rewrite Lt, contains_field, Ep.
  cbn [andb obind elems with_elems]. rewrite contains_field. destruct (field ns "required"); reflexivity.
Qed.
Lemma sub_set ns key v : key <> "type" -> key <> "properties" -> sub (JObj (set_field ns key v)) = sub (JObj ns).
Proof.
  intros A B. apply sub_type; cbn; rewrite field_set.
  - destruct (String.eqb_spec key "type"); [congruence|reflexivity].
  - destruct (String.eqb_spec key "properties"); [congruence|reflexivity].
Qed.
Lemma sub_set_props ns v q : sub (JObj ns) = Some q -> sub (JObj (set_field ns "properties" v)) = Some v.
Proof.
  intro S. destruct (sub_props _ _ S) as [ns0 [t [E [Et [Lt Ep]]]]]. injection E as <-.
  rewrite (sub_unfold _ t); [rewrite Lt, field_set; reflexivity|]. rewrite field_set. exact Et.
Qed.
Lemma Forall2_map_snd (g : json -> outcome json) fs vs : Forall2 (fun a v => g a = Ok v) (map snd fs) vs ->
  Forall2 (fun a v => (fun kv : string * json => g (snd kv)) a = Ok v) fs vs.
Proof.
  revert vs. induction fs as [|a fs IH]; intros vs H; cbn in H; inversion H; subst; constructor; auto.
Qed.
Lemma remove_main fuel : forall n, well_required n -> (depth n <= fuel)%nat ->
  exists n', remove_defaults_from_required fuel n = Ok n' /\ cleaned n n'.
Proof.
  induction fuel as [|f IH]; intros n W L; [pose proof (depth_pos n); lia|].
  destruct W as [n S|n fs S N R G].
  - exists n. split; [apply remove_leaf; exact S|constructor; exact S].
  - destruct (remove_node f n fs S) as [ns [-> E]]. rewrite E. clear E.
    destruct (sub_props _ _ S) as [ns0 [t [E [Et [Lt Ep]]]]]. injection E as <-.
    assert (D : forall k v, In (k, v) fs -> exists v', remove_defaults_from_required f v = Ok v' /\ cleaned v v').
    { intros k v I. apply IH; [eapply G; exact I|]. pose proof (depth_field fs k v I). pose proof (depth_field ns _ _ (field_in _ _ _ Ep)). lia. }
    destruct (omapM_cases (remove_defaults_from_required f) (map snd fs)) as [[vs [A B]]|[A [v [I B]]]].
    { intros v I. apply in_map_iff in I. destruct I as [[k w] [<- I]]. destruct (D k w I) as [v' [X _]]. cbn. rewrite X. discriminate. }
    2: { exfalso. apply in_map_iff in I. destruct I as [[k w] [<- I]]. destruct (D k w I) as [v' [X _]]. cbn in B. congruence. }
    rewrite A. destruct (with_values_field fs vs (Forall2_map_snd _ _ _ B)) as [W1 W2].
    assert (Fld : forall k v, field fs k = Some v -> exists v', field (with_values fs vs) k = Some v' /\ cleaned v v').
    { intros k v F. specialize (W2 k). rewrite F in W2. destruct W2 as [v' [X Y]]. cbn in Y. exists v'. split; [exact X|].
      destruct (D k v (field_in _ _ _ F)) as [v2 [Z1 Z2]]. assert (v' = v2) by congruence. subst. exact Z2. }
    assert (Fln : forall k, field fs k = None -> field (with_values fs vs) k = None).
    { intros k F. specialize (W2 k). rewrite F in W2. exact W2. }
    cbn in R. destruct R as [R|[l R]]; rewrite R.
    + cbn [obind assign]. eexists. split; [reflexivity|]. eapply cleaned_node; [exact S|eapply sub_set_props; exact S| | | |exact Fln|exact Fld]; cbn [entry_of].
      * intros key N1 N2. rewrite field_set. destruct (String.eqb_spec "properties" key); [congruence|reflexivity].
      * intros _. rewrite field_set. exact R.
      * intros l K. congruence.
    + rewrite new_required_ok. cbn [obind assign]. eexists. split; [reflexivity|].
      eapply cleaned_node; [exact S| | | | |exact Fln|exact Fld]; cbn [entry_of].
      * eapply sub_set_props. rewrite sub_set by discriminate. exact S.
      * intros key N1 N2. rewrite !field_set. destruct (String.eqb_spec "properties" key); [congruence|].
        destruct (String.eqb_spec "required" key); [congruence|reflexivity].
      * congruence.
      * intros l' K. rewrite R in K. injection K as K.
        assert (Inj : forall a b, map JStr a = map JStr b -> a = b).
        { clear. induction a as [|x a IHa]; destruct b; cbn; intro H; try discriminate; [reflexivity|]. injection H as -> H. f_equal. auto. }
        apply Inj in K. subst l'. rewrite !field_set. reflexivity.
Qed.
Definition node_cleaned (n n' : json) : Prop :=
  (forall key, key <> "required" -> key <> "properties" -> entry_of n' key = entry_of n key) /\
  (sub n = None -> n' = n) /\
  (entry_of n "required" = None -> entry_of n' "required" = None) /\
  (forall ps l, sub n = Some ps -> entry_of n "required" = Some (JArr (map JStr l)) ->
     entry_of n' "required" = Some (JArr (map JStr (without_default ps l)))).
Lemma cleaned_here n n' : cleaned n n' -> node_cleaned n n'.
Proof.
  intros [n0 S|n0 n1 fs fs' S S' K R1 R2 F1 F2].
  - repeat split; auto. intros. congruence.
  - split; [exact K|]. split; [congruence|]. split; [exact R1|]. intros ps l Q R. rewrite S in Q. injection Q as <-. apply R2. exact R.
Qed.
Lemma node_at_cons s k p ps : sub s = Some ps -> node_at s (k :: p) = match entry_of ps k with Some d => node_at d p | None => None end.
Proof.
  intro S. unfold node_at. rewrite S. destruct p as [|a p]; [cbn; destruct (entry_of ps k); reflexivity|].
  rewrite def_at_cons by discriminate. destruct (entry_of ps k); reflexivity.
Qed.
Lemma cleaned_path p : forall s s', cleaned s s' ->
  match node_at s p with
  | None => node_at s' p = None
  | Some n => exists n', node_at s' p = Some n' /\ node_cleaned n n'
  end.
Proof.
  induction p as [|k p IH]; intros s s' C.
  - cbn. exists s'. split; [reflexivity|apply cleaned_here; exact C].
  - destruct C as [n S|n n' fs fs' S S' K R1 R2 F1 F2].
    + unfold node_at. rewrite S. reflexivity.
    + rewrite (node_at_cons n k p _ S), (node_at_cons n' k p _ S'). cbn [entry_of]. destruct (field fs k) as [v|] eqn:E.
      * destruct (F2 k v E) as [v' [E' C]]. rewrite E'. apply IH. exact C.
      * rewrite (F1 k E). reflexivity.
Qed.
