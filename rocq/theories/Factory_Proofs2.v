(** * Proofs about the schemas of the components *)
From Coq Require Import Reals List Bool Arith Lia String Ascii Sorted.
From Verif Require Import Base Json_Model Json_Spec Json_Proofs Json_Proofs2 Json_Proofs3 Defaults_Model Defaults_Spec Defaults_Proofs Defaults_Proofs2
  Defaults_Proofs3 Controls_Model Controls_Spec Controls_Proofs States_Model States_Spec States_Proofs Factory_Model Factory_Spec Factory_Proofs.
From Verif Require Units_Model Units_Spec Units_Proofs Units_Proofs2.
Import ListNotations.
Local Open Scope string_scope.
Local Open Scope list_scope.

(** ** Defaults do not change what is valid *)
Lemma V_keywords s s' j : (forall k, k <> "default" -> keyword s k = keyword s' k) -> V s j = V s' j.
Proof.
  intro K. rewrite !V_step. unfold vstep.
  rewrite (K "type"), (K "required"), (K "properties"), (K "items"), (K "minItems"), (K "maxItems"), (K "minimum"), (K "maximum"),
    (K "contains"), (K "allOf"), (K "additionalProperties"), (K "patternProperties"), (K "oneOf"), (K "pattern") by discriminate.
  reflexivity.
Qed.
Definition like (def def' : json) : Prop :=
  (forall key, key <> "default" -> key <> "properties" -> entry_of def' key = entry_of def key) /\
  (sub def = None -> entry_of def' "properties" = entry_of def "properties") /\
  (forall q, sub def = Some q -> exists x q', sub def' = Some q' /\ added q x q').
Lemma like_same def : (forall q, sub def = Some q -> exists x, added q x q) -> like def def.
Proof. intro H. split; [auto|]. split; [auto|]. intros q Q. destruct (H q Q) as [x A]. eauto. Qed.
Lemma field_added fs ds fs' k : added (JObj fs) (JObj ds) (JObj fs') ->
  match field fs k with
  | None => field fs' k = None
  | Some def => exists def', field fs' k = Some def' /\ entry_of def' "default" = (match field ds k with Some x => Some x | None => entry_of def "default" end) /\
      (def' = def /\ field ds k = None \/ like def def' /\ exists x, field ds k = Some x /\ forall q, sub def = Some q -> exists q', sub def' = Some q' /\ added q x q')
  end.
Proof.
  intro A. pose proof (added_path [k] _ _ _ A) as P. inversion A as [a b c H1 H2 H3 H4]; subst.
  destruct (field fs k) as [def|] eqn:E.
  - destruct (field ds k) as [x|] eqn:Ed.
    + destruct (H4 k def x E Ed) as [def' (Q1 & Q2 & Q3 & Q4 & Q5)]. exists def'. split; [exact Q1|]. split; [exact Q2|]. right. split.
      * split; [exact Q3|]. split; [exact Q4|]. intros q S. destruct (Q5 q S) as [q' [X Y]]. eauto.
      * exists x. auto.
    + exists def. split; [apply H3; assumption|]. split; [reflexivity|]. left. auto.
  - cbn in P. rewrite E in P. exact P.
Qed.
Lemma like_plain def def' : plain_node def -> like def def' -> plain_node def'.
Proof.
  intros P (L1 & L2 & L3) k K. destruct (string_dec k "default") as [->|N1]; [cbv; tauto|].
  destruct (string_dec k "properties") as [->|N2]; [cbv; tauto|]. apply P. rewrite <- (L1 k N1 N2). exact K.
Qed.
Lemma like_required def def' : like def def' -> required_of def' = required_of def.
Proof. intros (L1 & _). unfold required_of. rewrite L1 by discriminate. reflexivity. Qed.
Lemma V_like n : tidy n -> forall n' v, like n n' -> canonical v -> V n' v = V n v.
Proof.
  induction 1 as [n S|n fs S P N R O T IH]; intros n' v L C.
  - destruct L as (L1 & L2 & _). apply V_keywords. intros k K. change (entry_of n' k = entry_of n k).
    destruct (string_dec k "properties") as [->|N]; [apply L2; exact S|apply L1; assumption].
  - pose proof L as (L1 & L2 & L3). destruct (L3 _ S) as [x [q' [S' A]]].
    apply eq_true_iff_eq. assert (W : (exists vs, v = JObj vs) \/ ~ object v) by (destruct v; [right|right|right|right|right|left; eauto]; intros [? X]; discriminate X).
    destruct W as [[vs ->]|W].
    2: { split; intro H; exfalso; apply W; [eapply (V_node_object n'); eassumption|eapply (V_node_object n); eassumption]. }
    inversion A as [a b fs' H1 H2 H3 H4]; subst. 
    rewrite (V_node n' fs' vs (like_plain n n' P L) S' (canonical_nodup vs C)), (V_node n fs vs P S (canonical_nodup vs C)).
    unfold node_ok, closed_keys. rewrite (like_required n n' L), (L1 "additionalProperties") by discriminate.
    assert (Q : forall k, field fs' k = None <-> field fs k = None).
    { intro k. pose proof (field_added _ _ _ k A) as F. destruct (field fs k); [destruct F as [d' [X _]]; rewrite X; split; discriminate|]. tauto. }
    assert (E : forall k w def def', field vs k = Some w -> field fs k = Some def -> field fs' k = Some def' -> V def' w = V def w).
    { intros k w def def' Ew Ed Ed'. pose proof (field_added _ _ _ k A) as F. rewrite Ed in F. destruct F as [d' (X & _ & [[Y _]|[Y _]])].
      - congruence.
      - assert (d' = def') by congruence. subst d'. apply (IH k def (field_in _ _ _ Ed) def' w Y). eapply canonical_field; eassumption. }
    split; intros (K1 & K2 & K3); (split; [exact K1|]); split.
    + intros k w def Ew Ed. destruct (field fs' k) as [def'|] eqn:Ed'; [|apply Q in Ed'; congruence]. rewrite <- (E k w def def' Ew Ed Ed'). eapply K2; eassumption.
    + intros X k Y. rewrite <- Q. apply K3; assumption.
    + intros k w def' Ew Ed'. destruct (field fs k) as [def|] eqn:Ed; [|apply Q in Ed; congruence]. rewrite (E k w def def' Ew Ed Ed'). eapply K2; eassumption.
    + intros X k Y. rewrite Q. apply K3; assumption.
Qed.
Lemma tidy_like n : tidy n -> forall n', like n n' -> tidy n'.
Proof.
  induction 1 as [n S|n fs S P N R O T IH]; intros n' L.
  - destruct L as (L1 & L2 & _). apply tidy_leaf. rewrite <- S. apply sub_type; [apply L1; discriminate|apply L2; exact S].
  - pose proof L as (L1 & L2 & L3). destruct (L3 _ S) as [x [q' [S' A]]]. inversion A as [a b fs' H1 H2 H3 H4]; subst.
    assert (N' : NoDup (map fst fs')) by (rewrite H1; exact N).
    assert (Q : forall k v', In (k, v') fs' -> exists v, In (k, v) fs /\ (v' = v \/ like v v')).
    { intros k v' I. apply field_nodup in I; [|exact N']. pose proof (field_added _ _ _ k A) as F.
      destruct (field fs k) as [v|] eqn:E; [|congruence]. exists v. split; [apply field_in; exact E|].
      destruct F as [d' (X & _ & [[Y _]|[Y _]])]; assert (d' = v') by congruence; subst; auto. }
    apply (tidy_node n' fs' S' (like_plain n n' P L) N').
    + rewrite (L1 "required") by discriminate. exact R.
    + intros k v' I. destruct (Q k v' I) as [v [Iv [->|Lv]]]; [eapply O; exact Iv|]. destruct (O k v Iv) as [Ob Ty].
      assert (Ty' : entry_of v' "type" <> None) by (rewrite (proj1 Lv) by discriminate; exact Ty).
      split; [|exact Ty']. destruct v'; try (exfalso; apply Ty'; reflexivity). eexists. reflexivity.
    + intros k v' I. destruct (Q k v' I) as [v [Iv [->|Lv]]]; [eapply T; exact Iv|]. eapply IH; eassumption.
Qed.

(** ** Values of topology entries *)
Definition def_of (g : value_kind) : json :=
  match g with Text => type_string | Number => type_number | Length => measure_schema Units_Model.length_units end.
Lemma V_text v : V type_string v = true <-> good_value Text v.
Proof. rewrite V_step. unfold vstep. cbn. destruct v; cbn; split; intro H; try discriminate; try (destruct H as [y H]; discriminate); eauto. Qed.
Lemma V_number v : V type_number v = true <-> good_value Number v.
Proof. rewrite V_step. unfold vstep. cbn. destruct v; cbn; split; intro H; try discriminate; try (destruct H as [y H]; discriminate); eauto. Qed.
Definition unit_definition : json :=
  JObj [("oneOf", JArr [JObj [("pattern", JStr (Units_Model.pattern1_text Units_Model.length_units))];
                        JObj [("pattern", JStr (Units_Model.pattern2_text Units_Model.length_units))]]);
        ("type", JStr "string")].
Lemma matches1 s : pattern_matches (Units_Model.pattern1_text Units_Model.length_units) s
  = Units_Model.search (Units_Model.pattern1 Units_Model.length_units) (Units_Model.chars s).
Proof. unfold pattern_matches, Units_Model.measures. cbn [find]. rewrite String.eqb_refl. reflexivity. Qed.
Lemma matches2 s : pattern_matches (Units_Model.pattern2_text Units_Model.length_units) s
  = Units_Model.search (Units_Model.pattern2 Units_Model.length_units) (Units_Model.chars s).
Proof.
  unfold pattern_matches.
  replace (find (fun m => String.eqb (Units_Model.pattern2_text Units_Model.length_units) (Units_Model.pattern1_text m)) Units_Model.measures)
    with (@None Units_Model.conversion_map) by reflexivity.
  unfold Units_Model.measures. cbn [find]. rewrite String.eqb_refl. reflexivity.
Qed.
Lemma V_pattern p s : V (JObj [("pattern", JStr p)]) (JStr s) = pattern_matches p s.
Proof. rewrite V_step. reflexivity. Qed.
Lemma length_caret_free name c : In (name, c) Units_Model.length_units -> Units_Spec.caret_free name.
Proof.
  unfold Units_Model.length_units, Units_Spec.caret_free. intros H K.
  repeat (destruct H as [H|H]; [injection H as <- _; cbn in K; repeat (destruct K as [K|K]; [discriminate|]); exact K|]). exact H.
Qed.
Lemma unit_text_iff u : Units_Model.unit_valid Units_Model.length_units u = true <-> unit_text u.
Proof.
  rewrite (Units_Proofs.unit_valid_iff Units_Model.length_units u) by (left; reflexivity). unfold unit_text, Units_Proofs.prefixed. split.
  - intros [(p & pf & name & c & A & B & C & D)|(n & w & OK & E & p & pf & name & c & A & B & C & D)]; exists p, pf, name, c.
    + auto.
    + split; [exact A|]. split; [exact B|]. right. exists n. subst w. auto.
  - intros (p & pf & name & c & A & B & [C|(n & OK & C)]); pose proof (length_caret_free name c B).
    + left. exists p, pf, name, c. auto.
    + right. exists n, (Units_Model.chars p ++ Units_Model.chars name). split; [exact OK|]. split; [exact C|]. exists p, pf, name, c. auto.
Qed.
Lemma V_unit v : V unit_definition v = true <-> exists s, v = JStr s /\ unit_text (Units_Model.chars s).
Proof.
  rewrite V_step. unfold vstep, unit_definition. cbn [keyword field].
  repeat match goal with |- context [String.eqb ?a ?b] => let r := eval compute in (String.eqb a b) in change (String.eqb a b) with r end.
  cbn iota. rewrite !andb_true_r. destruct v; cbn [has_type];
  repeat match goal with |- context [String.eqb ?a ?b] => let r := eval compute in (String.eqb a b) in change (String.eqb a b) with r end;
  try (cbn; split; [discriminate|intros [s' [H _]]; discriminate]).
  cbn [andb filter]. rewrite !V_pattern, matches1, matches2.
  assert (E : Nat.eqb (List.length (if Units_Model.search (Units_Model.pattern1 Units_Model.length_units) (Units_Model.chars s)
     then JObj [("pattern", JStr (Units_Model.pattern1_text Units_Model.length_units))]
          :: (if Units_Model.search (Units_Model.pattern2 Units_Model.length_units) (Units_Model.chars s)
              then [JObj [("pattern", JStr (Units_Model.pattern2_text Units_Model.length_units))]] else [])
     else if Units_Model.search (Units_Model.pattern2 Units_Model.length_units) (Units_Model.chars s)
          then [JObj [("pattern", JStr (Units_Model.pattern2_text Units_Model.length_units))]] else [])) 1
     = Units_Model.unit_valid Units_Model.length_units (Units_Model.chars s)).
  { unfold Units_Model.unit_valid. destruct (Units_Model.search (Units_Model.pattern1 _) _), (Units_Model.search (Units_Model.pattern2 _) _); reflexivity. }
  rewrite E, unit_text_iff. split; [intro H; exists s; auto|]. intros [s' [H K]]. injection H as <-. exact K.
Qed.
