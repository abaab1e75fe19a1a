(** * Proofs about the validator and about schemas with defaults *)
From Coq Require Import Reals List Bool Arith Lia String Sorted.
From Verif Require Import Base Json_Model Json_Spec Json_Proofs Json_Proofs2 Json_Proofs3 Defaults_Model Defaults_Spec Defaults_Proofs Defaults_Proofs2 Defaults_Proofs3
  Controls_Model.
Import ListNotations.
Local Open Scope string_scope.
Local Open Scope list_scope.

(** ** One step of the validator *)
Definition vstep (rec : json -> json -> bool) (schema data : json) : bool :=
  (match keyword schema "type" with Some (JStr t) => has_type t data | _ => true end
   && match keyword schema "required", data with
      | Some (JArr ks), JObj _ => forallb (fun k => match k with JStr s => contains data s | _ => true end) ks
      | _, _ => true
      end
   && match keyword schema "properties", data with
      | Some (JObj ps), JObj fs =>
          forallb (fun kd => match field ps (fst kd) with Some s => rec s (snd kd) | None => true end) fs
      | _, _ => true
      end
   && match keyword schema "items", data with
      | Some s, JArr l => forallb (rec s) l
      | _, _ => true
      end
   && match keyword schema "minItems", data with
      | Some (JNum n), JArr l => Interp_Model.Rleb n (INR (List.length l))
      | _, _ => true
      end
   && match keyword schema "maxItems", data with
      | Some (JNum n), JArr l => Interp_Model.Rleb (INR (List.length l)) n
      | _, _ => true
      end
   && match keyword schema "minimum", data with Some (JNum n), JNum x => Interp_Model.Rleb n x | _, _ => true end
   && match keyword schema "maximum", data with Some (JNum n), JNum x => Interp_Model.Rleb x n | _, _ => true end
   && match keyword schema "contains", data with
      | Some s, JArr l => existsb (rec s) l
      | _, _ => true
      end
   && match keyword schema "allOf" with
      | Some (JArr ss) => forallb (fun s => rec s data) ss
      | _ => true
      end
   && match keyword schema "additionalProperties", data with
      | Some (JBool false), JObj fs =>
          forallb (fun kd => match keyword schema "properties" with Some ps => contains ps (fst kd) | None => false end) fs
      | _, _ => true
      end
   && match keyword schema "patternProperties", data with
      | Some (JObj [(_, s)]), JObj fs => forallb (fun kd => rec s (snd kd)) fs
      | _, _ => true
      end
   && match keyword schema "oneOf" with
      | Some (JArr ss) => Nat.eqb (List.length (filter (fun s => rec s data) ss)) 1
      | _ => true
      end
   && match keyword schema "pattern", data with
      | Some (JStr p), JStr s => pattern_matches p s
      | _, _ => true
      end)%bool.
Lemma valid_step f s j : valid (S f) s j = vstep (valid f) s j.
Proof. reflexivity. Qed.

Lemma forallb_same {A} (f g : A -> bool) l : (forall a, In a l -> f a = g a) -> forallb f l = forallb g l.
Proof. induction l as [|a l IH]; intro H; [reflexivity|]. cbn. rewrite (H a), IH; auto with datatypes. Qed.
Lemma existsb_same {A} (f g : A -> bool) l : (forall a, In a l -> f a = g a) -> existsb f l = existsb g l.
Proof. induction l as [|a l IH]; intro H; [reflexivity|]. cbn. rewrite (H a), IH; auto with datatypes. Qed.
Lemma filter_same {A} (f g : A -> bool) l : (forall a, In a l -> f a = g a) -> filter f l = filter g l.
Proof. induction l as [|a l IH]; intro H; [reflexivity|]. cbn. rewrite (H a), IH; auto with datatypes. Qed.
Lemma depth_elem l a : In a l -> (depth a < depth (JArr l))%nat.
Proof.
  intro H. cbn [depth]. induction l as [|b l IH]; [destruct H|]. cbn [map fold_right]. destruct H as [<-|H]; [lia|].
  specialize (IH H). lia.
Qed.
Lemma depth_keyword s k v : keyword s k = Some v -> (depth v < depth s)%nat.
Proof. destruct s; try discriminate. cbn [keyword]. intro H. apply field_in in H. apply (depth_field _ _ _ H). Qed.
Lemma vstep_ext rec1 rec2 s j : (forall s' j', (depth s' < depth s)%nat -> rec1 s' j' = rec2 s' j') -> vstep rec1 s j = vstep rec2 s j.
Proof.
  intro H. unfold vstep.
  assert (K : forall k v, keyword s k = Some v -> (depth v < depth s)%nat) by (intros; eapply depth_keyword; eauto).
  assert (B : forall a b c d : bool, a = b -> c = d -> (a && c)%bool = (b && d)%bool) by (intros; subst; reflexivity).
  repeat apply B; try reflexivity.
  - destruct (keyword s "properties") as [[]|] eqn:E; try reflexivity. destruct j; try reflexivity. apply forallb_same. intros [k v] _. cbn.
    destruct (field fields k) as [s'|] eqn:F; [|reflexivity]. apply H. apply K in E. apply field_in in F. pose proof (depth_field _ _ _ F). lia.
  - destruct (keyword s "items") as [s'|] eqn:E; try reflexivity. destruct j; try reflexivity. apply forallb_same. intros v _. apply H. eapply K; eauto.
  - destruct (keyword s "contains") as [s'|] eqn:E; try reflexivity. destruct j; try reflexivity. apply existsb_same. intros v _. apply H. eapply K; eauto.
  - destruct (keyword s "allOf") as [[]|] eqn:E; try reflexivity. apply forallb_same. intros v I. apply H. apply K in E. pose proof (depth_elem _ _ I). lia.
  - destruct (keyword s "patternProperties") as [[]|] eqn:E; try reflexivity. destruct fields as [|[k s'] [|]]; try reflexivity. destruct j; try reflexivity.
    apply forallb_same. intros [a v] _. apply H. apply K in E. pose proof (depth_field [(k, s')] k s' (or_introl eq_refl)). lia.
  - destruct (keyword s "oneOf") as [[]|] eqn:E; try reflexivity. rewrite (filter_same (fun s' => rec1 s' j) (fun s' => rec2 s' j)); [reflexivity|].
    intros v I. apply H. apply K in E. pose proof (depth_elem _ _ I). lia.
Qed.
Lemma valid_fuel f1 : forall f2 s j, (depth s <= f1)%nat -> (depth s <= f2)%nat -> valid f1 s j = valid f2 s j.
Proof.
  induction f1 as [|f1 IH]; intros f2 s j L1 L2; [pose proof (depth_pos s); lia|].
  destruct f2 as [|f2]; [pose proof (depth_pos s); lia|]. rewrite !valid_step. apply vstep_ext. intros s' j' L. apply IH; lia.
Qed.
Definition V (s j : json) : bool := valid (depth s) s j.
Lemma V_step s j : V s j = vstep V s j.
Proof.
  unfold V at 1. pose proof (depth_pos s). destruct (depth s) as [|f] eqn:E; [lia|]. rewrite valid_step. apply vstep_ext.
  intros s' j' L. apply valid_fuel; lia.
Qed.
Lemma V_fuel f s j : (depth s <= f)%nat -> valid f s j = V s j.
Proof. intro L. apply valid_fuel; lia. Qed.
Lemma validate_V j s : validate_json j s = if V s j then Ok tt else Exc. Proof. reflexivity. Qed.
#[global] Opaque V.

(** ** Nodes of schemas of objects *)
Definition node_key (k : string) : Prop := In k ["type"; "properties"; "required"; "additionalProperties"; "default"].
Definition closed_keys (n : json) : Prop := entry_of n "additionalProperties" = Some (JBool false).
Definition plain_node (n : json) : Prop := forall k, entry_of n k <> None -> node_key k.
Definition required_of (n : json) : list string :=
  match entry_of n "required" with Some (JArr l) => flat_map (fun k => match k with JStr s => [s] | _ => [] end) l | _ => [] end.
Lemma node_keyword n k : plain_node n -> existsb (String.eqb k) ["type"; "properties"; "required"; "additionalProperties"; "default"] = false -> keyword n k = None.
Proof.
  intros P N. change (entry_of n k = None). destruct (entry_of n k) eqn:E; [|reflexivity]. exfalso.
  assert (C : entry_of n k <> None) by congruence. apply P in C. unfold node_key in C.
  assert (X : existsb (String.eqb k) ["type"; "properties"; "required"; "additionalProperties"; "default"] = true); [|congruence].
  apply existsb_exists. exists k. split; [exact C|]. apply String.eqb_refl.
Qed.
Definition node_ok (n : json) (ps fs : list (string * json)) : Prop :=
  (forall k, In k (required_of n) -> field fs k <> None) /\
  (forall k v def, field fs k = Some v -> field ps k = Some def -> V def v = true) /\
  (closed_keys n -> forall k, field fs k <> None -> field ps k <> None).
Lemma contains_obj fs k : contains (JObj fs) k = true <-> field fs k <> None.
Proof. rewrite contains_field. destruct (field fs k); split; congruence. Qed.
Lemma V_node n ps fs : plain_node n -> sub n = Some (JObj ps) -> NoDup (map fst fs) ->
  V n (JObj fs) = true <-> node_ok n ps fs.
Proof.
  intros P S N. destruct (sub_props _ _ S) as [ns [t [-> [Et [Lt Ep]]]]]. rewrite V_step. unfold vstep.
  change (keyword (JObj ns) "properties") with (field ns "properties"). change (keyword (JObj ns) "type") with (field ns "type").
  rewrite Ep, Et.
  rewrite (node_keyword (JObj ns) "items"), (node_keyword (JObj ns) "minItems"), (node_keyword (JObj ns) "maxItems"),
    (node_keyword (JObj ns) "minimum"), (node_keyword (JObj ns) "maximum"), (node_keyword (JObj ns) "contains"), (node_keyword (JObj ns) "allOf"),
    (node_keyword (JObj ns) "patternProperties"), (node_keyword (JObj ns) "oneOf"), (node_keyword (JObj ns) "pattern") by (exact P || reflexivity). rewrite !andb_true_r.
  destruct t; try discriminate. cbn in Lt. apply String.eqb_eq in Lt. subst s. cbn [has_type]. rewrite String.eqb_refl. cbn [andb].
  rewrite !andb_true_iff. unfold node_ok.
  assert (R : match keyword (JObj ns) "required" with
              | Some (JArr ks) => forallb (fun k => match k with JStr s => contains (JObj fs) s | _ => true end) ks
              | _ => true end = true <-> forall k, In k (required_of (JObj ns)) -> field fs k <> None).
  { unfold required_of. change (entry_of (JObj ns) "required") with (keyword (JObj ns) "required").
    destruct (keyword (JObj ns) "required") as [[]|]; try (split; [intros _ k []|reflexivity]).
    rewrite forallb_forall. split.
    - intros H k I. apply in_flat_map in I. destruct I as [r [I1 I2]]. specialize (H r I1). destruct r; try contradiction. destruct I2 as [I2|[]]. subst k. apply contains_obj. exact H.
    - intros H r I. destruct r; try reflexivity. apply contains_obj. apply H. apply in_flat_map. exists (JStr s). split; [exact I|left; reflexivity]. }
  rewrite R. clear R.
  assert (Q : forallb (fun kd => match field ps (fst kd) with Some s => V s (snd kd) | None => true end) fs = true
              <-> forall k v def, field fs k = Some v -> field ps k = Some def -> V def v = true).
  { rewrite forallb_forall. split.
    - intros H k v def F D. apply field_in in F. specialize (H _ F). cbn in H. rewrite D in H. exact H.
    - intros H [k v] I. cbn. destruct (field ps k) eqn:D; [|reflexivity]. eapply H; [apply field_nodup; eassumption|exact D]. }
  rewrite Q. clear Q.
  assert (A : match keyword (JObj ns) "additionalProperties" with
              | Some (JBool false) => forallb (fun kd : string * json => contains (JObj ps) (fst kd)) fs
              | _ => true end = true <-> (closed_keys (JObj ns) -> forall k, field fs k <> None -> field ps k <> None)).
  { unfold closed_keys. change (entry_of (JObj ns) "additionalProperties") with (keyword (JObj ns) "additionalProperties").
    destruct (keyword (JObj ns) "additionalProperties") as [[|[]| | | |]|]; try (split; [intros _ X; discriminate|reflexivity]).
    rewrite forallb_forall. split.
    - intros H _ k F. destruct (field fs k) as [v|] eqn:E; [|congruence]. apply field_in in E. specialize (H _ E). cbn in H. apply contains_obj. exact H.
    - intros H [k v] I. apply contains_obj. apply H; [reflexivity|]. cbn. rewrite (field_nodup fs k v N I). discriminate. }
  rewrite A. tauto.
Qed.
Lemma V_node_object n ps j : sub n = Some ps -> V n j = true -> object j.
Proof.
  intros S H. destruct (sub_props _ _ S) as [ns [t [-> [Et [Lt Ep]]]]]. rewrite V_step in H. unfold vstep in H.
  change (keyword (JObj ns) "type") with (field ns "type") in H. rewrite Et in H. destruct t; try discriminate.
  cbn in Lt. apply String.eqb_eq in Lt. subst s. destruct j; try discriminate. eexists. reflexivity.
Qed.

(** ** Schemas with defaults *)
Inductive tidy : json -> Prop :=
| tidy_leaf n : sub n = None -> tidy n
| tidy_node n fs : sub n = Some (JObj fs) -> plain_node n -> NoDup (map fst fs) ->
    (entry_of n "required" = None \/ exists l, entry_of n "required" = Some (JArr (map JStr l))) ->
    (forall k v, In (k, v) fs -> object v /\ entry_of v "type" <> None) ->
    (forall k v, In (k, v) fs -> tidy v) -> tidy n.
Lemma tidy_well n : tidy n -> well_required n.
Proof. induction 1 as [n S|n fs S P N R O T IH]; [constructor; exact S|]. eapply well_required_node; eauto. Qed.
Lemma tidy_good n : tidy n -> forall ps, sub n = Some ps -> good_props ps.
Proof.
  induction 1 as [n S|n fs S P N R O T IH]; intros ps E; [congruence|]. rewrite S in E. injection E as <-. constructor; [exact N|exact O|].
  intros k v q I Q. eapply IH; eauto.
Qed.
Definition defaults_ok (ps : json) : Prop := forall p def x, def_at ps p = Some def -> entry_of def "default" = Some x -> V def x = true.
Lemma defaults_ok_sub ps k def q : entry_of ps k = Some def -> sub def = Some q -> defaults_ok ps -> defaults_ok q.
Proof.
  intros E S D p d x H. apply (D (k :: p) d x). destruct p; [discriminate|]. rewrite def_at_cons by discriminate. rewrite E, S. exact H.
Qed.
Lemma canonical_nodup fs : canonical (JObj fs) -> NoDup (map fst fs).
Proof. intro C. inversion C; subst. match goal with H : StronglySorted _ _ |- _ => revert H end. generalize (map fst fs).
  clear. intro l. induction 1 as [|a l S IH F]; constructor; [|exact IH]. intro I. apply (proj1 (Forall_forall _ _) F) in I.
  apply (before_irrefl _ I). Qed.
Lemma canonical_field fs k v : canonical (JObj fs) -> field fs k = Some v -> canonical v.
Proof. intros C F. inversion C as [| | | | |gs Hs Hc]; subst. eapply Hc. apply field_in. exact F. Qed.

Lemma filled_fields ps d d' : filled ps d d' -> exists ds ds', d = JObj ds /\ d' = JObj ds'.
Proof. intro F. inversion F; subst. eauto. Qed.
Lemma cleaned_plain n n' : plain_node n -> cleaned n n' -> plain_node n'.
Proof.
  intros P C k K. inversion C as [m S|m m' fs fs' S S' A B R N G]; subst; [auto|].
  destruct (string_dec k "required") as [->|N1]; [right; right; left; reflexivity|].
  destruct (string_dec k "properties") as [->|N2]; [right; left; reflexivity|]. apply P. rewrite <- (A k N1 N2). exact K.
Qed.
Lemma required_of_list n l : entry_of n "required" = Some (JArr (map JStr l)) -> required_of n = l.
Proof. intro E. unfold required_of. rewrite E. clear E. induction l as [|a l IH]; [reflexivity|]. cbn. f_equal. exact IH. Qed.

(** Valid data is without conflict. *)
Lemma cleaned_conflict n : tidy n -> forall n' ps e, cleaned n n' -> sub n = Some ps -> canonical e -> V n' e = true -> ~ conflict ps e.
Proof.
  induction 1 as [n S|n fs S P N R O T IH]; intros n' ps e C E Ce Hv; [congruence|].
  rewrite S in E. injection E as <-. intros (p & v & q & Sp & Ap & Nv).
  inversion C as [m S0|m m' fs0 fs' S0 S' A B RR NN G]; subst; [congruence|]. rewrite S in S0. injection S0 as <-.
  destruct (V_node_object n' _ e S' Hv) as [es ->].
  apply (V_node n' fs' es (cleaned_plain n n' P C) S' (canonical_nodup es Ce)) in Hv. destruct Hv as (H1 & H2 & H3).
  destruct p as [|k p]; [discriminate|]. cbn [at_path entry_of] in Ap. destruct (field es k) as [w|] eqn:Ek; [|discriminate].
  destruct (field fs k) as [def|] eqn:Ed.
  2: { unfold sub_at in Sp. destruct p; cbn in Sp; rewrite Ed in Sp; discriminate. }
  destruct (G k def Ed) as [def' [Ed' Cd]]. pose proof (H2 k w def' Ek Ed') as Hw.
  assert (Cw : canonical w) by (eapply canonical_field; eassumption).
  destruct p as [|k2 p].
  - cbn in Ap. injection Ap as ->. unfold sub_at in Sp. cbn in Sp. rewrite Ed in Sp. apply Nv.
    inversion Cd as [m X|m m' gs gs' X X']; subst; [congruence|]. eapply V_node_object; [exact X'|exact Hw].
  - unfold sub_at in Sp. rewrite def_at_cons in Sp by discriminate. cbn [entry_of] in Sp. rewrite Ed in Sp.
    destruct (sub def) as [q'|] eqn:Sd; [|discriminate].
    apply (IH k def (field_in _ _ _ Ed) def' q' w Cd Sd Cw Hw). exists (k2 :: p), v, q. split; [exact Sp|]. split; [exact Ap|exact Nv].
Qed.

(** Data is valid against the schema without the defaulted keys exactly if the completed data is
    valid against the full schema. *)
Lemma cleaned_valid n : tidy n -> forall n' ps e e', cleaned n n' -> sub n = Some ps ->
  canonical e -> canonical e' -> filled ps e e' -> (defaults_ok ps -> V n' e = true -> V n e' = true) /\ (V n e' = true -> V n' e = true).
Proof.
  induction 1 as [n S|n fs S P N R O T IH]; intros n' ps e e' C E Ce Ce' F; [congruence|].
  rewrite S in E. injection E as <-.
  inversion C as [m S0|m m' fs0 fs' S0 S' A B RR NN G]; subst; [congruence|]. rewrite S in S0. injection S0 as <-.
  inversion F as [ps0 es es' F1 F2 F3 F4]; subst. cbn [entry_of] in *.
  rewrite (V_node n' fs' es (cleaned_plain n n' P C) S' (canonical_nodup es Ce)), (V_node n fs es' P S (canonical_nodup es' Ce')).
  assert (Kept : forall k, field es k <> None -> field es' k <> None).
  { intros k K. destruct (field es k) as [v|] eqn:Ek; [|congruence]. destruct (field fs k) as [def|] eqn:Ed.
    - destruct (sub def) as [q|] eqn:Sd; [destruct (F4 k def v q Ed Ek Sd) as [v' [X _]]|pose proof (F3 k def v Ed Ek Sd) as X]; rewrite X; discriminate.
    - rewrite (F1 k Ed), Ek. discriminate. }
  assert (Back : forall k, field es k = None -> field es' k <> None -> exists def x, field fs k = Some def /\ entry_of def "default" = Some x /\ field es' k = Some x).
  { intros k K K'. destruct (field fs k) as [def|] eqn:Ed; [|rewrite (F1 k Ed) in K'; contradiction].
    rewrite (F2 k def Ed K) in *. destruct (entry_of def "default") as [x|] eqn:Ex; [|contradiction]. exists def, x. auto. }
  assert (Req : forall k, In k (required_of n') <-> In k (required_of n) /\ default_at (JObj fs) [k] = None).
  { intro k. destruct R as [R|[l R]].
    - unfold required_of. rewrite (B R), R. cbn. tauto.
    - rewrite (required_of_list n l R), (required_of_list n' _ (RR l R)). unfold without_default. rewrite filter_In.
      destruct (default_at (JObj fs) [k]); split; intros [X Y]; split; congruence. }
  assert (Deep : forall k v v' def def', field es k = Some v -> field es' k = Some v' -> field fs k = Some def -> field fs' k = Some def' ->
            (defaults_ok (JObj fs) -> V def' v = true -> V def v' = true) /\ (V def v' = true -> V def' v = true)).
  { intros k v v' def def' Ev Ev' Ed Ed'. destruct (G k def Ed) as [d2 [X Cd]]. assert (d2 = def') by congruence. subst d2.
    destruct (sub def) as [q|] eqn:Sd.
    - destruct (F4 k def v q Ed Ev Sd) as [v2 [Y Fq]]. assert (v2 = v') by congruence. subst v2.
      destruct (IH k def (field_in _ _ _ Ed) def' q v v' Cd Sd) as [I1 I2]; [eapply canonical_field; [exact Ce|exact Ev]
        |eapply canonical_field; [exact Ce'|exact Ev']|exact Fq|].
      split; [|exact I2]. intro D. apply I1. eapply defaults_ok_sub; [|exact Sd|exact D]. exact Ed.
    - rewrite (F3 k def v Ed Ev Sd) in Ev'. injection Ev' as <-. inversion Cd as [m Z|m m' gs gs' Z]; subst; [split; auto|congruence]. }
  unfold node_ok, closed_keys. rewrite (A "additionalProperties") by discriminate.
  split; [intros D (H1 & H2 & H3)|intros (H1 & H2 & H3)]; split; [|split| |split].
  - intros k K. destruct (default_at (JObj fs) [k]) as [x|] eqn:Dk.
    + unfold default_at in Dk. cbn in Dk. destruct (field fs k) as [def|] eqn:Ed; [|discriminate].
      destruct (field es k) eqn:Ek; [apply Kept; congruence|]. rewrite (F2 k def Ed Ek), Dk. discriminate.
    + apply Kept, H1, Req. auto.
  - intros k v' def Ev' Ed. destruct (field es k) as [v|] eqn:Ek.
    + destruct (G k def Ed) as [def' [Ed' _]]. apply (proj1 (Deep k v v' def def' Ek Ev' Ed Ed')); [exact D|]. eapply H2; eassumption.
    + destruct (Back k Ek) as (d & x & Ed2 & Ex & Ex'); [congruence|]. assert (d = def) by congruence. assert (x = v') by congruence. subst.
      apply (D [k] def v'); [exact Ed|exact Ex].
  - intros K k Kk. destruct (field es k) eqn:Ek.
    + assert (X : field fs' k <> None) by (apply H3; [exact K|congruence]). intro Y. apply X. apply NN. exact Y.
    + destruct (Back k Ek Kk) as (d & x & Ed2 & _). congruence.
  - intros k K. apply Req in K. destruct K as [K Dk]. specialize (H1 k K). intro Ek. destruct (Back k Ek H1) as (d & x & Ed & Ex & _).
    unfold default_at in Dk. cbn in Dk. rewrite Ed in Dk. congruence.
  - intros k v def' Ev Ed'. destruct (field fs k) as [def|] eqn:Ed; [|rewrite (NN k Ed) in Ed'; discriminate].
    destruct (field es' k) as [v'|] eqn:Ev'; [|exfalso; apply (Kept k); congruence].
    apply (Deep k v v' def def' Ev Ev' Ed Ed'). eapply H2; eassumption.
  - intros K k Kk. specialize (H3 K k (Kept k Kk)). destruct (field fs k) as [def|] eqn:Ed; [|congruence].
    destruct (G k def Ed) as [def' [X _]]. congruence.
Qed.
