From Coq Require Import List Arith Lia Bool String OrdersEx Orders RelationClasses Sorted Permutation.
From Verif Require Import Base Json_Model Json_Spec.
Import ListNotations.
Local Open Scope string_scope.
Local Open Scope list_scope.

(** ** Order of strings *)
Lemma compare_OT a b : String.compare a b = String_as_OT.compare a b.
Proof. reflexivity. Qed.
Lemma before_trans a b c : before a b -> before b c -> before a c.
Proof. unfold before. rewrite !compare_OT. apply (StrictOrder_Transitive (R := String_as_OT.lt)). Qed.
Lemma before_irrefl a : ~ before a a.
Proof. unfold before. rewrite !compare_OT. apply (StrictOrder_Irreflexive (R := String_as_OT.lt)). Qed.
Lemma compare_refl a : String.compare a a = Eq.
Proof.
  destruct (String.compare a a) eqn:E; auto.
  - exfalso. exact (before_irrefl a E).
  - pose proof (compare_antisym a a) as K. rewrite E in K. discriminate K.
Qed.
Lemma compare_eq a b : String.compare a b = Eq <-> a = b.
Proof. split; [apply compare_eq_iff|intros ->; apply compare_refl]. Qed.
Lemma compare_gt a b : String.compare a b = Gt <-> before b a.
Proof. unfold before. rewrite (compare_antisym a b). destruct (String.compare b a); cbn; split; congruence. Qed.
Lemma ltb_true a b : String.ltb a b = true <-> before a b.
Proof. unfold String.ltb, before. destruct (String.compare a b); split; congruence. Qed.
Lemma before_cases a b : before a b \/ a = b \/ before b a.
Proof.
  destruct (String.compare a b) eqn:E; auto.
  - right. left. apply compare_eq. exact E.
  - right. right. apply compare_gt. exact E.
Qed.
Lemma ltb_false a b : String.ltb a b = false <-> b = a \/ before b a.
Proof.
  split; intro H.
  - destruct (before_cases a b) as [K|[K|K]]; auto. apply ltb_true in K. congruence.
  - destruct (String.ltb a b) eqn:E; auto. apply ltb_true in E. destruct H as [->|H].
    + exfalso. exact (before_irrefl _ E).
    + exfalso. exact (before_irrefl _ (before_trans _ _ _ H E)).
Qed.
Lemma leb_true a b : String.leb a b = true <-> a = b \/ before a b.
Proof.
  unfold String.leb. destruct (String.compare a b) eqn:E; split; intro H; auto; try discriminate.
  - left. apply compare_eq. exact E.
  - apply compare_gt in E. destruct H as [->|H]; exfalso; eapply before_irrefl; [exact E|eapply before_trans; eauto].
Qed.
Lemma leb_false a b : String.leb a b = false <-> before b a.
Proof.
  split; intro H.
  - destruct (before_cases a b) as [K|[K|K]]; auto.
    + assert (String.leb a b = true) by (apply leb_true; auto). congruence.
    + assert (String.leb a b = true) by (apply leb_true; auto). congruence.
  - destruct (String.leb a b) eqn:E; auto. apply leb_true in E. destruct E as [->|E].
    + exfalso. exact (before_irrefl _ H).
    + exfalso. exact (before_irrefl _ (before_trans _ _ _ H E)).
Qed.

(** ** Sorting strings *)
Definition ble (a b : string) : Prop := a = b \/ before a b.
Lemma ble_trans a b c : ble a b -> ble b c -> ble a c.
Proof. intros [->|H] [->|K]; unfold ble; auto. right. eapply before_trans; eauto. Qed.
Lemma insert_perm x l : Permutation (insert_string x l) (x :: l).
Proof.
  induction l as [|y l IH]; cbn; auto. destruct (String.leb x y); auto.
  rewrite IH. apply perm_swap.
Qed.
Lemma sort_perm l : Permutation (sort_strings l) l.
Proof. induction l as [|x l IH]; cbn; auto. rewrite insert_perm. constructor. exact IH. Qed.
Lemma insert_sorted x l : StronglySorted ble l -> StronglySorted ble (insert_string x l).
Proof.
  induction 1 as [|y l H IH F]; cbn; [repeat constructor|].
  destruct (String.leb x y) eqn:E.
  - apply leb_true in E. constructor; [constructor; auto|]. constructor; [exact E|].
    eapply Forall_impl; [|exact F]. intros a Ha. eapply ble_trans; eauto.
  - apply leb_false in E. constructor; [exact IH|]. rewrite insert_perm. constructor; [right; exact E|exact F].
Qed.
Lemma sort_sorted l : StronglySorted ble (sort_strings l).
Proof. induction l; cbn; [constructor|]. apply insert_sorted. auto. Qed.
Lemma adjacent_dup l : StronglySorted ble l -> (adjacent_equal l = true <-> ~ NoDup l).
Proof.
  induction 1 as [|x l H IH F]; [split; [discriminate|intro H; exfalso; apply H; constructor]|].
  destruct l as [|y l].
  - cbn. split; [discriminate|]. intro K. exfalso. apply K. repeat constructor. intros [].
  - change (adjacent_equal (x :: y :: l)) with (String.eqb x y || adjacent_equal (y :: l))%bool.
    rewrite orb_true_iff, IH. split.
    + intros [E|E] N.
      * apply String.eqb_eq in E. subst. inversion N; subst. apply H2. left. reflexivity.
      * inversion N; auto.
    + intro N. destruct (String.eqb_spec x y) as [E|E]; [auto|]. right. intro N'. apply N. constructor; [|exact N'].
      intros [K|K]; [congruence|]. inversion F as [|? ? F1 _]; subst. inversion H as [|? ? _ F3]; subst.
      rewrite Forall_forall in F3. specialize (F3 x K). destruct F1 as [F1|F1]; [congruence|].
      destruct F3 as [F3|F3]; [congruence|]. eapply before_irrefl. eapply before_trans; eauto.
Qed.

(** ** Fields *)
Lemma field_set fs k v k' : field (set_field fs k v) k' = if String.eqb k k' then Some v else field fs k'.
Proof.
  induction fs as [|[k0 v0] fs IH]; cbn; auto.
  destruct (String.compare k k0) eqn:E; cbn.
  - apply compare_eq in E. subst k0. destruct (String.eqb k k'); reflexivity.
  - reflexivity.
  - rewrite IH. destruct (String.eqb_spec k0 k') as [->|N]; auto.
    destruct (String.eqb_spec k k') as [->|N']; auto.
    rewrite compare_refl in E. discriminate.
Qed.
Lemma has_id_id c x : has_id c x -> id c = x.
Proof. intros [fs [-> E]]. cbn. rewrite E. reflexivity. Qed.
Lemma has_id_of c x : has_id c x -> id_of c = Ok x.
Proof. intros [fs [-> E]]. unfold id_of, at_const. rewrite E. reflexivity. Qed.
Lemma has_id_component c x : has_id c x -> component_id c = Ok x.
Proof.
  intro H. unfold component_id. rewrite (has_id_of c x H). destruct H as [fs [-> E]]. cbn. rewrite E. reflexivity.
Qed.
Lemma omapM_ids (f : json -> outcome string) l :
  (forall c, In c l -> f c = Ok (id c)) -> omapM f l = Ok (map id l).
Proof.
  induction l as [|c l IH]; intro H; [reflexivity|]. cbn [omapM map]. rewrite (H c) by (left; reflexivity).
  cbn [obind]. rewrite IH by (intros; apply H; right; auto). reflexivity.
Qed.
Lemma elems_arr l : elems (JArr l) = l. Proof. reflexivity. Qed.

Lemma good_elems ts : (forall t w, In (t, w) ts -> exists l, w = JArr l /\ forall c, In c l -> exists x, has_id c x) ->
  flat_map (fun kv : string * json => elems (snd kv)) ts = flat_map (fun tv => list_of (snd tv)) ts /\
  forall c, In c (flat_map (fun tv : string * json => list_of (snd tv)) ts) -> exists x, has_id c x.
Proof.
  intro H. split.
  - induction ts as [|[t w] ts IH]; [reflexivity|]. cbn [flat_map snd].
    destruct (H t w) as [l [-> _]]; [left; reflexivity|]. cbn. rewrite IH; [reflexivity|].
    intros t' w' K. apply (H t'). right. exact K.
  - intros c Hc. apply in_flat_map in Hc. destruct Hc as [[t w] [K Hc]]. destruct (H t w K) as [l [-> G]].
    apply G. exact Hc.
Qed.
Definition class_good (j : json) (class : string) : Prop :=
  exists fs, j = JObj fs /\ forall v, field fs class = Some v -> good_class v.
Lemma good_nodes j : good_file j -> class_good j "nodes".
Proof. intros [fs [E [A B]]]. exists fs. auto. Qed.
Lemma good_connections j : good_file j -> class_good j "connections".
Proof. intros [fs [E [A B]]]. exists fs. auto. Qed.
Lemma class_components j class : class_good j class -> forall c, In c (components j class) -> exists x, has_id c x.
Proof.
  intros [fs [-> G]] c H. unfold components, types in H. destruct (field fs class) as [v|] eqn:E; [|destruct H].
  destruct (G v eq_refl) as [ts [-> [N K]]]. apply (proj2 (good_elems ts K)). exact H.
Qed.
Lemma class_ids_ok j class : class_good j class -> class_ids j class = Ok (map id (components j class)).
Proof.
  intro G. pose proof (class_components j class G) as K. destruct G as [fs [-> G]].
  unfold class_ids, contains, at_const. unfold components, types in *.
  destruct (field fs class) as [v|] eqn:E; [|reflexivity]. cbn [obind].
  destruct (G v eq_refl) as [ts [-> [N H]]]. cbn [items]. rewrite (proj1 (good_elems ts H)).
  apply omapM_ids. intros c Hc. destruct (K c Hc) as [x Hx]. rewrite (has_id_id c x Hx). apply has_id_component. exact Hx.
Qed.
Lemma sorted_ids_ok j : good_file j -> get_sorted_ids_of_json j = Ok (sort_strings (all_ids j)).
Proof.
  intro G. unfold get_sorted_ids_of_json. rewrite (class_ids_ok j _ (good_nodes j G)), (class_ids_ok j _ (good_connections j G)).
  cbn [obind]. unfold all_ids, all_components. rewrite map_app. reflexivity.
Qed.

(** ** check_components_in_json *)
Lemma count_lt x l : Forall (before x) l -> count_occ string_dec l x = O.
Proof.
  intro F. apply count_occ_not_In. intro H. rewrite Forall_forall in F. exact (before_irrefl _ (F x H)).
Qed.
Lemma sorted_head x y l : ble x y -> StronglySorted ble (y :: l) -> x <> y -> count_occ string_dec (y :: l) x = O.
Proof.
  intros B S N. apply count_lt. inversion S as [|? ? S' F]; subst. destruct B as [->|B]; [congruence|].
  constructor; [exact B|]. eapply Forall_impl; [|exact F]. intros a [<-|Ha]; [exact B|]. eapply before_trans; eauto.
Qed.
Lemma missing_spec fuel : forall ids js, (List.length ids + List.length js <= fuel)%nat ->
  StronglySorted ble ids -> StronglySorted ble js ->
  forall x, count_occ string_dec (missing_ids fuel ids js) x = (count_occ string_dec ids x - count_occ string_dec js x)%nat.
Proof.
  induction fuel as [|f IH]; intros ids js L Si Sj x.
  - destruct ids, js; cbn in L; try lia. reflexivity.
  - cbn [missing_ids]. destruct js as [|j js]; [cbn; lia|]. destruct ids as [|i is]; [reflexivity|].
    cbn [List.length] in L. destruct (String.ltb j i) eqn:E.
    + apply ltb_true in E. rewrite IH; [|cbn [List.length]; lia|exact Si|inversion Sj; auto].
      destruct (string_dec j x) as [->|N].
      * rewrite (sorted_head x i is); [lia|right; exact E|exact Si|]. intros ->. exact (before_irrefl _ E).
      * cbn [count_occ]. destruct (string_dec j x); [contradiction|]. reflexivity.
    + destruct (String.ltb i j) eqn:E'.
      * apply ltb_true in E'. cbn [count_occ]. destruct (string_dec i x) as [->|N].
        -- rewrite IH; [|cbn [List.length]; lia|inversion Si; auto|exact Sj].
           pose proof (sorted_head x j js (or_intror E') Sj ltac:(intros ->; exact (before_irrefl _ E'))) as Z.
           cbn [count_occ] in Z. destruct (string_dec j x); [lia|]. cbn [count_occ].
           destruct (string_dec j x); [contradiction|]. lia.
        -- rewrite IH; [|cbn [List.length]; lia|inversion Si; auto|exact Sj]. reflexivity.
      * assert (i = j).
        { apply ltb_false in E, E'. destruct E as [E|E]; [congruence|]. destruct E' as [E'|E']; [congruence|].
          exfalso. eapply before_irrefl. eapply before_trans; eauto. }
        subst j. rewrite IH; [|lia|inversion Si; auto|inversion Sj; auto].
        cbn [count_occ]. destruct (string_dec i x); lia.
Qed.
Lemma check_spec ids j : good_file j ->
  check_components_in_json ids j <> UB /\
  (check_components_in_json ids j = Exc <->
   exists x, (count_occ string_dec (all_ids j) x < count_occ string_dec ids x)%nat).
Proof.
  intro G. unfold check_components_in_json. rewrite (sorted_ids_ok j G). cbn [obind].
  set (m := missing_ids _ _ _).
  assert (M : forall x, count_occ string_dec m x =
            (count_occ string_dec ids x - count_occ string_dec (all_ids j) x)%nat).
  { intro x. unfold m. rewrite missing_spec; [|lia|apply sort_sorted|apply sort_sorted].
    pose proof (sort_perm ids) as P1. pose proof (sort_perm (all_ids j)) as P2.
    rewrite (Permutation_count_occ string_dec) in P1, P2. rewrite P1, P2. reflexivity. }
  destruct m as [|y m].
  - split; [discriminate|]. split; [discriminate|]. intros [x Hx]. specialize (M x). cbn in M. lia.
  - split; [discriminate|]. split; [|reflexivity]. intros _. exists y. specialize (M y). cbn in M.
    destruct (string_dec y y); [|congruence]. lia.
Qed.

(** ** Distribution of entries *)
Lemma position_spec ids x n : NoDup ids -> (position ids x = Some n <-> nth_error ids n = Some x).
Proof.
  intro N. revert n. induction ids as [|y ids IH]; intro n; cbn [position].
  - split; [discriminate|]. destruct n; discriminate.
  - inversion N as [|? ? N1 N2]; subst. specialize (IH N2). destruct (String.eqb_spec y x) as [->|E].
    + split; [intro H; injection H as <-; reflexivity|]. destruct n; [reflexivity|]. cbn. intro H. exfalso.
      apply N1. eapply nth_error_In. exact H.
    + destruct n as [|n]; cbn.
      * split; [destruct (position ids x); discriminate|congruence].
      * rewrite <- IH. destruct (position ids x); cbn; split; congruence.
Qed.
Lemma class_calls_ok ids j class : class_good j class ->
  class_calls ids j class = Ok (flat_map (fun c => match position ids (id c) with Some n => [(n, c)] | None => [] end)
                                         (components j class)).
Proof.
  intro G. pose proof (class_components j class G) as K. destruct G as [fs [-> G]].
  unfold class_calls, contains, at_const. unfold components, types in *.
  destruct (field fs class) as [v|] eqn:E; [|reflexivity]. cbn [obind].
  destruct (G v eq_refl) as [ts [-> [N H]]]. cbn [elems].
  assert (F : flat_map elems (map snd ts) = flat_map (fun tv => list_of (snd tv)) ts).
  { rewrite <- (proj1 (good_elems ts H)). clear. induction ts as [|t ts IH]; [reflexivity|]. cbn. rewrite IH. reflexivity. }
  rewrite F, omapM_ids.
  - cbn [omap]. f_equal. generalize (flat_map (fun tv : string * json => list_of (snd tv)) ts) as l. clear.
    induction l as [|c l IH]; [reflexivity|]. cbn [map combine flat_map fst snd]. rewrite IH. reflexivity.
  - intros c Hc. destruct (K c Hc) as [x Hx]. rewrite (has_id_id c x Hx). apply has_id_of. exact Hx.
Qed.
Lemma distribute_ok ids j : good_file j -> forall calls, distribute ids j = Ok calls ->
  calls = flat_map (fun c => match position ids (id c) with Some n => [(n, c)] | None => [] end) (all_components j).
Proof.
  intros G calls H. unfold distribute in H. apply obind_Ok in H. destruct H as [[] [_ H]].
  rewrite (class_calls_ok ids j _ (good_nodes j G)), (class_calls_ok ids j _ (good_connections j G)) in H.
  cbn [obind] in H. injection H as <-. unfold all_components. rewrite flat_map_app. reflexivity.
Qed.
