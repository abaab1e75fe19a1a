From Coq Require Import List Arith Lia Bool String Sorted Permutation.
From Verif Require Import Base Json_Model Json_Spec Json_Proofs Json_Proofs2.
Import ListNotations.
Local Open Scope string_scope.
Local Open Scope list_scope.

Section Merge.
Variables (name : string) (ss : list (string * json)).
Hypothesis Nss : NoDup (map fst ss).
Hypothesis Gss : forall t w, In (t, w) ss ->
  exists l, w = JArr l /\ StronglySorted before (map id l) /\ forall c, In c l -> exists x, has_id c x.
Definition sec (k : string) : list json := match field ss k with Some v => list_of v | None => [] end.
Definition top_ok (keys : list string) (ts : list (string * json)) : Prop := forall t w, In t keys -> field ts t = Some w ->
  exists l, w = JArr l /\ StronglySorted before (map id l) /\ forall c, In c l -> exists x, has_id c x.

Lemma sec_ok k : StronglySorted before (map id (sec k)) /\ forall c, In c (sec k) -> exists x, has_id c x.
Proof.
  unfold sec. destruct (field ss k) as [v|] eqn:E; [|split; [constructor|intros c []]].
  destruct (Gss k v (field_in _ _ _ E)) as [l [-> H]]. exact H.
Qed.
Lemma merge_key_ok ts key : top_ok [key] ts -> In key (map fst ss) ->
  (merge_key name (JObj ss) (JObj ts) key = Ok (JObj ts) /\ field ts key = None)
  \/ (exists w l ts', field ts key = Some w /\ Forall2 (attached name (sec key)) (list_of w) l /\ ~ gap (sec key) (list_of w) /\
        merge_key name (JObj ss) (JObj ts) key = Ok (JObj ts') /\
        forall k, field ts' k = if String.eqb key k then Some (JArr l) else field ts k)
  \/ (exists w, field ts key = Some w /\ gap (sec key) (list_of w) /\ merge_key name (JObj ss) (JObj ts) key = Exc).
Proof.
  intros T I. unfold merge_key, contains. destruct (field ts key) as [w|] eqn:E; [right|left; auto].
  destruct (T key w (or_introl eq_refl) E) as [lw [-> [Sw Hw]]].
  assert (K : exists v, field ss key = Some v).
  { clear -I. induction ss as [|[k v] l IH]; [destruct I|]. cbn in *. destruct (String.eqb_spec k key); [eauto|].
    destruct I as [I|I]; [contradiction|auto]. }
  destruct K as [v Ev]. destruct (Gss key v (field_in _ _ _ Ev)) as [lv [-> [Sv Hv]]].
  unfold at_const. rewrite Ev, E. cbn [obind elems with_elems].
  assert (Q : sec key = lv) by (unfold sec; rewrite Ev; reflexivity). rewrite Q.
  destruct (merge_spec name lv lw Sv Sw Hv Hw) as [[l [E1 [F1 G1]]]|[E1 G1]]; rewrite E1; cbn [obind assign].
  - left. exists (JArr lw), l, (set_field ts key (JArr l)). split; [reflexivity|]. split; [exact F1|]. split; [exact G1|].
    split; [reflexivity|]. intro k. apply field_set.
  - right. exists (JArr lw). auto.
Qed.
Lemma merge_keys_ok keys : forall ts, NoDup keys -> (forall k, In k keys -> In k (map fst ss)) -> top_ok keys ts ->
  (exists ts', merge_keys name (JObj ss) keys (JObj ts) = Ok (JObj ts') /\
     (forall k, ~ In k keys -> field ts' k = field ts k) /\
     (forall k, In k keys -> match field ts k with
                             | None => field ts' k = None
                             | Some w => exists l, field ts' k = Some (JArr l) /\ Forall2 (attached name (sec k)) (list_of w) l
                                                   /\ ~ gap (sec k) (list_of w)
                             end))
  \/ (merge_keys name (JObj ss) keys (JObj ts) = Exc /\
      exists k w, In k keys /\ field ts k = Some w /\ gap (sec k) (list_of w)).
Proof.
  induction keys as [|key keys IH]; intros ts N I T.
  - left. exists ts. split; [reflexivity|]. split; [auto|intros k []].
  - inversion N as [|? ? N1 N2]; subst. cbn [merge_keys].
    assert (T1 : top_ok [key] ts) by (intros t w [<-|[]]; apply T; left; reflexivity).
    assert (T2 : top_ok keys ts) by (intros t w Ht; apply T; right; exact Ht).
    destruct (merge_key_ok ts key T1) as [[E1 E2]|[[w [l [ts1 [E1 [F1 [G1 [E2 F2]]]]]]]|[w [E1 [G1 E2]]]]]; [apply I; left; reflexivity| | |].
    + rewrite E1. cbn [obind]. destruct (IH ts N2) as [[ts' [A [B C]]]|[A [k [w [B [C D]]]]]];
        [intros; apply I; right; auto|exact T2| |].
      * left. exists ts'. split; [exact A|]. split.
        -- intros k Hk. apply B. intro K. apply Hk. right. exact K.
        -- intros k [<-|Hk]; [|apply C; exact Hk]. rewrite E2. rewrite B by exact N1. exact E2.
      * right. split; [exact A|]. exists k, w. split; [right; exact B|auto].
    + rewrite E2. cbn [obind].
      assert (R : forall k, k <> key -> field ts1 k = field ts k).
      { intros k Hk. rewrite F2. destruct (String.eqb_spec key k); [congruence|reflexivity]. }
      destruct (IH ts1 N2) as [[ts' [A [B C]]]|[A [k [v [B [C D]]]]]]; [intros; apply I; right; auto| | |].
      * intros t v Ht Hv. rewrite R in Hv by (intros ->; contradiction). apply (T2 t v Ht Hv).
      * left. exists ts'. split; [exact A|]. split.
        -- intros k Hk. rewrite B by (intro K; apply Hk; right; exact K). apply R. intros ->. apply Hk. left. reflexivity.
        -- intros k [<-|Hk].
           ++ rewrite E1. exists l. rewrite B by exact N1. rewrite F2, String.eqb_refl. auto.
           ++ specialize (C k Hk). rewrite R in C; [exact C|]. intros ->. contradiction.
      * right. split; [exact A|]. exists k, v. split; [right; exact B|]. split; [|exact D]. rewrite <- C. symmetry. apply R.
        intros ->. contradiction.
    + right. rewrite E2. split; [reflexivity|]. exists key, w. split; [left; reflexivity|auto].
Qed.
End Merge.

(** ** A class and a whole file *)
Definition sorted_class_good (j : json) (class : string) : Prop :=
  class_good j class /\ forall type, StronglySorted before (map id (of_type j class type)).
Lemma field_nodup ts t w : NoDup (map fst ts) -> In (t, w) ts -> field ts t = Some w.
Proof.
  induction ts as [|[k v] ts IH]; [intros _ []|]. cbn. intros N H. inversion N as [|? ? N1 N2]; subst. destruct H as [H|H].
  - injection H as <- <-. rewrite String.eqb_refl. reflexivity.
  - destruct (String.eqb_spec k t) as [->|M]; [|auto]. exfalso. apply N1. apply (in_map fst) in H. exact H.
Qed.
Lemma merge_keys_null name sc keys : merge_keys name sc keys JNull = Ok JNull.
Proof. induction keys as [|k keys IH]; [reflexivity|]. cbn. exact IH. Qed.

Definition class_attached (name : string) (second t t' : json) (class : string) : Prop :=
  forall type, Forall2 (attached name (of_type second class type)) (of_type t class type) (of_type t' class type)
               /\ ~ gap (of_type second class type) (of_type t class type).
Definition class_gap (second t : json) (class : string) : Prop :=
  exists type, gap (of_type second class type) (of_type t class type).

Lemma merge_class_ok name second t class :
  sorted_class_good second class -> sorted_class_good t class ->
  (exists fs, merge_class name second t class = Ok (JObj fs) /\ class_attached name second t (JObj fs) class /\
              forall k, k <> class -> field fs k = entry_of t k)
  \/ (merge_class name second t class = Exc /\ class_gap second t class).
Proof.
  intros [[ss0 [-> Gs]] Ss] [[ts0 [-> Gt]] St]. unfold merge_class, contains, at_const.
  destruct (field ss0 class) as [sc|] eqn:E.
  2: { left. exists ts0. split; [reflexivity|]. split; [|reflexivity]. intro type.
       unfold of_type at 1 4. unfold types. rewrite E. cbn [field]. split; [apply entry_none_nil|]. intros [a [b [_ [[] _]]]]. }
  destruct (Gs sc eq_refl) as [ss [-> [Ns Hs]]]. cbn [obind items].
  assert (Os : forall k, of_type (JObj ss0) class k = sec ss k).
  { intro k. unfold of_type, types, sec. rewrite E. reflexivity. }
  assert (Gss : forall k w, In (k, w) ss -> exists l, w = JArr l /\ StronglySorted before (map id l) /\
            forall c, In c l -> exists x, has_id c x).
  { intros k w K. destruct (Hs k w K) as [l [-> G]]. exists l. split; [reflexivity|]. split; [|exact G].
    specialize (Ss k). rewrite Os in Ss. unfold sec in Ss. rewrite (field_nodup ss k _ Ns K) in Ss. exact Ss. }
  destruct ss as [|s0 ss1] eqn:Ess.
  { left. exists ts0. split; [reflexivity|]. split; [|reflexivity]. intro type. rewrite Os. unfold sec. cbn [field].
    split; [apply entry_none_nil|]. intros [a [b [_ [[] _]]]]. }
  rewrite <- Ess in *. unfold at_mut. destruct (field ts0 class) as [tc|] eqn:Et.
  - destruct (Gt tc eq_refl) as [ts [-> [Nt Ht]]]. cbn [obind fst snd].
    assert (Ot : forall k, of_type (JObj ts0) class k = match field ts k with Some v => list_of v | None => [] end).
    { intro k. unfold of_type, types. rewrite Et. reflexivity. }
    destruct (merge_keys_ok name ss Gss (map fst ss) ts) as [[ts' [A [B C]]]|[A [k [w [B [C D]]]]]].
    + exact Ns.
    + auto.
    + intros k w _ K. destruct (Ht k w (field_in _ _ _ K)) as [l [-> G]]. exists l. split; [reflexivity|]. split; [|exact G].
      specialize (St k). rewrite Ot, K in St. exact St.
    + left. rewrite A. cbn [obind assign]. exists (set_field ts0 class (JObj ts')). split; [reflexivity|]. split.
      * intro type.
        assert (O' : of_type (JObj (set_field ts0 class (JObj ts'))) class type =
                     match field ts' type with Some v => list_of v | None => [] end).
        { unfold of_type, types. rewrite field_set, String.eqb_refl. reflexivity. }
        rewrite O', Ot, Os. destruct (in_dec string_dec type (map fst ss)) as [I|I].
        -- specialize (C type I). destruct (field ts type) as [w|].
           ++ destruct C as [l [C1 [C2 C3]]]. rewrite C1. auto.
           ++ rewrite C. split; [constructor|]. intros [a [b [[] _]]].
        -- rewrite (B type I). unfold sec. destruct (field ss type) as [v|] eqn:F.
           ++ exfalso. apply I. apply field_in in F. apply (in_map fst) in F. exact F.
           ++ split; [apply entry_none_nil|]. intros [a [b [_ [[] _]]]].
      * intros k Hk. rewrite field_set. destruct (String.eqb_spec class k); [congruence|reflexivity].
    + right. rewrite A. split; [reflexivity|]. exists k. rewrite Os, Ot, C. exact D.
  - cbn [obind fst snd]. rewrite merge_keys_null. cbn [obind assign]. left. eexists. split; [reflexivity|]. split.
    + intro type.
      assert (O1 : of_type (JObj ts0) class type = []) by (unfold of_type, types; rewrite Et; reflexivity).
      assert (O2 : forall gs, of_type (JObj (set_field gs class JNull)) class type = [])
        by (intro gs; unfold of_type, types; rewrite field_set, String.eqb_refl; reflexivity).
      rewrite O1, O2. split; [constructor|]. intros [a [b [[] _]]].
    + intros k Hk. rewrite !field_set. destruct (String.eqb_spec class k); [congruence|reflexivity].
Qed.

Lemma of_type_entry j j' class type : entry_of j class = entry_of j' class -> of_type j class type = of_type j' class type.
Proof. intro H. unfold of_type. rewrite !types_entry, H. reflexivity. Qed.
Lemma insert_ok name second t :
  good_file second -> good_file t -> sorted_file second -> sorted_file t ->
  (exists fs, insert_second_json_in_topology_json t second name = Ok (JObj fs) /\
     (forall class, is_class class = true -> class_attached name second t (JObj fs) class) /\
     forall k, is_class k = false -> field fs k = entry_of t k)
  \/ (insert_second_json_in_topology_json t second name = Exc /\ exists class, is_class class = true /\ class_gap second t class).
Proof.
  intros Gs Gt Ss St.
  assert (X : forall j class, good_file j -> sorted_file j -> is_class class = true -> sorted_class_good j class).
  { intros j class G S C. split; [apply file_class; auto|]. intro type. apply S. apply is_class_in. exact C. }
  unfold insert_second_json_in_topology_json.
  destruct (merge_class_ok name second t "nodes") as [[f1 [E1 [A1 B1]]]|[E1 G1]]; [apply X; auto|apply X; auto| |].
  2: { right. rewrite E1. split; [reflexivity|]. exists "nodes". auto. }
  rewrite E1. cbn [obind].
  assert (Y : forall type, of_type (JObj f1) "connections" type = of_type t "connections" type).
  { intro type. apply of_type_entry. cbn. apply B1. discriminate. }
  destruct (merge_class_ok name second (JObj f1) "connections") as [[f2 [E2 [A2 B2]]]|[E2 G2]].
  - apply X; auto.
  - destruct (X t "connections" Gt St eq_refl) as [[fs [-> U]] V]. split.
    + exists f1. split; [reflexivity|]. intros v Hv. rewrite B1 in Hv by discriminate. apply U. exact Hv.
    + intro type. rewrite Y. apply V.
  - left. exists f2. split; [exact E2|]. split.
    + intros class C. apply is_class_in in C. destruct C as [<-|[<-|[]]]; intro type.
      * rewrite (of_type_entry (JObj f2) (JObj f1)) by (cbn; apply B2; discriminate). apply A1.
      * rewrite <- Y. apply A2.
    + intros k C. unfold is_class in C. apply orb_false_iff in C. destruct C as [C1 C2].
      apply String.eqb_neq in C1, C2. rewrite B2 by congruence. cbn. apply B1. congruence.
  - right. split; [exact E2|]. exists "connections". split; [reflexivity|]. destruct G2 as [type G2]. exists type.
    rewrite <- Y. exact G2.
Qed.

(** The entry of a component does not depend on the order of different ids. *)
Lemma entry_perm a b c : Permutation a b -> NoDup (map id a) -> entry_for a c = entry_for b c.
Proof.
  intros P N. unfold entry_for.
  assert (U : forall l s, NoDup (map id l) -> In s l -> id s = id c -> find (fun s => String.eqb (id s) (id c)) l = Some s).
  { induction l as [|x l IH]; intros s Nl H Q; [destruct H|]. cbn. destruct H as [H|H].
    - subst. rewrite Q, String.eqb_refl. reflexivity.
    - destruct (String.eqb_spec (id x) (id c)) as [Z|Z].
      + inversion Nl; subst. exfalso. apply H2. rewrite Z, <- Q. apply in_map. exact H.
      + apply IH; auto. inversion Nl; auto. }
  destruct (find (fun s => String.eqb (id s) (id c)) a) as [s|] eqn:E.
  - apply find_some in E. destruct E as [I Q]. apply String.eqb_eq in Q. symmetry. apply U; auto.
    + eapply Permutation_NoDup; [apply Permutation_map; exact P|exact N].
    + eapply Permutation_in; [exact P|exact I].
  - symmetry. apply find_none_iff_aux. intros x Hx. apply (find_none _ _ E). eapply Permutation_in; [symmetry; exact P|exact Hx].
Qed.
Lemma sort_file_full j : good_file j -> NoDup (all_ids j) ->
  exists j', sort_json_vectors_by_id j = Ok j' /\ good_file j' /\ sorted_file j' /\
    (forall class type, In class ["nodes"; "connections"] -> Permutation (of_type j' class type) (of_type j class type)) /\
    (forall k, ~ In k ["nodes"; "connections"] -> entry_of j' k = entry_of j k).
Proof.
  intros G N. destruct (sort_file_ok j G N) as [fs [E F]]. exists (JObj fs). split; [exact E|].
  split; [eapply sorted_file_good; eauto|]. split; [|split].
  - intros class type C. apply is_class_in in C. rewrite (of_type_sorted fs j class type G C F). apply sorted_list_sorted.
    apply of_type_nodup; auto.
  - intros class type C. apply is_class_in in C. rewrite (of_type_sorted fs j class type G C F). apply sorted_list_perm.
  - intros k C. cbn. rewrite F. destruct (is_class k) eqn:K; [|reflexivity]. apply is_class_in in K. contradiction.
Qed.
Lemma duplicates j : good_file j ->
  check_for_duplicates j <> UB /\ (check_for_duplicates j = Exc <-> ~ NoDup (all_ids j)).
Proof.
  intro G. unfold check_for_duplicates. rewrite (sorted_ids_ok j G). cbn [obind].
  pose proof (adjacent_dup _ (sort_sorted (all_ids j))) as A.
  assert (P : NoDup (sort_strings (all_ids j)) <-> NoDup (all_ids j)) by (rewrite sort_perm; reflexivity).
  destruct (adjacent_equal (sort_strings (all_ids j))).
  - split; [discriminate|]. split; [|reflexivity]. intros _ K. apply (proj1 A eq_refl). apply P. exact K.
  - split; [discriminate|]. split; [discriminate|]. intro K. exfalso.
    assert (false = true) by (apply A; intro Q; apply K; apply P; exact Q). discriminate.
Qed.
Lemma sort_dup j : good_file j -> ~ NoDup (all_ids j) -> sort_json_vectors_by_id j = Exc.
Proof.
  intros G N. unfold sort_json_vectors_by_id. destruct (duplicates j G) as [_ D]. rewrite (proj2 D N). reflexivity.
Qed.
Lemma Forall2_impl_aux {A B} (P Q : A -> B -> Prop) a b : (forall x y, P x y -> Q x y) -> Forall2 P a b -> Forall2 Q a b.
Proof. intros H F. induction F; constructor; auto. Qed.
