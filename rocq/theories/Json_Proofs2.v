From Coq Require Import List Arith Lia Bool String Sorted Permutation.
From Verif Require Import Base Json_Model Json_Spec Json_Proofs.
Import ListNotations.
Local Open Scope string_scope.
Local Open Scope list_scope.

(** ** Sorting components *)
Lemma insert_id_perm x l : Permutation (insert_by_id x l) (x :: l).
Proof.
  induction l as [|y l IH]; cbn; auto. destruct (String.ltb (fst y) (fst x)); auto. rewrite IH. apply perm_swap.
Qed.
Lemma sort_id_perm l : Permutation (sort_by_id l) l.
Proof. induction l as [|x l IH]; cbn; auto. rewrite insert_id_perm. constructor. exact IH. Qed.
Definition fbefore (a b : string * json) : Prop := before (fst a) (fst b).
Lemma insert_id_sorted x l : ~ In (fst x) (map fst l) -> StronglySorted fbefore l -> StronglySorted fbefore (insert_by_id x l).
Proof.
  intros N H. revert N. induction H as [|y l H IH F]; intro N; cbn; [repeat constructor|].
  destruct (String.ltb (fst y) (fst x)) eqn:E.
  - apply ltb_true in E. constructor; [apply IH; intro K; apply N; right; exact K|].
    rewrite insert_id_perm. constructor; [exact E|exact F].
  - apply ltb_false in E. destruct E as [E|E]; [exfalso; apply N; left; symmetry; exact E|].
    constructor; [constructor; auto|]. constructor; [exact E|]. eapply Forall_impl; [|exact F].
    intros a Ha. unfold fbefore in *. eapply before_trans; eauto.
Qed.
Lemma sort_id_sorted l : NoDup (map fst l) -> StronglySorted fbefore (sort_by_id l).
Proof.
  induction l as [|x l IH]; intro N; cbn; [constructor|]. inversion N; subst. apply insert_id_sorted; [|auto].
  intro K. apply H1. eapply Permutation_in; [|exact K]. apply Permutation_map. apply sort_id_perm.
Qed.
Definition sorted_list (l : list json) : list json := map snd (sort_by_id (map (fun c => (id c, c)) l)).
Lemma sorted_list_perm l : Permutation (sorted_list l) l.
Proof.
  unfold sorted_list. rewrite sort_id_perm, map_map. cbn. rewrite map_id. reflexivity.
Qed.
Lemma sorted_list_sorted l : NoDup (map id l) -> StronglySorted before (map id (sorted_list l)).
Proof.
  intro N. unfold sorted_list. set (p := map (fun c => (id c, c)) l).
  assert (S : StronglySorted fbefore (sort_by_id p)).
  { apply sort_id_sorted. unfold p. rewrite map_map. exact N. }
  assert (K : forall q, In q (sort_by_id p) -> id (snd q) = fst q).
  { intros q Hq. apply (Permutation_in _ (sort_id_perm p)) in Hq. unfold p in Hq. apply in_map_iff in Hq.
    destruct Hq as [c [<- _]]. reflexivity. }
  induction S as [|x q S IH F]; cbn; [constructor|]. constructor.
  - apply IH. intros r Hr. apply K. right. exact Hr.
  - rewrite map_map. apply Forall_forall. intros y Hy. apply in_map_iff in Hy. destruct Hy as [r [<- Hr]].
    rewrite (K x) by (left; reflexivity). rewrite (K r) by (right; exact Hr).
    rewrite Forall_forall in F. exact (F r Hr).
Qed.

Definition sorted_value (v : json) : json :=
  match v with
  | JObj ts => JObj (map (fun tv => (fst tv, JArr (sorted_list (list_of (snd tv))))) ts)
  | _ => v
  end.
Lemma sort_components_ok l : (forall c, In c l -> exists x, has_id c x) -> sort_components (JArr l) = Ok (JArr (sorted_list l)).
Proof.
  intro H. unfold sort_components. rewrite omapM_ids.
  - cbn. unfold sorted_list. do 4 f_equal. clear. induction l as [|c l IH]; [reflexivity|]. cbn. rewrite IH. reflexivity.
  - intros c Hc. destruct (H c Hc) as [x Hx]. rewrite (has_id_id c x Hx). apply has_id_of. exact Hx.
Qed.
Lemma with_values_map ts (g : json -> json) :
  with_values ts (map (fun tv => g (snd tv)) ts) = map (fun tv : string * json => (fst tv, g (snd tv))) ts.
Proof. induction ts as [|[k v] ts IH]; [reflexivity|]. cbn. rewrite IH. reflexivity. Qed.
Lemma sort_class_ok v : good_class v -> sort_class v = Ok (sorted_value v).
Proof.
  intros [ts [-> [N H]]]. unfold sort_class, sorted_value.
  assert (K : omapM sort_components (map snd ts) = Ok (map (fun tv => JArr (sorted_list (list_of (snd tv)))) ts)).
  { clear N. induction ts as [|[k w] ts IH]; [reflexivity|]. cbn [map omapM snd].
    destruct (H k w) as [l [-> G]]; [left; reflexivity|]. rewrite sort_components_ok by exact G. cbn [obind list_of].
    rewrite IH; [reflexivity|]. intros t w' K. apply (H t). right. exact K. }
  rewrite K. cbn [omap]. f_equal. f_equal. apply (with_values_map ts (fun v => JArr (sorted_list (list_of v)))).
Qed.
Lemma sorted_good v : good_class v -> good_class (sorted_value v).
Proof.
  intros [ts [-> [N H]]]. eexists. split; [reflexivity|]. split.
  - rewrite map_map. exact N.
  - intros t w K. apply in_map_iff in K. destruct K as [[t' w'] [E K]]. cbn in E. injection E as <- <-.
    destruct (H _ _ K) as [l [-> G]]. eexists. split; [reflexivity|]. intros c Hc. apply G.
    eapply Permutation_in; [apply sorted_list_perm|exact Hc].
Qed.
Lemma sort_in_ok j class : class_good j class ->
  exists fs, sort_in j class = Ok (JObj fs) /\
  forall k, field fs k = if String.eqb class k then option_map sorted_value (entry_of j k) else entry_of j k.
Proof.
  intros [fs [-> G]]. unfold sort_in, contains, at_const. destruct (field fs class) as [v|] eqn:E.
  - cbn [obind]. rewrite sort_class_ok by (apply G; reflexivity). cbn [obind assign]. eexists. split; [reflexivity|].
    intro k. rewrite field_set. cbn [entry_of]. destruct (String.eqb_spec class k) as [<-|N]; [rewrite E|]; reflexivity.
  - exists fs. split; [reflexivity|]. intro k. cbn. destruct (String.eqb_spec class k) as [<-|N]; [rewrite E|]; reflexivity.
Qed.
Definition is_class (k : string) : bool := String.eqb "nodes" k || String.eqb "connections" k.
Lemma sort_file_ok j : good_file j -> NoDup (all_ids j) ->
  exists fs, sort_json_vectors_by_id j = Ok (JObj fs) /\
  forall k, field fs k = if is_class k then option_map sorted_value (entry_of j k) else entry_of j k.
Proof.
  intros G N. unfold sort_json_vectors_by_id, check_for_duplicates. rewrite (sorted_ids_ok j G). cbn [obind].
  destruct (adjacent_equal (sort_strings (all_ids j))) eqn:E.
  { exfalso. apply (adjacent_dup _ (sort_sorted _)) in E. apply E. rewrite sort_perm. exact N. }
  cbn [obind]. destruct (sort_in_ok j "nodes" (good_nodes j G)) as [f1 [E1 F1]]. rewrite E1. cbn [obind].
  destruct (sort_in_ok (JObj f1) "connections") as [f2 [E2 F2]].
  { exists f1. split; [reflexivity|]. intros v Hv. rewrite F1 in Hv. cbn in Hv.
    destruct G as [fs [-> [_ B]]]. apply B. exact Hv. }
  exists f2. split; [exact E2|]. intro k. rewrite F2. cbn [entry_of]. rewrite F1. unfold is_class.
  destruct (String.eqb_spec "nodes" k) as [<-|M]; [reflexivity|].
  destruct (String.eqb_spec "connections" k) as [<-|M']; reflexivity.
Qed.

Lemma types_entry j class : types j class = match entry_of j class with Some (JObj ts) => ts | _ => [] end.
Proof. destruct j; reflexivity. Qed.
Lemma field_map ts (g : json -> json) k :
  field (map (fun tv : string * json => (fst tv, g (snd tv))) ts) k = option_map g (field ts k).
Proof. induction ts as [|[k' v] ts IH]; [reflexivity|]. cbn. destruct (String.eqb k' k); [reflexivity|exact IH]. Qed.
Lemma types_sorted fs j class : good_file j -> is_class class = true ->
  (forall k, field fs k = if is_class k then option_map sorted_value (entry_of j k) else entry_of j k) ->
  types (JObj fs) class = map (fun tv => (fst tv, JArr (sorted_list (list_of (snd tv))))) (types j class).
Proof.
  intros G C F. rewrite !types_entry. cbn [entry_of]. rewrite F, C. destruct (entry_of j class) as [[]|]; reflexivity.
Qed.
Lemma of_type_sorted fs j class type : good_file j -> is_class class = true ->
  (forall k, field fs k = if is_class k then option_map sorted_value (entry_of j k) else entry_of j k) ->
  of_type (JObj fs) class type = sorted_list (of_type j class type).
Proof.
  intros G C F. unfold of_type. rewrite (types_sorted fs j class G C F).
  rewrite (field_map _ (fun v => JArr (sorted_list (list_of v)))). destruct (field (types j class) type); reflexivity.
Qed.
Lemma is_class_in class : is_class class = true <-> In class ["nodes"; "connections"].
Proof.
  unfold is_class. rewrite orb_true_iff, !String.eqb_eq. cbn. split.
  - intros [H|H]; auto.
  - intros [H|[H|H]]; auto. contradiction.
Qed.
Lemma file_class j class : good_file j -> is_class class = true -> class_good j class.
Proof.
  intros G C. apply is_class_in in C. destruct C as [<-|[<-|[]]]; [apply good_nodes|apply good_connections]; exact G.
Qed.
Lemma field_in ts k v : field ts k = Some v -> In (k, v) ts.
Proof.
  induction ts as [|[k' v'] ts IH]; [discriminate|]. cbn. destruct (String.eqb_spec k' k) as [->|N].
  - intro H. injection H as <-. left. reflexivity.
  - intro H. right. auto.
Qed.
Lemma NoDup_app_l {A} (a b : list A) : NoDup (a ++ b) -> NoDup a.
Proof. induction a as [|x a IH]; intro H; [constructor|]. inversion H; subst. constructor; [|auto]. intro K. apply H2. apply in_or_app. auto. Qed.
Lemma NoDup_app_r {A} (a b : list A) : NoDup (a ++ b) -> NoDup b.
Proof. induction a as [|x a IH]; intro H; [exact H|]. inversion H; subst. auto. Qed.
Lemma of_type_nodup j class type : NoDup (all_ids j) -> is_class class = true -> NoDup (map id (of_type j class type)).
Proof.
  intros N C. unfold all_ids, all_components in N. rewrite map_app in N.
  assert (M : NoDup (map id (components j class))).
  { apply is_class_in in C. destruct C as [<-|[<-|[]]]; [eapply NoDup_app_l|eapply NoDup_app_r]; exact N. }
  unfold of_type. destruct (field (types j class) type) as [v|] eqn:E; [|constructor].
  apply field_in, in_split in E. destruct E as [a [b E]]. unfold components in M. rewrite E in M.
  rewrite flat_map_app, map_app in M. apply NoDup_app_r in M. cbn in M. rewrite map_app in M. apply NoDup_app_l in M. exact M.
Qed.
Lemma of_type_ids j class type : good_file j -> is_class class = true -> forall c, In c (of_type j class type) -> exists x, has_id c x.
Proof.
  intros G C c H. apply (class_components j class (file_class j class G C)). unfold of_type in H.
  destruct (field (types j class) type) as [v|] eqn:E; [|destruct H]. apply in_flat_map. exists (type, v).
  split; [apply field_in; exact E|exact H].
Qed.
Lemma sorted_file_good fs j : good_file j ->
  (forall k, field fs k = if is_class k then option_map sorted_value (entry_of j k) else entry_of j k) -> good_file (JObj fs).
Proof.
  intros [gs [-> [A B]]] F. exists fs. split; [reflexivity|]. split; intros v H; rewrite F in H; cbn in H.
  - destruct (field gs "nodes") as [w|] eqn:E; [|discriminate]. injection H as <-. apply sorted_good. apply A. reflexivity.
  - destruct (field gs "connections") as [w|] eqn:E; [|discriminate]. injection H as <-. apply sorted_good. apply B. reflexivity.
Qed.

(** ** Merging *)
Definition attached (name : string) (second : list json) (c c' : json) : Prop :=
  match entry_for second c with Some s => extended c name s c' | None => c' = c end.
Lemma entry_skip s second c : id s <> id c -> entry_for (s :: second) c = entry_for second c.
Proof. intro N. unfold entry_for. cbn. destruct (String.eqb_spec (id s) (id c)); [contradiction|reflexivity]. Qed.
Lemma entry_hit s second c : id s = id c -> entry_for (s :: second) c = Some s.
Proof. intro E. unfold entry_for. cbn. rewrite E, String.eqb_refl. reflexivity. Qed.
Lemma before_ne a b : before a b -> a <> b.
Proof. intros H ->. exact (before_irrefl _ H). Qed.
Lemma Forall2_attached name s second top l :
  (forall t, In t top -> id s <> id t) -> Forall2 (attached name second) top l -> Forall2 (attached name (s :: second)) top l.
Proof.
  intros H F. induction F as [|t c top l A F IH]; constructor.
  - unfold attached. rewrite entry_skip by (apply H; left; reflexivity). exact A.
  - apply IH. intros t' K. apply H. right. exact K.
Qed.
Lemma entry_none_nil top name : Forall2 (attached name []) top top.
Proof. induction top; constructor; [reflexivity|exact IHtop]. Qed.
Lemma id_less_ok a b x y : has_id a x -> has_id b y -> id_less a b = Ok (String.ltb (id a) (id b)).
Proof.
  intros A B. unfold id_less. rewrite (has_id_of a x A), (has_id_of b y B), (has_id_id a x A), (has_id_id b y B). reflexivity.
Qed.
Lemma extended_assign c x name v : has_id c x -> exists c', assign c name v = Ok c' /\ extended c name v c'.
Proof.
  intros [fs [-> E]]. eexists. split; [reflexivity|]. split; cbn; intros; rewrite field_set.
  - rewrite String.eqb_refl. reflexivity.
  - destruct (String.eqb_spec name k); [congruence|reflexivity].
Qed.
Lemma find_none_iff_aux {A} (f : A -> bool) l : (forall x, In x l -> f x = false) -> find f l = None.
Proof.
  induction l as [|x l IH]; intro H; [reflexivity|]. cbn. rewrite (H x) by (left; reflexivity).
  apply IH. intros; apply H; right; auto.
Qed.
Definition gap (second top : list json) : Prop :=
  exists t s, In t top /\ In s second /\ entry_for second t = None /\ before (id t) (id s).
Lemma sorted_before x l : StronglySorted before (map id (x :: l)) -> forall y, In y l -> before (id x) (id y).
Proof.
  cbn. intro H. inversion H as [|? ? _ F]; subst. intros y Hy. rewrite Forall_forall in F. apply F. apply in_map. exact Hy.
Qed.
Lemma merge_spec name second : forall top,
  StronglySorted before (map id second) -> StronglySorted before (map id top) ->
  (forall c, In c second -> exists x, has_id c x) -> (forall c, In c top -> exists x, has_id c x) ->
  (exists l, merge name second top = Ok l /\ Forall2 (attached name second) top l /\ ~ gap second top)
  \/ (merge name second top = Exc /\ gap second top).
Proof.
  induction second as [|s second IHs]; intros top Ss St Hs Ht.
  - left. exists top. split; [reflexivity|]. split; [apply entry_none_nil|]. intros [t [s [_ [[] _]]]].
  - destruct top as [|t top].
    + left. exists []. split; [reflexivity|]. split; [constructor|]. intros [t [s' [[] _]]].
    + destruct (Hs s) as [x Hx]; [left; reflexivity|]. destruct (Ht t) as [y Hy]; [left; reflexivity|].
      cbn [merge]. rewrite (id_less_ok s t x y Hx Hy), (id_less_ok t s y x Hy Hx). cbn [obind].
      pose proof (sorted_before s second Ss) as Bs. pose proof (sorted_before t top St) as Bt.
      assert (Ss' : StronglySorted before (map id second)) by (cbn in Ss; inversion Ss; auto).
      assert (St' : StronglySorted before (map id top)) by (cbn in St; inversion St; auto).
      destruct (String.ltb (id s) (id t)) eqn:E.
      * apply ltb_true in E.
        assert (L : forall t', In t' (t :: top) -> before (id s) (id t')).
        { intros t' [<-|K]; [exact E|]. eapply before_trans; [exact E|auto]. }
        destruct (IHs (t :: top) Ss' St) as [[l [E1 [F1 G1]]]|[E1 G1]].
        { intros c Hc. apply Hs. right. exact Hc. } { exact Ht. }
        -- left. exists l. split; [exact E1|]. split.
           ++ apply Forall2_attached; [|exact F1]. intros t' K. apply before_ne. auto.
           ++ intros [t' [s' [K1 [K2 [K3 K4]]]]]. apply G1. exists t', s'. rewrite entry_skip in K3 by (apply before_ne; auto).
              split; [exact K1|]. split; [|auto]. destruct K2 as [<-|K2]; [|exact K2].
              exfalso. eapply before_irrefl. eapply before_trans; [exact K4|auto].
        -- right. split; [exact E1|]. destruct G1 as [t' [s' [K1 [K2 [K3 K4]]]]]. exists t', s'.
           rewrite entry_skip by (apply before_ne; auto). split; [auto|]. split; [right; auto|auto].
      * destruct (String.ltb (id t) (id s)) eqn:E'.
        -- apply ltb_true in E'. right. split; [reflexivity|]. exists t, s. split; [left; reflexivity|].
           split; [left; reflexivity|]. split; [|exact E'].
           unfold entry_for. apply find_none_iff_aux.
           intros s' [<-|K]; apply String.eqb_neq; intro Q; apply (before_ne _ _ E'); [congruence|].
           exfalso. eapply before_irrefl. rewrite <- Q in E'. eapply before_trans; [exact E'|]. apply Bs. exact K.
        -- assert (Q : id s = id t).
           { apply ltb_false in E, E'. destruct E as [E|E]; [congruence|]. destruct E' as [E'|E']; [congruence|].
             exfalso. eapply before_irrefl. eapply before_trans; eauto. }
           destruct (extended_assign t y name s Hy) as [t' [A1 A2]]. rewrite A1. cbn [obind].
           assert (L : forall t', In t' top -> before (id s) (id t')) by (intros; rewrite Q; auto).
           destruct (IHs top Ss' St') as [[l [E1 [F1 G1]]]|[E1 G1]].
           { intros c Hc. apply Hs. right. exact Hc. } { intros c Hc. apply Ht. right. exact Hc. }
           ++ left. exists (t' :: l). rewrite E1. split; [reflexivity|]. split.
              ** constructor; [unfold attached; rewrite entry_hit by exact Q; exact A2|].
                 apply Forall2_attached; [|exact F1]. intros t2 K. apply before_ne. auto.
              ** intros [t2 [s' [K1 [K2 [K3 K4]]]]]. destruct K1 as [<-|K1]; [rewrite entry_hit in K3 by exact Q; discriminate|].
                 apply G1. exists t2, s'. rewrite entry_skip in K3 by (apply before_ne; auto). split; [exact K1|].
                 split; [|auto]. destruct K2 as [<-|K2]; [|exact K2].
                 exfalso. eapply before_irrefl. eapply before_trans; [exact K4|auto].
           ++ right. rewrite E1. split; [reflexivity|]. destruct G1 as [t2 [s' [K1 [K2 [K3 K4]]]]]. exists t2, s'.
              rewrite entry_skip by (apply before_ne; auto). split; [right; auto|]. split; [right; auto|auto].
Qed.
