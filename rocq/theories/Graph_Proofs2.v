From Coq Require Import List Arith Lia Bool String Sorted Permutation.
From Verif Require Import Base Json_Model Json_Spec Json_Proofs Json_Proofs2 Json_Proofs3 Defaults_Model Defaults_Spec
  Defaults_Proofs Defaults_Props Graph_Model Graph_Spec Graph_Proofs.
Import ListNotations.
Local Open Scope string_scope.
Local Open Scope list_scope.

(** ** Preparing the data *)
Lemma text_object c k x : text c k x -> object c.
Proof. unfold text, entry_of. destruct c; try discriminate. intros _. eexists. reflexivity. Qed.
Lemma defaults_text s ps c d k x : sub s = Some ps -> good_props ps -> apply_defaults c s = Ok d -> text c k x -> text d k x.
Proof.
  intros S G A T. destruct (C41_kept s ps c d S G (text_object c k x T) A [k] (JStr x)) as [v [V [W _]]].
  - cbn. unfold text in T. rewrite T. reflexivity.
  - cbn in V. unfold text. destruct (entry_of d k) as [w|]; [|discriminate]. injection V as ->. f_equal. apply W.
    intros [fs E]. discriminate.
Qed.
Definition rejected (accepts : json -> json -> bool) (s c : json) : Prop :=
  apply_defaults c s = Exc \/ exists d, apply_defaults c s = Ok d /\ accepts s d = false.
Lemma prepared_cases accepts s ps c : sub s = Some ps -> good_props ps -> object c ->
  (exists d, prepared accepts s c = Ok d /\ ~ rejected accepts s c /\ forall k x, text c k x -> text d k x)
  \/ (prepared accepts s c = Exc /\ rejected accepts s c).
Proof.
  intros S G O. unfold prepared, rejected. destruct O as [ds ->].
  assert (U : apply_defaults (JObj ds) s <> UB).
  { rewrite apply_sub, S. destruct (apply_main (depth ps) ps G (le_n _) ds) as [[ds' [E _]]|[E _]]; rewrite E; discriminate. }
  destruct (apply_defaults (JObj ds) s) as [d| |] eqn:A; [|right; split; [reflexivity|left; reflexivity]|contradiction].
  cbn [obind]. destruct (accepts s d) eqn:C.
  - left. exists d. split; [reflexivity|]. split.
    + intros [K|[d' [K1 K2]]]; [discriminate|]. injection K1 as <-. congruence.
    + intros k x T. eapply defaults_text; eauto.
  - right. split; [reflexivity|]. right. exists d. auto.
Qed.

(** ** Making the nodes *)
Definition todo_ok (todo : list (string * json * json)) : Prop :=
  forall t s c, In (t, s, c) todo -> (exists ps, sub s = Some ps /\ good_props ps) /\ exists x, text c "id" x.
Lemma id_text c x : text c "id" x -> id c = x.
Proof. intro T. apply has_id_id. apply text_id. exact T. Qed.
Definition fresh_node (e : string * json * json) : node := mkNode (fst (fst e)) (id (snd e)) [] [].
Lemma make_nodes_spec accepts todo : todo_ok todo -> forall a h,
  (exists h' , make_nodes accepts todo a h = Ok (h', seq a (List.length todo)) /\
     (forall t s c, In (t, s, c) todo -> ~ rejected accepts s c) /\
     map (nodes_at h') (seq a (List.length todo)) = map fresh_node todo /\
     edges_at h' = edges_at h /\ forall b, (b < a)%nat -> nodes_at h' b = nodes_at h b)
  \/ (make_nodes accepts todo a h = Exc /\ exists t s c, In (t, s, c) todo /\ rejected accepts s c).
Proof.
  induction todo as [|[[t s] c] todo IH]; intros T a h.
  - left. exists h. cbn. split; [reflexivity|]. split; [intros ? ? ? []|]. auto.
  - destruct (T t s c) as [[ps [Hs G]] [x X]]; [left; reflexivity|]. cbn [make_nodes].
    destruct (prepared_cases accepts s ps c Hs G (text_object _ _ _ X)) as [[d [E [R K]]]|[E R]]; rewrite E; cbn [obind].
    2: { right. split; [reflexivity|]. exists t, s, c. split; [left; reflexivity|exact R]. }
    unfold node_constructor. rewrite (text_id_of d x (K "id" x X)). cbn [omap obind].
    set (h1 := mkHeap (upd (nodes_at h) a (mkNode t x [] [])) (edges_at h)) in *.
    destruct (IH (fun t' s' c' I => T t' s' c' (or_intror I)) (S a) h1) as [[h' [E1 [R1 [M [Q P]]]]]|[E1 [t' [s' [c' [I1 R1]]]]]]; fold h1; rewrite E1.
    + left. exists h'. split; [reflexivity|]. split; [intros t' s' c' [I|I]; [injection I as <- <- <-; exact R|eapply R1; exact I]|].
      split; [|split; [exact Q|]].
      * cbn [List.length seq map]. f_equal; [|exact M]. rewrite P by lia. unfold h1, upd. cbn [nodes_at]. rewrite Nat.eqb_refl.
        unfold fresh_node. cbn [fst snd]. rewrite (id_text c x X). reflexivity.
      * intros b B. rewrite P by lia. unfold h1, upd. cbn [nodes_at]. destruct (Nat.eqb_spec b a); [lia|reflexivity].
    + right. split; [reflexivity|]. exists t', s', c'. split; [right; exact I1|exact R1].
Qed.

(** ** Making the edges *)
Definition edge_todo_ok (todo : list (string * json * json)) : Prop :=
  todo_ok todo /\ forall t s c, In (t, s, c) todo -> has_ends c.
(** A connection that cannot be made between nodes with these ids. *)
Definition bad_ends (ids : list string) (c : json) : Prop :=
  exists x y, text c "from" x /\ text c "to" y /\ (~ In x ids \/ ~ In y ids \/ x = y).
Definition names (h : heap) (nodes : list nat) : list string := map (fun a => n_id (nodes_at h a)) nodes.
Lemma names_same h h' nodes : same_names h h' -> names h' nodes = names h nodes.
Proof. intro S. apply map_ext. intro a. apply S. Qed.
Definition says (h : heap) (e : nat) : string * (string * string * string) :=
  (e_type (edges_at h e), (e_id (edges_at h e), n_id (nodes_at h (e_start (edges_at h e))), n_id (nodes_at h (e_end (edges_at h e))))).
Definition claims (t : string * json * json) : string * (string * string * string) := (fst (fst t), ends (snd t)).
Lemma make_edges_spec accepts nodes todo : edge_todo_ok todo -> forall e h live,
  attachments h nodes live -> inside h nodes live -> NoDup live -> (forall f, In f live -> (f < e)%nat) ->
  (exists h', make_edges accepts nodes todo e h = Ok (h', seq e (List.length todo)) /\
     (forall t s c, In (t, s, c) todo -> ~ rejected accepts s c /\ ~ bad_ends (names h nodes) c) /\
     attachments h' nodes (live ++ seq e (List.length todo)) /\ inside h' nodes (live ++ seq e (List.length todo)) /\
     same_names h h' /\ (forall f, (f < e)%nat -> edges_at h' f = edges_at h f) /\
     map (says h') (seq e (List.length todo)) = map claims todo)
  \/ (make_edges accepts nodes todo e h = Exc /\
      exists t s c, In (t, s, c) todo /\ (rejected accepts s c \/ bad_ends (names h nodes) c)).
Proof.
  induction todo as [|[[t s] c] todo IH]; intros T e h live A I N L.
  - left. exists h. cbn. rewrite app_nil_r. split; [reflexivity|]. split; [intros ? ? ? []|].
    split; [exact A|]. split; [exact I|]. split; [intro a; split; reflexivity|]. split; reflexivity.
  - destruct (proj1 T t s c) as [[ps [Hs G]] [x X]]; [left; reflexivity|].
    destruct (proj2 T t s c) as [f [g [F0 G0]]]; [left; reflexivity|]. cbn [make_edges].
    destruct (prepared_cases accepts s ps c Hs G (text_object _ _ _ X)) as [[d [E [R K]]]|[E R]]; rewrite E; cbn [obind].
    2: { right. split; [reflexivity|]. exists t, s, c. split; [left; reflexivity|left; exact R]. }
    destruct (edge_constructor_spec h nodes e t d x f g (K _ _ X) (K _ _ F0) (K _ _ G0))
      as [[a [b [h1 [Na [Nb [Ab [Fg [Ec Ad]]]]]]]]|[Ec Bad]]; rewrite Ec; cbn [obind].
    2: { right. split; [reflexivity|]. exists t, s, c. split; [left; reflexivity|]. right. exists f, g.
         split; [exact F0|]. split; [exact G0|]. unfold names. rewrite <- !(named_exists h nodes). tauto. }
    assert (Fe : ~ In e live) by (intro K1; apply L in K1; lia).
    destruct (named_in _ _ _ _ Na) as [Ia Ea]. destruct (named_in _ _ _ _ Nb) as [Ib Eb].
    destruct (added_attachments h nodes live e (mkEdge t x a b) h1 A I Fe Ia Ib Ab Ad) as [A1 I1].
    assert (Sn : same_names h h1) by (eapply added_names; exact Ad).
    destruct (IH (conj (fun t' s' c' K1 => proj1 T t' s' c' (or_intror K1)) (fun t' s' c' K1 => proj2 T t' s' c' (or_intror K1)))
                 (S e) h1 (live ++ [e]) A1 I1 (NoDup_snoc _ _ N Fe))
      as [[h' [E1 [R1 [A2 [I2 [S2 [Q2 M]]]]]]]|[E1 [t' [s' [c' [K1 R1]]]]]].
    { intros f' K1. apply in_app_or in K1. destruct K1 as [K1|[<-|[]]]; [apply L in K1; lia|lia]. }
    + left. exists h'. rewrite E1. cbn [List.length seq]. split; [reflexivity|]. split; [|split; [|split; [|split; [|split]]]].
      * intros t' s' c' [K1|K1].
        -- injection K1 as <- <- <-. split; [exact R|]. intros [x' [y' [B1 [B2 B3]]]]. unfold text in *.
           assert (x' = f) by congruence. assert (y' = g) by congruence. subst x' y'.
           destruct B3 as [B3|[B3|B3]]; [apply B3|apply B3|contradiction]; apply (named_exists h nodes); eauto.
        -- rewrite <- (names_same h h1 nodes Sn). eapply R1. exact K1.
      * rewrite <- app_assoc in A2. exact A2.
      * rewrite <- app_assoc in I2. exact I2.
      * eapply names_trans; eauto.
      * intros f' K1. rewrite Q2 by lia. rewrite (proj1 Ad). destruct (Nat.eqb_spec f' e); [lia|reflexivity].
      * cbn [map]. f_equal; [|exact M]. unfold says. rewrite (Q2 e) by lia. rewrite (proj1 Ad), Nat.eqb_refl. cbn [e_type e_id e_start e_end].
        rewrite !(proj1 (S2 _)), !(proj1 (Sn _)), Ea, Eb. unfold claims, ends. cbn [fst snd]. unfold text in F0, G0.
        rewrite F0, G0, (id_text c x X). reflexivity.
    + right. rewrite E1. split; [reflexivity|]. exists t', s', c'. split; [right; exact K1|].
      rewrite (names_same h h1 nodes Sn) in R1. exact R1.
Qed.

(** ** The entries of a topology *)

(** A class of components: absent, null or an object of arrays of components with ids. *)
Definition arrays (v : json) : Prop :=
  v = JNull \/ exists ts, v = JObj ts /\ forall k w, field ts k = Some w -> exists l, w = JArr l /\ forall c, In c l -> exists x, text c "id" x.
Definition listed (v : json) (k : string) : list json :=
  match v with JObj ts => match field ts k with Some w => list_of w | None => [] end | _ => [] end.
Lemma entries_listed types v : arrays v ->
  entries types v = flat_map (fun ts => map (fun c => (fst ts, snd ts, c)) (listed v (fst ts))) types.
Proof.
  intros A. unfold entries. rewrite !flat_map_concat_map. f_equal. apply map_ext_in. intros [t s] _. cbn [fst snd].
  destruct A as [->|[ts [-> A]]]; [reflexivity|]. cbn [at_const listed]. destruct (field ts t) as [w|] eqn:F; [|reflexivity].
  destruct (A t w F) as [l [-> _]]. reflexivity.
Qed.
Lemma entries_in types v : arrays v -> NoDup (map fst types) ->
  forall t s c, In (t, s, c) (entries types v) <-> field types t = Some s /\ In c (listed v t).
Proof.
  intros A N t s c. rewrite entries_listed by exact A. rewrite in_flat_map. split.
  - intros [[t' s'] [I J]]. cbn [fst snd] in J. apply in_map_iff in J. destruct J as [c' [E J]]. injection E as -> -> ->.
    split; [apply field_nodup; assumption|exact J].
  - intros [F J]. exists (t, s). split; [apply field_in; exact F|]. cbn. apply in_map_iff. exists c. auto.
Qed.
Lemma filter_map_comm {A B} (f : A -> B) (p : B -> bool) l : filter p (map f l) = map f (filter (fun x => p (f x)) l).
Proof. induction l as [|x l IH]; [reflexivity|]. cbn. destruct (p (f x)); cbn; rewrite IH; reflexivity. Qed.
Lemma filter_false {A} (p : A -> bool) l : (forall x, In x l -> p x = false) -> filter p l = [].
Proof.
  induction l as [|x l IH]; [reflexivity|]. intro H. cbn. rewrite (H x) by (left; reflexivity). apply IH. intros; apply H; right; auto.
Qed.
Lemma filter_flat_map {A B} (f : A -> list B) (p : B -> bool) l : filter p (flat_map f l) = flat_map (fun x => filter p (f x)) l.
Proof. induction l as [|x l IH]; [reflexivity|]. cbn. rewrite filter_app, IH. reflexivity. Qed.
Lemma field_none_notin types t : field types t = None <-> ~ In t (map fst types).
Proof.
  induction types as [|[k v] types IH]; [cbn; tauto|]. cbn. destruct (String.eqb_spec k t) as [->|E].
  - split; [discriminate|]. intro K. exfalso. apply K. left. reflexivity.
  - rewrite IH. intuition congruence.
Qed.
Lemma entries_of_type types v t : arrays v -> NoDup (map fst types) ->
  map snd (filter (fun e => String.eqb (fst (fst e)) t) (entries types v)) =
  match field types t with Some _ => listed v t | None => [] end.
Proof.
  intros A N. rewrite entries_listed by exact A. rewrite filter_flat_map.
  assert (Z : forall s, In s types -> filter (fun e : string * json * json => String.eqb (fst (fst e)) t) (map (fun c => (fst s, snd s, c)) (listed v (fst s)))
     = if String.eqb (fst s) t then map (fun c => (fst s, snd s, c)) (listed v (fst s)) else []).
  { intros s _. destruct (String.eqb (fst s) t) eqn:E.
    - apply filter_keep. intros x X. apply in_map_iff in X. destruct X as [c [<- _]]. exact E.
    - apply filter_false. intros x X. apply in_map_iff in X. destruct X as [c [<- _]]. exact E. }
  induction types as [|[k s] types IH]; [reflexivity|]. cbn [flat_map field]. rewrite map_app.
  inversion N as [|? ? N1 N2]; subst. rewrite (IH N2) by (intros; apply Z; right; auto). rewrite Z by (left; reflexivity).
  cbn [fst snd]. destruct (String.eqb_spec k t) as [->|E].
  - rewrite map_map. cbn [snd]. rewrite map_id. apply field_none_notin in N1. rewrite N1. apply app_nil_r.
  - reflexivity.
Qed.

(** Lists collected over keys. *)
Lemma flat_map_keys {A} (f : string -> list A) : forall ks ks', NoDup ks -> NoDup ks' ->
  (forall k, In k ks -> ~ In k ks' -> f k = []) -> (forall k, In k ks' -> ~ In k ks -> f k = []) ->
  Permutation (flat_map f ks) (flat_map f ks').
Proof.
  induction ks as [|k ks IH]; intros ks' N N' H H'.
  - assert (Z : flat_map f ks' = []); [|rewrite Z; constructor]. clear -H'.
    induction ks' as [|k ks' IH]; [reflexivity|]. cbn. rewrite (H' k) by (cbn; tauto). apply IH. intros; apply H'; [right; assumption|assumption].
  - inversion N as [|? ? N1 N2]; subst. destruct (in_dec string_dec k ks') as [I|I].
    + apply in_split in I. destruct I as [p [q ->]].
      eapply Permutation_trans; [|apply Permutation_flat_map; apply Permutation_middle]. cbn. apply Permutation_app_head.
      apply IH; [exact N2|eapply NoDup_remove_1; exact N'| |].
      * intros k' K1 K2. apply H; [right; exact K1|]. intro K3. apply K2. apply in_app_or in K3. apply in_or_app.
        destruct K3 as [K3|[<-|K3]]; [auto|contradiction|auto].
      * intros k' K1 K2. apply H'; [apply in_app_or in K1; apply in_or_app; cbn; tauto|]. intros [<-|K3]; [|contradiction].
        apply NoDup_remove_2 in N'. contradiction.
    + cbn. rewrite (H k) by (cbn; auto). cbn. apply IH; [exact N2|exact N'| |].
      * intros k' K1 K2. apply H; [right; exact K1|exact K2].
      * intros k' K1 K2. apply H'; [exact K1|]. intros [<-|K3]; contradiction.
Qed.
Lemma flat_map_perm {A} (f g : string -> list A) ks : (forall k, Permutation (f k) (g k)) -> Permutation (flat_map f ks) (flat_map g ks).
Proof. intro H. induction ks as [|k ks IH]; [constructor|]. cbn. apply Permutation_app; auto. Qed.
