From Coq Require Import List Arith Lia Bool String Permutation.
From Verif Require Import Base Json_Model Json_Spec Json_Proofs Json_Proofs2 Graph_Model Graph_Spec.
Import ListNotations.
Local Open Scope string_scope.
Local Open Scope list_scope.

(** ** Finding nodes *)
Lemma find_named h nodes x a : find (fun b => String.eqb x (n_id (nodes_at h b))) nodes = Some a <-> node_named h nodes x a.
Proof.
  split.
  - induction nodes as [|b nodes IH]; [discriminate|]. cbn [find]. destruct (String.eqb_spec x (n_id (nodes_at h b))) as [E|E].
    + intro K. injection K as <-. exists [], nodes. split; [reflexivity|]. split; [auto|intros ? []].
    + intro K. destruct (IH K) as [p [q [E1 [E2 E3]]]]. subst nodes. exists (b :: p), q. split; [reflexivity|]. split; [exact E2|].
      intros c [<-|C]; [congruence|apply E3; exact C].
  - intros [p [q [-> [E1 E2]]]]. induction p as [|b p IH]; cbn [app find].
    + rewrite E1, String.eqb_refl. reflexivity.
    + destruct (String.eqb_spec x (n_id (nodes_at h b))) as [E|E].
      * exfalso. apply (E2 b); [left; reflexivity|auto].
      * apply IH. intros c C. apply E2. right. exact C.
Qed.
Lemma find_not_named h nodes x : find (fun b => String.eqb x (n_id (nodes_at h b))) nodes = None <-> ~ exists a, node_named h nodes x a.
Proof.
  destruct (find (fun b => String.eqb x (n_id (nodes_at h b))) nodes) as [a|] eqn:E.
  - split; [discriminate|]. intro K. exfalso. apply K. exists a. apply find_named. exact E.
  - split; [|reflexivity]. intros _ [a A]. apply find_named in A. congruence.
Qed.
Lemma named_in h nodes x a : node_named h nodes x a -> In a nodes /\ n_id (nodes_at h a) = x.
Proof. intros [p [q [-> [E _]]]]. split; [apply in_or_app; right; left; reflexivity|exact E]. Qed.
Lemma named_exists h nodes x : (exists a, node_named h nodes x a) <-> In x (map (fun a => n_id (nodes_at h a)) nodes).
Proof.
  split.
  - intros [a A]. apply named_in in A. destruct A as [A <-]. apply (in_map (fun a => n_id (nodes_at h a))). exact A.
  - intro I. destruct (find (fun b => String.eqb x (n_id (nodes_at h b))) nodes) as [a|] eqn:E.
    + exists a. apply find_named. exact E.
    + exfalso. apply in_map_iff in I. destruct I as [a [A I]]. apply (find_none _ _ E) in I. cbn in I.
      rewrite A, String.eqb_refl in I. discriminate.
Qed.
Lemma named_unique h nodes x a b : node_named h nodes x a -> node_named h nodes x b -> a = b.
Proof. intros A B. apply find_named in A, B. congruence. Qed.

Lemma text_at c k x : text c k x -> at_const c k = Ok (JStr x).
Proof. unfold text, entry_of, at_const. destruct c; try discriminate. intro E. rewrite E. reflexivity. Qed.
Lemma text_id c x : text c "id" x <-> has_id c x.
Proof.
  unfold text, has_id, entry_of. split.
  - destruct c; try discriminate. intro E. exists fields. auto.
  - intros [fs [-> E]]. exact E.
Qed.
Lemma text_id_of c x : text c "id" x -> id_of c = Ok x.
Proof. intro T. unfold id_of. rewrite (text_at c "id" x T). reflexivity. Qed.

(** ** Creating an edge *)
Definition added_edge (h : heap) (e : nat) (ed : edge) (h' : heap) : Prop :=
  (forall f, edges_at h' f = if Nat.eqb f e then ed else edges_at h f) /\
  forall a, nodes_at h' a = mkNode (n_type (nodes_at h a)) (n_id (nodes_at h a))
    (n_starting (nodes_at h a) ++ if Nat.eqb a (e_start ed) then [e] else [])
    (n_ending (nodes_at h a) ++ if Nat.eqb a (e_end ed) then [e] else []).
Lemma node_eta n : mkNode (n_type n) (n_id n) (n_starting n ++ []) (n_ending n ++ []) = n.
Proof. rewrite !app_nil_r. destruct n; reflexivity. Qed.
Lemma attach_both h e ed : e_start ed <> e_end ed ->
  added_edge h e ed
   (fst (attach_ending_edge (fst (attach_starting_edge (mkHeap (nodes_at h) (upd (edges_at h) e ed)) (e_start ed) e)) (e_end ed) e)).
Proof.
  intro N. unfold attach_starting_edge. cbn [nodes_at edges_at]. replace (upd (edges_at h) e ed e) with ed
    by (unfold upd; rewrite Nat.eqb_refl; reflexivity). rewrite Nat.eqb_refl. cbn [fst].
  unfold attach_ending_edge. cbn [nodes_at edges_at]. replace (upd (edges_at h) e ed e) with ed
    by (unfold upd; rewrite Nat.eqb_refl; reflexivity). rewrite Nat.eqb_refl. cbn [fst]. split; cbn [nodes_at edges_at].
  - intro f. reflexivity.
  - intro a. unfold upd. destruct (Nat.eqb_spec a (e_end ed)) as [->|A]; destruct (Nat.eqb_spec (e_end ed) (e_start ed)) as [B|B]; try congruence.
    + rewrite app_nil_r. reflexivity.
    + destruct (Nat.eqb_spec a (e_start ed)) as [->|C]; cbn.
      * rewrite app_nil_r. reflexivity.
      * symmetry. apply node_eta.
Qed.
Lemma edge_constructor_spec h nodes e type data x f t : text data "id" x -> text data "from" f -> text data "to" t ->
  (exists a b h', node_named h nodes f a /\ node_named h nodes t b /\ a <> b /\ f <> t /\
     edge_constructor h nodes e type data = Ok h' /\ added_edge h e (mkEdge type x a b) h')
  \/ (edge_constructor h nodes e type data = Exc /\
      ((~ exists a, node_named h nodes f a) \/ (~ exists a, node_named h nodes t a) \/ f = t)).
Proof.
  intros I F T. unfold edge_constructor, get_node_from_json.
  rewrite (text_id_of data x I), (text_at data "from" f F), (text_at data "to" t T). cbn [obind get_string].
  destruct (find (fun a => String.eqb f (n_id (nodes_at h a))) nodes) as [a|] eqn:A; cbn [obind].
  2: { right. split; [reflexivity|]. left. apply find_not_named. exact A. }
  destruct (find (fun a => String.eqb t (n_id (nodes_at h a))) nodes) as [b|] eqn:B; cbn [obind].
  2: { right. split; [reflexivity|]. right. left. apply find_not_named. exact B. }
  pose proof (proj1 (find_named _ _ _ _) A) as A'. pose proof (proj1 (find_named _ _ _ _) B) as B'.
  destruct (Nat.eqb_spec a b) as [E|E].
  - right. split; [reflexivity|]. right. right. subst b. apply named_in in A', B'. destruct A', B'. congruence.
  - left. exists a, b. eexists. split; [exact A'|]. split; [exact B'|]. split; [exact E|].
    split; [intros ->; apply E; eapply named_unique; eauto|]. split; [reflexivity|]. apply (attach_both h e (mkEdge type x a b)). exact E.
Qed.
(** What a successful constructor does, without assumptions on the data. *)
Lemma edge_constructor_ok h nodes e type data h' : edge_constructor h nodes e type data = Ok h' ->
  exists x a b, In a nodes /\ In b nodes /\ a <> b /\ added_edge h e (mkEdge type x a b) h'.
Proof.
  unfold edge_constructor, get_node_from_json. intro H. apply obind_Ok in H. destruct H as [x [_ H]].
  apply obind_Ok in H. destruct H as [a [A H]]. apply obind_Ok in A. destruct A as [f [_ A]].
  apply obind_Ok in H. destruct H as [b [B H]]. apply obind_Ok in B. destruct B as [t [_ B]].
  destruct (find (fun c => String.eqb f (n_id (nodes_at h c))) nodes) as [a'|] eqn:FA; [|discriminate]. injection A as ->.
  destruct (find (fun c => String.eqb t (n_id (nodes_at h c))) nodes) as [b'|] eqn:FB; [|discriminate]. injection B as ->.
  destruct (Nat.eqb_spec a b) as [E|E]; [discriminate|]. injection H as <-. exists x, a, b.
  split; [apply find_some in FA; tauto|]. split; [apply find_some in FB; tauto|]. split; [exact E|].
  apply (attach_both h e (mkEdge type x a b)). exact E.
Qed.

(** ** Removing an edge *)
Lemma erase_filter e l : NoDup l -> In e l -> erase_first e l = Some (filter (fun f => negb (Nat.eqb f e)) l).
Proof.
  induction l as [|x l IH]; [intros _ []|]. intros N I. inversion N as [|? ? N1 N2]; subst. cbn [erase_first filter].
  destruct (Nat.eqb_spec x e) as [->|E]; cbn [negb].
  - f_equal. clear -N1. induction l as [|y l IH]; [reflexivity|]. cbn [filter].
    destruct (Nat.eqb_spec y e) as [->|E]; [exfalso; apply N1; left; reflexivity|]. cbn [negb]. f_equal. apply IH.
    intro K. apply N1. right. exact K.
  - destruct I as [I|I]; [congruence|]. rewrite (IH N2 I). reflexivity.
Qed.
Lemma erase_none e l : ~ In e l -> erase_first e l = None.
Proof.
  induction l as [|x l IH]; [reflexivity|]. intro N. cbn [erase_first]. destruct (Nat.eqb_spec x e) as [->|E].
  - exfalso. apply N. left. reflexivity.
  - rewrite IH; [reflexivity|]. intro K. apply N. right. exact K.
Qed.
Lemma filter_comm {A} (p q : A -> bool) l : filter p (filter q l) = filter q (filter p l).
Proof.
  induction l as [|x l IH]; [reflexivity|]. cbn [filter]. destruct (p x) eqn:P, (q x) eqn:Q; cbn [filter]; rewrite ?P, ?Q, ?IH; reflexivity.
Qed.
Lemma filter_keep {A} (p : A -> bool) l : (forall x, In x l -> p x = true) -> filter p l = l.
Proof.
  induction l as [|x l IH]; [reflexivity|]. intro H. cbn [filter]. rewrite (H x) by (left; reflexivity). f_equal.
  apply IH. intros; apply H; right; auto.
Qed.
Lemma NoDup_filter' {A} (p : A -> bool) l : NoDup l -> NoDup (filter p l).
Proof. apply NoDup_filter. Qed.

Definition without (e : nat) (l : list nat) : list nat := filter (fun f => negb (Nat.eqb f e)) l.
Lemma in_without e f l : In f (without e l) <-> In f l /\ f <> e.
Proof.
  unfold without. rewrite filter_In. destruct (Nat.eqb_spec f e); cbn; intuition congruence.
Qed.

(** Removing the edge at its starting node. *)
Lemma remove_at_start h nodes live e : attachments h nodes live -> inside h nodes live -> NoDup live -> In e live ->
  let a := e_start (edges_at h e) in
  remove_edge h a e = (mkHeap (upd (nodes_at h) a (mkNode (n_type (nodes_at h a)) (n_id (nodes_at h a))
      (without e (n_starting (nodes_at h a))) (n_ending (nodes_at h a)))) (edges_at h), true).
Proof.
  intros A I N E a. destruct (I e E) as [Is _]. destruct (A a Is) as [As _]. unfold remove_edge.
  rewrite erase_filter; [reflexivity| |].
  - rewrite As. apply NoDup_filter. exact N.
  - rewrite As. apply filter_In. split; [exact E|]. apply Nat.eqb_refl.
Qed.
(** Removing it at its ending node. *)
Lemma remove_at_end h nodes live e : attachments h nodes live -> inside h nodes live -> NoDup live -> In e live ->
  let b := e_end (edges_at h e) in
  remove_edge h b e = (mkHeap (upd (nodes_at h) b (mkNode (n_type (nodes_at h b)) (n_id (nodes_at h b))
      (n_starting (nodes_at h b)) (without e (n_ending (nodes_at h b))))) (edges_at h), true).
Proof.
  intros A I N E b. destruct (I e E) as [_ [Ie Ne]]. destruct (A b Ie) as [As Ae]. unfold remove_edge.
  rewrite erase_none.
  2: { rewrite As. intro K. apply filter_In in K. destruct K as [_ K]. apply Nat.eqb_eq in K. contradiction. }
  rewrite erase_filter; [reflexivity| |].
  - rewrite Ae. apply NoDup_filter. exact N.
  - rewrite Ae. apply filter_In. split; [exact E|]. apply Nat.eqb_refl.
Qed.
Definition detached_node (h : heap) (e a : nat) : node :=
  mkNode (n_type (nodes_at h a)) (n_id (nodes_at h a))
    (if Nat.eqb a (e_start (edges_at h e)) then without e (n_starting (nodes_at h a)) else n_starting (nodes_at h a))
    (if Nat.eqb a (e_end (edges_at h e)) then without e (n_ending (nodes_at h a)) else n_ending (nodes_at h a)).
Lemma remove_both h nodes live e : attachments h nodes live -> inside h nodes live -> NoDup live -> In e live ->
  let h1 := fst (remove_edge h (e_start (edges_at h e)) e) in
  let r := remove_edge h1 (e_end (edges_at h e)) e in
  snd (remove_edge h (e_start (edges_at h e)) e) = true /\ snd r = true /\ edges_at (fst r) = edges_at h /\
  forall a, nodes_at (fst r) a = detached_node h e a.
Proof.
  intros A I N E h1 r. destruct (I e E) as [Is [Ie Ne]].
  pose proof (remove_at_start h nodes live e A I N E) as R1. cbn zeta in R1.
  assert (H1 : h1 = fst (remove_edge h (e_start (edges_at h e)) e)) by reflexivity. rewrite R1 in H1. cbn [fst] in H1.
  destruct (A _ Ie) as [As Ae]. rewrite R1. cbn [snd]. split; [reflexivity|].
  assert (R : r = (mkHeap (upd (nodes_at h1) (e_end (edges_at h e)) (mkNode (n_type (nodes_at h (e_end (edges_at h e)))) (n_id (nodes_at h (e_end (edges_at h e))))
      (n_starting (nodes_at h (e_end (edges_at h e)))) (without e (n_ending (nodes_at h (e_end (edges_at h e))))))) (edges_at h), true)).
  { unfold r, remove_edge. assert (Q : nodes_at h1 (e_end (edges_at h e)) = nodes_at h (e_end (edges_at h e))).
    { rewrite H1. cbn [nodes_at]. unfold upd. destruct (Nat.eqb_spec (e_end (edges_at h e)) (e_start (edges_at h e))); [congruence|reflexivity]. }
    rewrite Q. rewrite erase_none.
    2: { rewrite As. intro K. apply filter_In in K. destruct K as [_ K]. apply Nat.eqb_eq in K. contradiction. }
    rewrite erase_filter; [rewrite H1; reflexivity| |].
    - rewrite Ae. apply NoDup_filter. exact N.
    - rewrite Ae. apply filter_In. split; [exact E|]. apply Nat.eqb_refl. }
  rewrite R. cbn [fst snd edges_at nodes_at]. split; [reflexivity|]. split; [reflexivity|].
  intro a. unfold upd, detached_node. destruct (Nat.eqb_spec a (e_end (edges_at h e))) as [->|M].
  - destruct (Nat.eqb_spec (e_end (edges_at h e)) (e_start (edges_at h e))); [congruence|reflexivity].
  - rewrite H1. cbn [nodes_at]. unfold upd. destruct (Nat.eqb_spec a (e_start (edges_at h e))) as [->|M'].
    + reflexivity.
    + destruct (nodes_at h a); reflexivity.
Qed.

(** ** Sequences *)
Lemma added_names h e ed h' : added_edge h e ed h' -> same_names h h'.
Proof. intros [_ A] a. rewrite A. split; reflexivity. Qed.
Lemma names_trans h h1 h2 : same_names h h1 -> same_names h1 h2 -> same_names h h2.
Proof. intros A B a. destruct (A a), (B a). split; congruence. Qed.
Lemma filter_ext_in' {A} (p q : A -> bool) l : (forall x, In x l -> p x = q x) -> filter p l = filter q l.
Proof. apply filter_ext_in. Qed.
Lemma added_attachments h nodes live e ed h' : attachments h nodes live -> inside h nodes live -> ~ In e live ->
  In (e_start ed) nodes -> In (e_end ed) nodes -> e_start ed <> e_end ed -> added_edge h e ed h' ->
  attachments h' nodes (live ++ [e]) /\ inside h' nodes (live ++ [e]).
Proof.
  intros A I F S E N [Q P].
  assert (Qe : edges_at h' e = ed) by (rewrite Q, Nat.eqb_refl; reflexivity).
  assert (Ql : forall f, In f live -> edges_at h' f = edges_at h f).
  { intros f K. rewrite Q. destruct (Nat.eqb_spec f e); [congruence|reflexivity]. }
  split.
  - intros a Ia. rewrite !P. destruct (A a Ia) as [A1 A2]. cbn [n_starting n_ending]. rewrite !filter_app. cbn [filter].
    rewrite Qe, A1, A2, (Nat.eqb_sym a), (Nat.eqb_sym a (e_end ed)). split; f_equal; apply filter_ext_in; intros f K; rewrite Ql by exact K; reflexivity.
  - intros f K. apply in_app_or in K. destruct K as [K|[<-|[]]]; [rewrite Ql by exact K; apply I; exact K|].
    rewrite Qe. auto.
Qed.
Lemma removed_attachments h nodes live e : attachments h nodes live -> inside h nodes live -> NoDup live -> In e live ->
  let h' := fst (remove_edge (fst (remove_edge h (e_start (edges_at h e)) e)) (e_end (edges_at h e)) e) in
  attachments h' nodes (without e live) /\ inside h' nodes (without e live) /\ same_names h h' /\ edges_at h' = edges_at h.
Proof.
  intros A I N E h'. destruct (remove_both h nodes live e A I N E) as [_ [_ [Q P]]]. fold h' in Q, P.
  split; [|split; [|split; [|exact Q]]].
  - intros a Ia. rewrite Q, !P. unfold detached_node. cbn [n_starting n_ending]. destruct (A a Ia) as [A1 A2].
    rewrite A1, A2. unfold without. split; rewrite (filter_comm _ (fun f => negb (Nat.eqb f e))).
    + destruct (Nat.eqb_spec a (e_start (edges_at h e))) as [M|M]; [reflexivity|].
      rewrite (filter_keep (fun f => negb (Nat.eqb f e))); [reflexivity|]. intros f K. apply filter_In in K. destruct K as [_ K].
      apply Nat.eqb_eq in K. destruct (Nat.eqb_spec f e); [subst; congruence|reflexivity].
    + destruct (Nat.eqb_spec a (e_end (edges_at h e))) as [M|M]; [reflexivity|].
      rewrite (filter_keep (fun f => negb (Nat.eqb f e))); [reflexivity|]. intros f K. apply filter_In in K. destruct K as [_ K].
      apply Nat.eqb_eq in K. destruct (Nat.eqb_spec f e); [subst; congruence|reflexivity].
  - intros f K. apply in_without in K. rewrite Q. apply I. tauto.
  - intro a. rewrite P. split; reflexivity.
Qed.
Lemma NoDup_snoc {A} (l : list A) x : NoDup l -> ~ In x l -> NoDup (l ++ [x]).
Proof.
  intros N I. apply (Permutation_NoDup (l := x :: l)); [|constructor; assumption].
  apply Permutation_cons_append.
Qed.
Lemma run_spec nodes h live h' live' : run nodes h live h' live' ->
  attachments h nodes live -> inside h nodes live -> NoDup live ->
  attachments h' nodes live' /\ inside h' nodes live' /\ NoDup live' /\ same_names h h'.
Proof.
  intro R. induction R as [h live|h live e type data h1 h' live' F C R IH|h live e h' live' E R IH]; intros A I N.
  - split; [exact A|]. split; [exact I|]. split; [exact N|]. intro a. split; reflexivity.
  - destruct (edge_constructor_ok _ _ _ _ _ _ C) as [x [a [b [Ia [Ib [Nab Ad]]]]]].
    destruct (added_attachments h nodes live e (mkEdge type x a b) h1 A I F Ia Ib Nab Ad) as [A1 I1].
    destruct (IH A1 I1 (NoDup_snoc _ _ N F)) as [A2 [I2 [N2 S2]]].
    split; [exact A2|]. split; [exact I2|]. split; [exact N2|]. eapply names_trans; [eapply added_names; exact Ad|exact S2].
  - destruct (removed_attachments h nodes live e A I N E) as [A1 [I1 [S1 _]]].
    destruct (IH A1 I1 (NoDup_filter _ N)) as [A2 [I2 [N2 S2]]].
    split; [exact A2|]. split; [exact I2|]. split; [exact N2|]. eapply names_trans; eauto.
Qed.

(** ** Net *)
Lemma exists_node_spec nodes a : exists_node nodes a = if in_dec Nat.eq_dec a nodes then Some a else None.
Proof.
  unfold exists_node. destruct (in_dec Nat.eq_dec a nodes) as [I|I].
  - induction nodes as [|b nodes IH]; [destruct I|]. cbn [find]. destruct (Nat.eqb_spec a b) as [->|E]; [reflexivity|].
    apply IH. destruct I as [I|I]; [congruence|exact I].
  - apply find_none_iff_aux. intros x K. apply Nat.eqb_neq. intros ->. contradiction.
Qed.
Lemma attached_in_spec h nodes lists a e : attached_in h nodes lists a e = true <-> In a nodes /\ In e (lists (nodes_at h a)).
Proof.
  unfold attached_in. rewrite exists_node_spec. destruct (in_dec Nat.eq_dec a nodes) as [I|I]; [|split; [discriminate|tauto]].
  rewrite existsb_exists. split.
  - intros [x [K E]]. apply Nat.eqb_eq in E. subst x. auto.
  - intros [_ K]. exists e. split; [exact K|apply Nat.eqb_refl].
Qed.
Lemma net_constructor_spec h nodes edges :
  (net_constructor h nodes edges = Ok (mkNet h nodes edges) /\
   forall e, In e edges -> In (e_start (edges_at h e)) nodes /\ In (e_end (edges_at h e)) nodes /\
     In e (n_starting (nodes_at h (e_start (edges_at h e)))) /\ In e (n_ending (nodes_at h (e_end (edges_at h e)))))
  \/ (net_constructor h nodes edges = Exc /\ exists e, In e edges /\
       ~ (In (e_start (edges_at h e)) nodes /\ In (e_end (edges_at h e)) nodes /\
          In e (n_starting (nodes_at h (e_start (edges_at h e)))) /\ In e (n_ending (nodes_at h (e_end (edges_at h e)))))).
Proof.
  unfold net_constructor. destruct (forallb (edge_checked h nodes) edges) eqn:F.
  - left. split; [reflexivity|]. intros e E. rewrite forallb_forall in F. specialize (F e E). unfold edge_checked in F.
    apply andb_true_iff in F. destruct F as [F1 F2]. apply attached_in_spec in F1, F2. tauto.
  - right. split; [reflexivity|]. induction edges as [|e edges IH]; [discriminate|]. cbn [forallb] in F.
    destruct (edge_checked h nodes e) eqn:C.
    + destruct (IH F) as [f [K1 K2]]. exists f. split; [right; exact K1|exact K2].
    + exists e. split; [left; reflexivity|]. intros [K1 [K2 [K3 K4]]]. unfold edge_checked in C.
      rewrite (proj2 (attached_in_spec h nodes n_starting _ e) (conj K1 K3)), (proj2 (attached_in_spec h nodes n_ending _ e) (conj K2 K4)) in C.
      discriminate.
Qed.
Lemma net_accepts h nodes live : attachments h nodes live -> inside h nodes live ->
  forall edges, (forall e, In e edges -> In e live) -> net_constructor h nodes edges = Ok (mkNet h nodes edges).
Proof.
  intros A I edges S. destruct (net_constructor_spec h nodes edges) as [[E _]|[_ [e [E K]]]]; [exact E|].
  exfalso. apply K. apply S in E. destruct (I e E) as [I1 [I2 _]]. destruct (A _ I1) as [A1 _], (A _ I2) as [_ A2].
  rewrite A1, A2, !filter_In, !Nat.eqb_refl. tauto.
Qed.
